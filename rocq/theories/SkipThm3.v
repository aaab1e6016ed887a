(** * Proofs about SkipList: the public calls *)
From Coq Require Import Sorted.
From Verif Require Import Base NumOrd ListModel ListRep ListSpec ListPure ListCore ListCore2 ListOps ListOps2 ListOps3 SkipModel SkipSpec SkipThm SkipThm2.
Local Open Scope py_scope.

Section Framed.
Context {F : frame}.
Definition Good (self : nat) (ks : kst) (A : towers) : Prop := exists r os G, Inv self ks r os G A /\ length G = theight A.

(** ** The specification's updates *)
Lemma tower_cases x A : StronglySorted nlt (elems A) ->
  (exists A1 A2, A = A1 ++ A2 /\ below x A1 /\ above x A2 /\ (forall h, tput x h A = A1 ++ (x, h) :: A2)) \/
  (exists A1 h A2, A = A1 ++ (x, h) :: A2 /\ below x A1 /\ above x A2 /\ (forall h, tput x h A = A)).
Proof.
  induction A as [|[y k] A IH]; intros HS.
  - left. exists [], []. split_and!; try done; constructor.
  - cbn in HS. apply StronglySorted_inv in HS as [HS HF]. cbn [tput]. destruct (num_ltb x y) eqn:E.
    + left. exists [], ((y, k) :: A). split_and!; try done; [constructor|]. constructor; [done|]. apply Forall_forall. intros p Hp. eapply nlt_trans; [exact E|].
      rewrite Forall_forall in HF. apply HF. by apply elem_of_list_fmap_1.
    + destruct (decide (x = y)) as [->|Hne].
      * right. exists [], k, A. split_and!; try done; [constructor|]. apply Forall_forall. intros p Hp. rewrite Forall_forall in HF. apply HF. by apply elem_of_list_fmap_1.
      * assert (nlt y x) as Hyx. { unfold nlt. destruct x, y; cbn in *; try done. apply Z.ltb_lt. apply Z.ltb_ge in E. assert (z <> z0) by congruence. lia. }
        destruct (IH HS) as [(A1 & A2 & -> & H1 & H2 & Hp)|(A1 & h & A2 & -> & H1 & H2 & Hp)].
        -- left. exists ((y, k) :: A1), A2. split_and!; try done; [by constructor|]. intros h. by rewrite Hp.
        -- right. exists ((y, k) :: A1), h, A2. split_and!; try done; [by constructor|]. intros h'. by rewrite Hp.
Qed.
Lemma tdel_app x A B : tdel x (A ++ B) = tdel x A ++ tdel x B.
Proof. apply filter_app. Qed.
Lemma tdel_below x A : below x A -> tdel x A = A.
Proof.
  unfold tdel. induction 1 as [|p A Hp _ IH]; [done|]. rewrite filter_cons, decide_True; [by rewrite IH|]. intros Heq. cbn in Hp. rewrite Heq in Hp. by apply nlt_irrefl in Hp.
Qed.
Lemma tdel_above x A : above x A -> tdel x A = A.
Proof.
  unfold tdel. induction 1 as [|p A Hp _ IH]; [done|]. rewrite filter_cons, decide_True; [by rewrite IH|]. intros Heq. cbn in Hp. rewrite Heq in Hp. by apply nlt_irrefl in Hp.
Qed.
Lemma tdel_absent x A1 A2 : below x A1 -> above x A2 -> tdel x (A1 ++ A2) = A1 ++ A2.
Proof. intros H1 H2. by rewrite tdel_app, tdel_below, tdel_above. Qed.
Lemma tdel_present x A1 h A2 : below x A1 -> above x A2 -> tdel x (A1 ++ (x, h) :: A2) = A1 ++ A2.
Proof. intros H1 H2. rewrite tdel_app, tdel_below by done. f_equal. unfold tdel. rewrite filter_cons. cbn. case_decide; [done|]. by apply tdel_above. Qed.
Lemma absent_in x A1 A2 : below x A1 -> above x A2 -> x ∉ elems (A1 ++ A2).
Proof.
  intros H1 H2. rewrite elems_app. intros [Hx|Hx]%elem_of_app.
  - apply elem_of_list_fmap in Hx as (p & -> & Hp). apply (proj1 (Forall_forall _ _) H1) in Hp. by apply nlt_irrefl in Hp.
  - by eapply nlt_irrefl, above_in.
Qed.
Lemma max_list_app l l' : max_list (l ++ l') = max_list l `max` max_list l'.
Proof. induction l as [|x l IH]; [done|]. cbn. rewrite IH. lia. Qed.
Lemma theight_mid A1 x h A2 : theight (A1 ++ (x, h) :: A2) = theight (A1 ++ A2) `max` S h.
Proof. unfold theight. rewrite !map_app, !max_list_app. cbn. lia. Qed.
Lemma max_list_ge l N : Forall (fun n => n < N) l -> 0 < N -> max_list l < N.
Proof. induction 1; cbn; lia. Qed.
Lemma max_list_in l x : x ∈ l -> x <= max_list l.
Proof. induction 1; cbn; lia. Qed.

(** ** insert *)
Lemma insert_ok self ks A x h : Good self ks A -> x <> NegInf ->
  exists ks', sl_insert self (PNum x) h ks = Ok tt ks' /\ Good self ks' (tput x h A).
Proof.
  intros (r & os & G & H & Hl) Hx. pose proof (i_rep _ _ _ _ _ _ H) as HR. unfold sl_insert. cbn [check_num]. erewrite (bind_ok (ret _)) by done.
  destruct (tower_cases x A (r_sort _ _ _ _ HR)) as [(A1 & A2 & -> & H1 & H2 & Hp)|(A1 & h0 & A2 & -> & H1 & H2 & Hp)]; rewrite Hp.
  - destruct (search_absent _ _ _ _ _ _ _ _ H Hx H1 H2) as (prev & last & o & a & l & b & E & HS & Hlast). rewrite (bind_ok _ _ _ _ _ E). cbn [fst snd].
    pose proof (sp_rep _ _ _ _ _ _ _ _ _ _ HS) as Hr.
    erewrite (bind_ok (lift _)); [|eapply lift_ok0, get_data_in; [exact Hr|set_solver]].
    destruct (vals_num _ _ l (sp_a _ _ _ _ _ _ _ _ _ _ HS)) as (y & Ey & Hy); [set_solver|]. rewrite Ey, py_eq_num, bool_decide_eq_false_2.
    2:{ intros ->. by eapply nlt_irrefl, lev_below. }
    destruct (insert_skip _ _ _ _ _ x Hr) as (s1 & s2 & E1 & [Ho1 Hm1] & E2 & Hr2 & Hm2).
    set (n := GN (length (s_nodes (k_st ks))) (PNum x) (Fin 0) None) in *.
    rewrite (bind_ok _ _ _ _ _ (lift_ok _ _ _ _ E1)).
    unfold level_list. unfold get_sl at 1. unfold bind at 1 2. cbn [k_sls]. rewrite (i_sl _ _ _ _ _ _ H). cbn [fst].
    unfold get_lls at 1. unfold bind at 1. cbn [k_lls]. rewrite (i_ls _ _ _ _ _ _ H). rewrite (sp_o _ _ _ _ _ _ _ _ _ _ HS). unfold ret at 1.
    rewrite (bind_ok (lift _) _ _ _ _ (lift_ok _ (KSt s1 (k_lls ks) (k_sls ks)) _ _ E2)). cbn [k_lls k_sls].
    set (ks2 := KSt s2 (k_lls ks) (k_sls ks)).
    assert (Inv self ks2 r os (<[0 := a ++ l :: n :: b]> G) (A1 ++ part x 1 ++ A2)) as Hi2.
    { split; cbn; [rewrite insert_length; apply (i_sl _ _ _ _ _ _ H)|apply (i_ls _ _ _ _ _ _ H)| |apply (i_lls _ _ _ _ _ _ H)|apply (i_sls _ _ _ _ _ _ H)].
      eapply (Rep_insert (k_st ks) s2 os G A1 A2 x 0 o a l b n); try done; [by left|]. apply Forall_singleton. done. }
    destruct (promote_loop_ok self x A1 A2 last r Hx H1 H2 h ks2 _ _ (a ++ l :: n :: b) n 0 Hi2) as (ks3 & os3 & G3 & E3 & Hi3 & Hl3); try done.
    { apply list_lookup_insert, (r_pos _ _ _ _ HR). }
    { set_solver. }
    { intros i _. rewrite insert_length. intros Hi. rewrite lastloc_insert by lia. by apply Hlast. }
    exists ks3. split; [exact E3|]. exists r, os3, G3. split; [exact Hi3|]. rewrite Hl3, insert_length, theight_mid, Hl. done.
  - destruct (search_present _ _ _ _ _ _ _ _ _ H Hx H1 H2) as (last & o & a & l & f & b & E & HS & Hf & _). rewrite (bind_ok _ _ _ _ _ E). cbn [fst snd].
    erewrite (bind_ok (lift _)); [|eapply lift_ok0, get_data_in; [exact (sp_rep _ _ _ _ _ _ _ _ _ _ HS)|set_solver]].
    rewrite Hf, py_eq_num, bool_decide_eq_true_2 by done. exists ks. split; [done|]. by exists r, os, G.
Qed.
Lemma contains_num_ok self ks A x : Good self ks A -> x <> NegInf -> sl_contains self (PNum x) ks = Ok (bool_decide (x ∈ elems A)) ks.
Proof.
  intros (r & os & G & H & Hl) Hx. pose proof (i_rep _ _ _ _ _ _ H) as HR. unfold sl_contains.
  destruct (tower_cases x A (r_sort _ _ _ _ HR)) as [(A1 & A2 & -> & H1 & H2 & _)|(A1 & h0 & A2 & -> & H1 & H2 & _)].
  - destruct (search_absent _ _ _ _ _ _ _ _ H Hx H1 H2) as (prev & last & o & a & l & b & E & HS & Hlast). rewrite (bind_ok _ _ _ _ _ E). cbn [fst snd].
    erewrite (bind_ok (lift _)); [|eapply lift_ok0, get_data_in; [exact (sp_rep _ _ _ _ _ _ _ _ _ _ HS)|set_solver]].
    destruct (vals_num _ _ l (sp_a _ _ _ _ _ _ _ _ _ _ HS)) as (y & Ey & Hy); [set_solver|]. rewrite Ey, py_eq_num, !bool_decide_eq_false_2; [done| |].
    + by apply absent_in.
    + intros ->. by eapply nlt_irrefl, lev_below.
  - destruct (search_present _ _ _ _ _ _ _ _ _ H Hx H1 H2) as (last & o & a & l & f & b & E & HS & Hf & _). rewrite (bind_ok _ _ _ _ _ E). cbn [fst snd].
    erewrite (bind_ok (lift _)); [|eapply lift_ok0, get_data_in; [exact (sp_rep _ _ _ _ _ _ _ _ _ _ HS)|set_solver]].
    rewrite Hf, py_eq_num, !bool_decide_eq_true_2; [done| |done]. rewrite elems_app. cbn. set_solver.
Qed.

(** ** remove *)
Lemma catch_up_ok s o x : forall m a n f b fuel, rep CLL s o (a ++ n :: m ++ f :: b) ->
  Forall (fun c => exists y, g_val c = PNum y /\ y <> x) m -> g_val f = PNum x -> length m < fuel ->
  catch_up fuel (g_loc n) (PNum x) s = Ok (g_loc (lastof n m)) s.
Proof.
  induction m as [|c m IH]; intros a n f b fuel Hr Hm Hf Hfu; (destruct fuel as [|fuel]; [cbn in Hfu; lia|]); cbn [catch_up];
    rewrite (bind_ok _ _ _ _ _ (get_next_ok _ _ _ _ _ Hr)); cbn [app hd_loc deref]; (erewrite (bind_ok (ret _)) by done).
  - erewrite bind_ok; [|eapply get_data_in; [exact Hr|set_solver]]. rewrite Hf, py_eq_num, bool_decide_eq_true_2 by done. done.
  - apply Forall_cons in Hm as [(y & Ey & Hne) Hm]. erewrite bind_ok; [|eapply get_data_in; [exact Hr|set_solver]]. rewrite Ey, py_eq_num, bool_decide_eq_false_2 by done.
    cbn [lastof]. apply (IH (a ++ [n]) c f b); [by rewrite <- app_assoc|done|done|cbn in Hfu; lia].
Qed.
Lemma split_catch s os G A1 A2 x k o a l f b n fuel : Split s os G A1 A2 k o a l (f :: b) -> x <> NegInf -> below x A1 -> g_val f = PNum x -> n ∈ a ++ [l] -> length (s_nodes s) < fuel ->
  catch_up fuel (g_loc n) (PNum x) s = Ok (g_loc l) s.
Proof.
  intros [Ho Hg Hr Ha Hb] Hx H1 Hf Hn Hfu. apply elem_of_list_split in Hn as (a1 & a2 & E).
  assert (a ++ l :: f :: b = a1 ++ n :: a2 ++ f :: b) as E'. { change (l :: f :: b) with ([l] ++ f :: b). rewrite app_assoc, E. by rewrite <- app_assoc. }
  rewrite E' in Hr. erewrite catch_up_ok; [|exact Hr| |done|].
  - f_equal. f_equal. destruct (lastof_app a1 n a2) as (a' & E3). rewrite <- E in E3. by apply app_inj_tail in E3 as [_ <-].
  - apply Forall_forall. intros c Hc. destruct (vals_num _ _ c Ha) as (y & Ey & Hy); [rewrite E; set_solver|]. exists y. split; [done|]. intros ->. by eapply nlt_irrefl, lev_below.
  - apply rep_size in Hr. rewrite app_length in Hr. cbn in Hr. rewrite app_length in Hr. cbn in Hr. lia.
Qed.
Lemma split_len1 s os G A1 A2 k o a l b : Split s os G A1 A2 k o a l b -> length (a ++ l :: b) = 1 -> up A1 k = [] /\ up A2 k = [].
Proof.
  intros [Ho Hg Hr Ha Hb] Hl. rewrite app_length in Hl. cbn in Hl. destruct a; [|cbn in Hl; lia]. destruct b; [|cbn in Hl; lia]. cbn in Ha, Hb. unfold lev in Ha. cbn in Ha.
  destruct (up A1 k); [|done]. by destruct (up A2 k).
Qed.
Lemma up_nil_lt A k : up A k = [] -> Forall (fun p => p.2 < k) A.
Proof.
  intros H. apply Forall_forall. intros [y h] Hp. cbn. destruct (decide (h < k)) as [|Hk]; [done|]. assert (y ∈ up A k) as Hy by (apply up_in; exists h; split; [done|lia]). rewrite H in Hy. by apply elem_of_nil in Hy.
Qed.
Lemma theight_lt A N : Forall (fun p => p.2 < N) A -> 0 < N -> theight A <= N.
Proof. intros H HN. unfold theight. assert (max_list (map snd A) < N); [|lia]. apply max_list_ge; [|done]. by apply Forall_map. Qed.
Lemma theight_ge A k y : y ∈ up A k -> S k <= theight A.
Proof. intros (h & Hin & Hk)%up_in. unfold theight. assert (h <= max_list (map snd A)); [|lia]. apply max_list_in. by apply (elem_of_list_fmap_1 snd _ _ Hin). Qed.
Lemma theight_part A1 x k A2 : theight (A1 ++ part x (S k) ++ A2) = theight (A1 ++ A2) `max` S k.
Proof. apply theight_mid. Qed.
(** One level of the removal loop. *)
Lemma remove_step self ks r os G A1 A2 x k o a l f b : Inv self ks r os G (A1 ++ part x (S k) ++ A2) -> length G = theight (A1 ++ part x (S k) ++ A2) ->
  x <> NegInf -> below x A1 -> above x A2 -> Split (k_st ks) os G A1 (part x (S k) ++ A2) k o a l (f :: b) ->
  exists ks1 os1 G1, (lift (remove_node o (Some (g_loc l)) (g_loc f)) ;; (let! n := lift (ll_len o) in if negb (Nat.eqb k 0) && Nat.eqb n 1 then remove_level self k else ret tt)) ks = Ok tt ks1 /\
    Inv self ks1 r os1 G1 (A1 ++ part x k ++ A2) /\ length G1 = theight (A1 ++ part x k ++ A2) /\
    (forall j, j < k -> os1 !! j = os !! j /\ G1 !! j = G !! j) /\
    get_down (g_loc f) (k_st ks1) = Ok (g_dn f) (k_st ks1) /\ get_down (g_loc l) (k_st ks1) = Ok (g_dn l) (k_st ks1).
Proof.
  intros H Ht Hx H1 H2 HS. pose proof HS as [Ho Hg Hr Ha Hb]. pose proof (i_rep _ _ _ _ _ _ H) as HR.
  destruct (remove_skip _ _ _ _ _ _ Hr) as (s1 & E1 & Hr1 & Hm1 & Hcf & Hln).
  pose proof (Rep_remove _ _ _ _ _ _ _ _ _ _ _ _ _ HR HS Hx H1 H2 Hr1 Hm1) as HR1. set (G1 := <[k := a ++ l :: b]> G) in *.
  pose proof (lookup_lt_Some _ _ _ Hg) as Hk.
  assert (get_down (g_loc f) s1 = Ok (g_dn f) s1) as Hdf.
  { assert (a ++ l :: f :: b = (a ++ [l]) ++ f :: b) as E by by rewrite <- app_assoc. rewrite E in Hr. destruct (seg_cell _ _ _ _ _ Hr) as (c & Hc & _ & <- & _).
    unfold get_down, bind, get_cell. by rewrite Hcf, Hc. }
  assert (get_down (g_loc l) s1 = Ok (g_dn l) s1) as Hdl. { eapply get_down_in; [exact Hr1|set_solver]. }
  assert (up (part x (S k) ++ A2) k = x :: up A2 k) as Eup. { rewrite up_app, up_part. case_decide; [done|lia]. }
  rewrite Eup in Hb. cbn in Hb. injection Hb as Hf Hb.
  assert (forall (ks0 : kst), k_st ks0 = s1 -> (lift (ll_len o)) ks0 = Ok (length (a ++ l :: b)) ks0) as Hlen. { intros ks0 <-. apply lift_ok0. by eapply ll_len_ok. }
  rewrite (bind_ok _ _ _ _ _ (lift_ok _ _ _ _ E1)). erewrite bind_ok by (by apply Hlen). rewrite theight_part in Ht.
  destruct (negb (Nat.eqb k 0) && Nat.eqb (length (a ++ l :: b)) 1) eqn:Ec.
  - apply andb_true_iff in Ec as [Ek El]. apply negb_true_iff, Nat.eqb_neq in Ek. apply Nat.eqb_eq in El.
    assert (up A1 k = [] /\ up A2 k = []) as [U1 U2].
    { rewrite app_length in El. cbn in El. destruct a; [|cbn in El; lia]. destruct b; [|cbn in El; lia]. cbn in Ha, Hb. unfold lev in Ha. cbn in Ha. destruct (up A1 k); [|done]. by destruct (up A2 k). }
    apply up_nil_lt in U1. apply up_nil_lt in U2.
    assert (theight (A1 ++ A2) <= k) as Hle. { apply theight_lt; [by apply Forall_app|lia]. }
    assert (length G = S k) as HG by lia. assert (length os = S k) as Hos by (rewrite (r_len _ _ _ _ HR); done).
    unfold remove_level. unfold get_sl at 1. unfold bind at 1. cbn [k_sls]. rewrite (i_sl _ _ _ _ _ _ H). cbn [fst snd].
    rewrite (proj2 (Nat.leb_le 1 k)) by lia. rewrite (proj2 (Nat.ltb_lt k (length G))) by lia. cbn [andb py_assert]. unfold bind at 1, ret at 1.
    unfold get_lls at 1. unfold bind at 1. cbn [k_lls]. rewrite (i_ls _ _ _ _ _ _ H).
    unfold put_lls, put_sl, bind. cbn. eexists _, (take k os), (take k G1). split; [reflexivity|]. rewrite (drop_ge os (S k)), app_nil_r by lia.
    split; [split; cbn|split; [|split; [|done]]].
    + rewrite list_lookup_insert by (eapply lookup_lt_Some, H). do 2 f_equal. rewrite take_length. unfold G1. rewrite insert_length. lia.
    + by rewrite list_lookup_insert by (eapply lookup_lt_Some, H).
    + apply Rep_drop; [exact HR1|lia|unfold G1; rewrite insert_length; lia|]. rewrite !Forall_app. split_and!; try done. destruct k; [constructor|]. apply Forall_singleton. cbn. lia.
    + intros r' ol Hol. destruct (i_lls _ _ _ _ _ _ H _ _ Hol) as [Hne Hol']. by rewrite list_lookup_insert_ne by done.
    + intros j p Hj. destruct (i_sls _ _ _ _ _ _ H _ _ Hj) as [Hne Hj']. by rewrite list_lookup_insert_ne by done.
    + rewrite take_length. unfold G1. rewrite insert_length. destruct k as [|k]; [done|]. rewrite theight_part. lia.
    + intros j Hj. rewrite !lookup_take by done. split; [done|]. unfold G1. rewrite list_lookup_insert_ne by lia. done.
  - exists (KSt s1 (k_lls ks) (k_sls ks)), os, G1. split; [done|]. split; [|split; [|split; [|done]]].
    + split; cbn; [unfold G1; rewrite insert_length; apply (i_sl _ _ _ _ _ _ H)|apply (i_ls _ _ _ _ _ _ H)|done|apply (i_lls _ _ _ _ _ _ H)|apply (i_sls _ _ _ _ _ _ H)].
    + unfold G1. rewrite insert_length, Ht. destruct k as [|k]; cbn [part app]; [unfold theight; lia|]. rewrite theight_mid.
      assert (length (a ++ l :: b) <> 1) as Hne. { intros E. rewrite E in Ec. done. }
      assert (S (S k) <= theight (A1 ++ A2)); [|lia].
      destruct (up A1 (S k)) as [|y ys] eqn:U1; [destruct (up A2 (S k)) as [|y ys] eqn:U2|].
      * exfalso. apply Hne. unfold lev in Ha. rewrite U1 in Ha. cbn in Ha. destruct b; [|done]. assert (length (vals (a ++ [l])) = 1) as E by (rewrite Ha; done). by rewrite map_length in E.
      * apply (theight_ge _ _ y). rewrite up_app, U2. set_solver.
      * apply (theight_ge _ _ y). rewrite up_app, U1. set_solver.
    + intros j Hj. split; [done|]. unfold G1. by rewrite list_lookup_insert_ne by lia.
Qed.
Lemma bind3 {S A B C D} (m1 : M S A) (m2 : A -> M S B) (m3 : B -> M S C) (k : C -> M S D) s c s' :
  (let! x := m1 in let! y := m2 x in m3 y) s = Ok c s' -> (let! x := m1 in let! y := m2 x in let! z := m3 y in k z) s = k c s'.
Proof. unfold bind. destruct (m1 s) as [x s1| |]; try done. destruct (m2 x s1) as [y s2| |]; try done. by intros ->. Qed.
Lemma remove_loop_S self level prev found : remove_loop self (S level) prev found =
      (let! o := level_list self level in
      let! fnd := (match found with Some f => ret f | None => raise AssertionError end) in
      lift (remove_node o prev fnd) ;;
      let! n := lift (ll_len o) in
      (if negb (Nat.eqb level 0) && Nat.eqb n 1 then remove_level self level else ret tt) ;;
      let! found' := lift (get_down fnd) in
      let! prev' := (match prev, found' with
                     | Some p, Some f =>
                         lift (let! pd := get_down p in
                               let! pd' := deref pd in
                               let! d := get_data f in
                               let! fu := get_fuel in
                               let! q := catch_up fu pd' d in
                               ret (Some q))
                     | _, _ => ret prev
                     end) in
      remove_loop self level prev' found').
Proof. done. Qed.
Lemma remove_loop_ok self x A1 A2 r : x <> NegInf -> below x A1 -> above x A2 -> forall k ks os G o a l f b,
  Inv self ks r os G (A1 ++ part x (S k) ++ A2) -> length G = theight (A1 ++ part x (S k) ++ A2) -> Split (k_st ks) os G A1 (part x (S k) ++ A2) k o a l (f :: b) ->
  exists ks', remove_loop self (S k) (Some (g_loc l)) (Some (g_loc f)) ks = Ok tt ks' /\ Good self ks' (A1 ++ A2).
Proof.
  intros Hx H1 H2. induction k as [|k IH]; intros ks os G o a l f b H Ht HS; pose proof (i_rep _ _ _ _ _ _ H) as HR;
    destruct (remove_step self ks r os G A1 A2 x _ o a l f b H Ht Hx H1 H2 HS) as (ks1 & os1 & G1 & E1 & Hi1 & Ht1 & Hsame & Hdf & Hdl);
    rewrite remove_loop_S, (bind_ok _ _ _ _ _ (level_list_ok _ _ _ _ _ _ _ _ H (sp_o _ _ _ _ _ _ _ _ _ _ HS)));
    (erewrite (bind_ok (ret _)) by done); rewrite (bind3 _ _ _ _ _ _ _ E1).
  - pose proof (r_down _ _ _ _ HR 0 _ (sp_g _ _ _ _ _ _ _ _ _ _ HS)) as HD. cbn in HD. rewrite Forall_forall in HD. rewrite (HD f) in Hdf by set_solver.
    rewrite (bind_ok _ _ _ _ _ (lift_ok0 _ _ _ Hdf)). exists ks1. split; [done|]. by exists r, os1, G1.
  - destruct (Rep_split _ _ _ _ _ k HR) as (o' & a' & l' & b' & HS'). { pose proof (lookup_lt_Some _ _ _ (sp_g _ _ _ _ _ _ _ _ _ _ HS)). lia. }
    assert (forall i, i <= k -> up (part x (S (S k)) ++ A2) i = x :: up A2 i) as Eup. { intros i Hi. rewrite up_app, up_part. case_decide; [done|lia]. }
    assert (up (part x (S k) ++ A2) k = x :: up A2 k) as Eup'. { rewrite up_app, up_part. case_decide; [done|lia]. }
    assert (forall y, y ∈ x :: up A2 k -> ~ nlt y x) as Hge.
    { intros y [->|Hy]%elem_of_cons; [apply nlt_irrefl|]. intros Hlt. eapply nlt_irrefl, nlt_trans; [exact Hlt|by eapply up_above]. }
    destruct (Hsame k) as [Eo Eg]; [lia|].
    assert (Split (k_st ks1) os1 G1 A1 (part x (S k) ++ A2) k o' a' l' b') as HS1.
    { pose proof HS' as [Ho' Hg' Hr' Ha' Hb']. rewrite <- Eo in Ho'. rewrite <- Eg in Hg'. split; try done.
      - by eapply (r_rep _ _ _ _ (i_rep _ _ _ _ _ _ Hi1)).
      - by rewrite Eup', <- (Eup k). }
    pose proof (sp_b _ _ _ _ _ _ _ _ _ _ HS1) as Hb1. rewrite Eup' in Hb1. destruct b' as [|f' b']; [done|]. cbn in Hb1. injection Hb1 as Hf' Hb1.
    (* the node below the removed one *)
    pose proof (sp_b _ _ _ _ _ _ _ _ _ _ HS) as Hb. assert (up (part x (S (S k)) ++ A2) (S k) = x :: up A2 (S k)) as Eup2. { rewrite up_app, up_part. case_decide; [done|lia]. }
    rewrite Eup2 in Hb. cbn in Hb. injection Hb as Hf Hb.
    pose proof (r_down _ _ _ _ HR (S k) _ (sp_g _ _ _ _ _ _ _ _ _ _ HS) _ (sp_g _ _ _ _ _ _ _ _ _ _ HS')) as HD. rewrite Forall_forall in HD.
    destruct (HD f) as (m & Hm & Hmv & Hmd); [set_solver|]. rewrite Hf in Hmv.
    assert (m = f') as ->.
    { assert (m ∈ a' ++ [l'] \/ m = f' \/ m ∈ b') as [Hm1|[Hm1|Hm1]]; [set_solver| |done|].
      - destruct (vals_num _ _ _ (sp_a _ _ _ _ _ _ _ _ _ _ HS1) Hm1) as (y & Ey & Hy). rewrite Hmv in Ey. injection Ey as <-. exfalso. by eapply nlt_irrefl, lev_below.
      - destruct (vals_num _ _ _ Hb1 Hm1) as (y & Ey & Hy). rewrite Hmv in Ey. injection Ey as <-. exfalso. by eapply nlt_irrefl, up_above. }
    rewrite Hmd in Hdf. rewrite (bind_ok _ _ _ _ _ (lift_ok0 _ _ _ Hdf)).
    destruct (split_down _ _ _ _ _ _ _ _ _ _ _ _ _ _ l x HR Hx H1 ltac:(intros y; rewrite (Eup k) by lia; apply Hge) HS HS') as (n & Hn & Hnd & _); [set_solver|].
    erewrite (bind_ok (lift _)).
    2:{ apply lift_ok0. rewrite Hnd in Hdl. rewrite (bind_ok _ _ _ _ _ Hdl). cbn [deref]. erewrite (bind_ok (ret _)) by done.
        erewrite bind_ok; [|eapply get_data_in; [exact (sp_rep _ _ _ _ _ _ _ _ _ _ HS1)|set_solver]]. rewrite Hf'. unfold get_fuel at 1, bind at 1.
        erewrite bind_ok; [|eapply split_catch; [exact HS1|done|done|done|done|lia]]. reflexivity. }
    by eapply IH.
Qed.
Lemma remove_ok self ks A x : Good self ks A -> x <> NegInf ->
  exists ks', sl_remove self (PNum x) ks = Ok tt ks' /\ Good self ks' (tdel x A).
Proof.
  intros (r & os & G & H & Hl) Hx. pose proof (i_rep _ _ _ _ _ _ H) as HR. unfold sl_remove.
  destruct (tower_cases x A (r_sort _ _ _ _ HR)) as [(A1 & A2 & -> & H1 & H2 & _)|(A1 & h0 & A2 & -> & H1 & H2 & _)].
  - destruct (search_absent _ _ _ _ _ _ _ _ H Hx H1 H2) as (prev & last & o & a & l & b & E & HS & Hlast). rewrite (bind_ok _ _ _ _ _ E). cbn [fst snd].
    erewrite (bind_ok (lift _)); [|eapply lift_ok0, get_data_in; [exact (sp_rep _ _ _ _ _ _ _ _ _ _ HS)|set_solver]].
    destruct (vals_num _ _ l (sp_a _ _ _ _ _ _ _ _ _ _ HS)) as (y & Ey & Hy); [set_solver|]. rewrite Ey, py_eq_num, !bool_decide_eq_false_2.
    + exists ks. split; [done|]. rewrite tdel_absent by done. by exists r, os, G.
    + intros ->. by eapply nlt_irrefl, lev_below.
  - destruct (search_present _ _ _ _ _ _ _ _ _ H Hx H1 H2) as (last & o & a & l & f & b & E & HS & Hf & Hll). rewrite (bind_ok _ _ _ _ _ E). cbn [fst snd].
    erewrite (bind_ok (lift _)); [|eapply lift_ok0, get_data_in; [exact (sp_rep _ _ _ _ _ _ _ _ _ _ HS)|set_solver]].
    rewrite Hf, py_eq_num, !bool_decide_eq_true_2 by done. rewrite (bind_ok _ _ _ _ _ (num_levels_ok _ _ _ _ _ _ H)). rewrite Hll.
    pose proof (lookup_lt_Some _ _ _ (sp_g _ _ _ _ _ _ _ _ _ _ HS)) as Hh. replace (length G - (length G - 1 - h0)) with (S h0) by lia.
    rewrite tdel_present by done. by eapply remove_loop_ok.
Qed.

(** ** The calls that only read *)
Lemma up_zero A : up A 0 = elems A.
Proof. unfold up, elems. f_equal. induction A as [|p A IH]; [done|]. rewrite filter_cons, decide_True by lia. by rewrite IH. Qed.
Lemma good_base self ks A : Good self ks A -> exists o n g, level_list self 0 ks = Ok o ks /\ rep CLL (k_st ks) o (n :: g) /\ g_val n = PNum NegInf /\ vals g = map PNum (elems A).
Proof.
  intros (r & os & G & H & Hl). pose proof (i_rep _ _ _ _ _ _ H) as HR. destruct (Rep_level _ _ _ _ 0 HR (r_pos _ _ _ _ HR)) as (o & g & Ho & Hg & Hr & Hv).
  unfold lev in Hv. rewrite up_zero in Hv. destruct g as [|n g]; [done|]. cbn in Hv. injection Hv as Hn Hv. exists o, n, g. split_and!; try done. by eapply level_list_ok.
Qed.
Lemma len_ok self ks A : Good self ks A -> sl_len self ks = Ok (length A) ks.
Proof.
  intros H. destruct (good_base _ _ _ H) as (o & n & g & El & Hr & Hn & Hv). unfold sl_len. rewrite (bind_ok _ _ _ _ _ El).
  erewrite bind_ok by (eapply lift_ok0, ll_len_ok; exact Hr). unfold ret. f_equal. cbn. rewrite Nat.sub_0_r. apply (f_equal length) in Hv. unfold elems in Hv. by rewrite !map_length in Hv.
Qed.
Lemma check_index_ok' self ks A i : Good self ks A -> sl_check_index self i ks = match tindex i A with inl n => Ok n ks | inr e => Exc e ks end.
Proof.
  intros H. destruct i as [z|? ? ?|]; cbn; try done. case_bool_decide as Hb.
  - rewrite (proj2 (Z.leb_gt _ _)) by lia. rewrite (bind_ok _ _ _ _ _ (len_ok _ _ _ H)). rewrite (proj2 (Z.ltb_ge _ _)), (proj2 (Z.leb_gt _ _)) by lia. done.
  - destruct (Z.leb_spec z (-1)); [done|]. rewrite (bind_ok _ _ _ _ _ (len_ok _ _ _ H)). rewrite (proj2 (Z.ltb_ge _ _)), (proj2 (Z.leb_le _ _)) by lia. done.
Qed.
Lemma getitem_cll s o g i : rep CLL s o g -> getitem o i s = ll_getitem o i s.
Proof. intros Hr. destruct (obj_eq Hr) as (ob & Hob & Hk & _). unfold getitem. erewrite bind_ok by (by apply get_obj_ok). by rewrite Hk. Qed.
Lemma tindex_lt i A n : tindex i A = inl n -> n < length A.
Proof. destruct i; cbn; try done. case_bool_decide; [|done]. intros [= <-]. lia. Qed.
Lemma base_lookup (g : list gn) A n : vals g = map PNum (elems A) -> n < length A -> exists x, elems A !! n = Some x /\ vals g !! n = Some (PNum x).
Proof.
  intros Hv Hn. destruct (lookup_lt_is_Some_2 (elems A) n) as [x Hx]; [unfold elems; by rewrite map_length|]. exists x. split; [done|]. by rewrite Hv, list_lookup_fmap, Hx.
Qed.
Lemma getitem_ok self ks A i n : Good self ks A -> tindex i A = inl n -> exists x, elems A !! n = Some x /\ sl_getitem self i ks = Ok (PNum x) ks.
Proof.
  intros H Hi. pose proof (tindex_lt _ _ _ Hi) as Hn. destruct (good_base _ _ _ H) as (o & m & g & El & Hr & Hm & Hv).
  destruct (base_lookup g A n Hv Hn) as (x & Hx & Hg). exists x. split; [done|]. unfold sl_getitem. pose proof (check_index_ok' _ _ _ i H) as Ec. rewrite Hi in Ec. rewrite (bind_ok _ _ _ _ _ Ec), (bind_ok _ _ _ _ _ El).
  rewrite (bind_ok (lift _) _ _ (GVal (PNum x)) ks); [reflexivity|]. apply lift_ok0. rewrite (getitem_cll _ _ _ _ Hr).
  assert (n < length g) as Hn'. { apply lookup_lt_Some in Hg. by rewrite map_length in Hg. }
  destruct (ll_getitem_int_pos _ _ _ _ (Z.of_nat n + 1)%Z Hr) as (v & Hv' & E); [cbn; lia|]. rewrite E. replace (Z.to_nat (Z.of_nat n + 1)) with (S n) in Hv' by lia. change (vals g !! n = Some v) in Hv'. rewrite Hg in Hv'. by injection Hv' as <-.
Qed.
Lemma delete_tdel A n x : StronglySorted nlt (elems A) -> elems A !! n = Some x -> tdel x A = delete n A.
Proof.
  revert n. induction A as [|[y h] A IH]; intros n HS Hn; [done|]. cbn in HS. apply StronglySorted_inv in HS as [HS HF]. destruct n as [|n]; cbn in Hn.
  - injection Hn as ->. unfold tdel. rewrite filter_cons. cbn. case_decide; [done|]. apply tdel_above. apply Forall_forall. intros p Hp. rewrite Forall_forall in HF. apply HF. by apply elem_of_list_fmap_1.
  - change (delete (S n) ((y, h) :: A)) with ((y, h) :: delete n A). rewrite <- (IH n HS Hn). unfold tdel. rewrite filter_cons, decide_True; [done|]. cbn. intros ->. rewrite Forall_forall in HF. apply (nlt_irrefl x), HF. by eapply elem_of_list_lookup_2.
Qed.
Lemma good_sorted self ks A : Good self ks A -> StronglySorted nlt (elems A).
Proof. intros (r & os & G & H & Hl). apply (r_sort _ _ _ _ (i_rep _ _ _ _ _ _ H)). Qed.
Lemma good_neg self ks A x : Good self ks A -> x ∈ elems A -> x <> NegInf.
Proof. intros (r & os & G & H & Hl) (p & -> & Hp)%elem_of_list_fmap. pose proof (r_neg _ _ _ _ (i_rep _ _ _ _ _ _ H)) as HN. rewrite Forall_forall in HN. by apply HN. Qed.
Lemma delitem_ok self ks A i n : Good self ks A -> tindex i A = inl n -> exists ks', sl_delitem self i ks = Ok tt ks' /\ Good self ks' (delete n A).
Proof.
  intros H Hi. pose proof (tindex_lt _ _ _ Hi) as Hn. destruct (good_base _ _ _ H) as (o & m & g & El & Hr & Hm & Hv).
  destruct (base_lookup g A n Hv Hn) as (x & Hx & Hg). unfold sl_delitem. pose proof (check_index_ok' _ _ _ i H) as Ec. rewrite Hi in Ec. rewrite (bind_ok _ _ _ _ _ Ec), (bind_ok _ _ _ _ _ El).
  rewrite list_lookup_fmap in Hg. destruct (g !! n) as [c|] eqn:Hc; [|done]. injection Hg as Hcx. pose proof (lookup_lt_Some _ _ _ Hc) as Hn'.
  erewrite (bind_ok (lift _)).
  2:{ apply lift_ok0. destruct (get_node_spec _ _ _ _ (S n) Hr) as (q & Eq & Hq); [cbn; lia|]. rewrite (bind_ok _ _ _ _ _ Eq). cbn [snd]. rewrite Hq by done. cbn [drop].
      rewrite (drop_S _ _ _ Hc). cbn [hd_loc deref]. erewrite (bind_ok (ret _)) by done. eapply get_data_in; [exact Hr|]. apply elem_of_list_lookup_2 in Hc. set_solver. }
  rewrite Hcx. rewrite <- (delete_tdel A n x); [|by eapply good_sorted|done]. apply remove_ok; [done|]. eapply good_neg; [exact H|]. by eapply elem_of_list_lookup_2.
Qed.
Lemma filter_id {T} (P : T -> Prop) `{!forall x, Decision (P x)} (l : list T) : Forall P l -> filter P l = l.
Proof. induction 1 as [|x l Hx _ IH]; [done|]. by rewrite filter_cons, decide_True, IH. Qed.
Lemma slice_tail (v : pyval) vs : slice_pos (v :: vs) (Some 1%Z) None 1 = vs.
Proof.
  unfold slice_pos. cbn zeta. cbn [default from_option imap length id]. unfold clamp_ix. do 2 (case_bool_decide; [lia|]). rewrite filter_cons, decide_False by (cbn; lia).
  rewrite filter_id.
  - apply stdpp.list.list_eq. intros i. rewrite list_lookup_fmap, list_lookup_imap. by destruct (vs !! i).
  - apply Forall_forall. intros p (i & Hi)%elem_of_list_lookup. rewrite list_lookup_imap in Hi. destruct (vs !! i) as [w|] eqn:E; [|done]. cbn in Hi. injection Hi as <-. cbn. apply lookup_lt_Some in E. split; [lia|]. by rewrite Z.mod_1_r.
Qed.
Lemma Rep_frame s s' os G A : Rep s os G A -> modifies [] [] s s' -> Rep s' os G A.
Proof.
  intros H Hm. pose proof H as [? ? ? ? ? ? ? ? ? ?]. split; try done.
  - intros k o g Ho Hg. destruct (r_rep _ _ _ Ho Hg) as [Hr Hv]. split; [|done]. eapply rep_frame; [exact Hr|exact Hm|set_solver|set_solver].
  - intros o g Ho. destruct (r_kept _ _ Ho) as (Hr & Hn & Hd). split_and!; try done. eapply rep_frame; [exact Hr|exact Hm|set_solver|set_solver].
Qed.
Lemma to_list_sl_ok self ks A : Good self ks A -> exists ks', sl_to_list self ks = Ok (map PNum (elems A)) ks' /\ Good self ks' A.
Proof.
  intros H. destruct (good_base _ _ _ H) as (o & m & g & El & Hr & Hm & Hv). unfold sl_to_list. rewrite (bind_ok _ _ _ _ _ El).
  destruct (wp_elim _ _ _ (slice_spec _ _ _ _ (Some 1%Z) None 1 Hr eq_refl ltac:(lia))) as (rr & s1 & E & c & -> & gc & Hrc & Hvc & _ & _ & Hmod).
  assert (getitem o (ISlice (Some 1%Z) None None) (k_st ks) = Ok (GList c) s1) as E1 by by rewrite (getitem_cll _ _ _ _ Hr).
  rewrite (bind_ok _ _ _ _ _ (lift_ok _ _ _ _ E1)). erewrite lift_ok0; [|cbn; by eapply to_list_ok]. cbn [map] in Hvc. rewrite slice_tail in Hvc. rewrite Hvc, Hv. eexists. split; [done|].
  destruct H as (r & os & G & H & Hl). exists r, os, G. split; [|done]. split; cbn; [apply (i_sl _ _ _ _ _ _ H)|apply (i_ls _ _ _ _ _ _ H)| |apply (i_lls _ _ _ _ _ _ H)|apply (i_sls _ _ _ _ _ _ H)]. eapply Rep_frame; [apply (i_rep _ _ _ _ _ _ H)|done].
Qed.
(** The state is one in which the frame holds. *)
Record kept (self : nat) (ks : kst) : Prop := MkKept {
  kp_lists : forall o g, f_lists o g -> rep CLL (k_st ks) o g;
  kp_lls : forall r l, f_lls r l -> k_lls ks !! r = Some l;
  kp_sls : forall j p, f_sls j p -> j <> self /\ k_sls ks !! j = Some p }.
Lemma good_kept self ks A : Good self ks A -> kept self ks.
Proof.
  intros (r & os & G & H & _). split.
  - intros o g Ho. by destruct (r_kept _ _ _ _ (i_rep _ _ _ _ _ _ H) _ _ Ho).
  - intros r' l Hl. by destruct (i_lls _ _ _ _ _ _ H _ _ Hl).
  - apply (i_sls _ _ _ _ _ _ H).
Qed.
Lemma init_ok self ks p : k_sls ks !! self = Some p -> kept self ks -> exists ks', sl_init self ks = Ok tt ks' /\ Good self ks' [].
Proof.
  intros Hs HK. unfold sl_init. destruct (new_level_ok (k_st ks)) as (s1 & E1 & Hr1 & Hm1). rewrite (bind_ok _ _ _ _ _ (lift_ok _ _ _ _ E1)).
  unfold new_lls, put_sl, bind. cbn. eexists. split; [reflexivity|].
  eexists (length (k_lls ks)), [length (s_objs (k_st ks))], [[GN (length (s_nodes (k_st ks))) (PNum NegInf) (Fin 0) None]]. split; [|done]. split; cbn.
  - rewrite list_lookup_insert by (by eapply lookup_lt_Some). done.
  - by rewrite lookup_app_r, Nat.sub_diag by lia.
  - split; try (cbn; done).
    + intros [|k] o g Ho Hg; [|done]. cbn in Ho, Hg. injection Ho as <-. injection Hg as <-. done.
    + intros [|k] g Hg; [|done]. injection Hg as <-. apply Forall_singleton. done.
    + apply NoDup_singleton.
    + intros [|k] [|k'] g g' l Hg Hg'; done.
    + cbn. lia.
    + constructor.
    + intros o g Ho. pose proof (kp_lists _ _ HK _ _ Ho) as Hr. split_and!.
      * eapply rep_frame; [exact Hr|exact Hm1|set_solver|set_solver].
      * intros ->%elem_of_list_singleton. apply rep_obound in Hr. lia.
      * intros [|k] g' l Hg' Hl Hl'; [|done]. injection Hg' as <-. cbn in Hl. apply elem_of_list_singleton in Hl as ->.
        pose proof (rep_bound _ _ _ _ _ Hr Hl'). lia.
  - intros r' l Hl. pose proof (kp_lls _ _ HK _ _ Hl) as Hr. pose proof (lookup_lt_Some _ _ _ Hr). split; [lia|]. by rewrite lookup_app_l.
  - intros j q Hj. destruct (kp_sls _ _ HK _ _ Hj) as [Hne Hj']. by rewrite list_lookup_insert_ne by done.
Qed.

(** ** Histories *)
Lemma step_ok self ks A o : Good self ks A -> avoids_neg_inf o -> exists ks', kcall self o ks = Some (tanswer o A, ks') /\ Good self ks' (tnext o A).
Proof.
  intros H Ho. unfold kcall. destruct o as [v h|v|v|i|i| | | | |]; cbn [kexec tanswer tnext].
  - destruct v as [|x| | | |]; try (eexists; split; [reflexivity|done]). destruct (insert_ok self ks A x h H) as (ks' & E & H'); [intros ->; by apply Ho|]. rewrite (bind_ok _ _ _ _ _ E). by exists ks'.
  - destruct v as [|x| | | |]; try (eexists; split; [reflexivity|done]). destruct (remove_ok self ks A x H) as (ks' & E & H'); [intros ->; by apply Ho|]. rewrite (bind_ok _ _ _ _ _ E). by exists ks'.
  - destruct v as [|x| | | |]; try (eexists; split; [reflexivity|done]). rewrite (bind_ok _ _ _ _ _ (contains_num_ok self ks A x H ltac:(intros ->; by apply Ho))). by exists ks.
  - destruct (tindex i A) as [n|e] eqn:Hi.
    + destruct (getitem_ok _ _ _ _ _ H Hi) as (x & Hx & E). rewrite (bind_ok _ _ _ _ _ E), Hx. by exists ks.
    + assert (sl_getitem self i ks = Exc e ks) as E. { unfold sl_getitem. pose proof (check_index_ok' _ _ _ i H) as Ec. rewrite Hi in Ec. by rewrite (bind_exc _ _ _ _ _ Ec). }
      rewrite (bind_exc _ _ _ _ _ E). by exists ks.
  - destruct (tindex i A) as [n|e] eqn:Hi.
    + destruct (delitem_ok _ _ _ _ _ H Hi) as (ks' & E & H'). rewrite (bind_ok _ _ _ _ _ E). by exists ks'.
    + assert (sl_delitem self i ks = Exc e ks) as E. { unfold sl_delitem. pose proof (check_index_ok' _ _ _ i H) as Ec. rewrite Hi in Ec. by rewrite (bind_exc _ _ _ _ _ Ec). }
      rewrite (bind_exc _ _ _ _ _ E). by exists ks.
  - rewrite (bind_ok _ _ _ _ _ (len_ok _ _ _ H)). by exists ks.
  - rewrite (bind_ok _ _ _ _ _ (len_ok _ _ _ H)). exists ks. split; [|done]. destruct A; [by rewrite bool_decide_eq_true_2|by rewrite bool_decide_eq_false_2].
  - destruct H as (r & os & G & H & Hl). rewrite (bind_ok _ _ _ _ _ (num_levels_ok _ _ _ _ _ _ H)). exists ks. cbn. rewrite Hl. split; [done|]. by exists r, os, G.
  - destruct (to_list_sl_ok _ _ _ H) as (ks' & E & H'). rewrite (bind_ok _ _ _ _ _ E). by exists ks'.
  - pose proof H as (r & os & G & Hi & Hl). destruct (init_ok self ks _ (i_sl _ _ _ _ _ _ Hi) (good_kept _ _ _ H)) as (ks' & E & H'). unfold sl_clear. rewrite (bind_ok _ _ _ _ _ E). by exists ks'.
Qed.
Lemma calls_ok self : forall os ks A, Good self ks A -> Forall avoids_neg_inf os -> exists ks', kcalls (map (pair self) os) ks = Some (tanswers os A, ks') /\ Good self ks' (tafter os A).
Proof.
  induction os as [|o os IH]; intros ks A H Ho; [by exists ks|]. apply Forall_cons in Ho as [Ho Hos]. destruct (step_ok _ _ _ _ H Ho) as (ks1 & E & H1).
  destruct (IH _ _ H1 Hos) as (ks2 & E2 & H2). exists ks2. cbn [map kcalls fst snd]. by rewrite E, E2.
Qed.
End Framed.
(** A single SkipList: there is nothing else. *)
#[export] Instance no_frame : frame := Frame (fun _ _ => False) (fun _ _ => False) (fun _ _ => False).
Lemma new_ok : exists s, sl_new kst0 = Ok 0 s /\ Good 0 s [].
Proof.
  destruct (init_ok 0 (KSt st0 [] [(0, 0)]) (0, 0) eq_refl) as (ks' & E & H); [by split|]. exists ks'. split; [|done]. unfold sl_new. unfold alloc_sl at 1, bind at 1. cbn [length app k_sls k_st k_lls kst0]. by rewrite (bind_ok _ _ _ _ _ E).
Qed.
Theorem history_ok os : Forall avoids_neg_inf os -> exists s, khistory os = Some (tanswers os [], s) /\ Good 0 s (tafter os []).
Proof. intros Ho. destruct new_ok as (s & E & H). unfold khistory. rewrite E. by apply calls_ok. Qed.

(** ** -inf: every search ends at the sentinel of the top level *)
Lemma search_neg self ks A : Good self ks A -> exists o n g, search self (PNum NegInf) ks = Ok (None, g_loc n, []) ks /\ rep CLL (k_st ks) o (n :: g) /\ g_val n = PNum NegInf.
Proof.
  intros (r & os & G & H & Hl). pose proof (i_rep _ _ _ _ _ _ H) as HR. destruct (Rep_level _ _ _ _ (length G - 1) HR) as (o & g & Ho & Hg & Hr & Hv); [pose proof (r_pos _ _ _ _ HR); lia|].
  destruct g as [|n g]; [done|]. cbn in Hv. injection Hv as Hn Hv. exists o, n, g. split; [|done].
  unfold search. rewrite (bind_ok _ _ _ _ _ (num_levels_ok _ _ _ _ _ _ H)). rewrite (bind_ok _ _ _ _ _ (level_list_ok _ _ _ _ _ _ _ _ H Ho)).
  destruct (head_ok _ _ _ Hr) as (ob & Hob & Hh); [done|]. apply lift_ok0. rewrite (bind_ok _ _ _ _ _ Hob), Hh. cbn [hd_loc deref]. erewrite (bind_ok (ret _)) by done.
  unfold get_fuel at 1, bind at 1. cbn [search_loop]. unfold get_fuel at 1, bind at 1. erewrite bind_ok; [|eapply get_down_in; [exact Hr|left]].
  assert (search_sorted (S (length (s_nodes (k_st ks)))) None (g_loc n) (PNum NegInf) (k_st ks) = Ok (None, g_loc n) (k_st ks)) as Es.
  { erewrite (search_sorted_ok _ _ _ g [] [] n); [done|exact Hr|constructor| |cbn; lia]. eapply bound_head; [exact Hv|]. intros y (h & Hin & _)%up_in.
    pose proof (r_neg _ _ _ _ HR) as HN. rewrite Forall_forall in HN. apply neg_nlt. apply (HN _ Hin). }
  pose proof (r_down _ _ _ _ HR _ _ Hg) as HD. destruct (length G - 1) as [|j] eqn:EG.
  - cbn in HD. apply Forall_cons in HD as [-> _]. rewrite (bind_ok _ _ _ _ _ Es). cbn [length fst snd]. done.
  - destruct (lookup_lt_is_Some_2 G j) as [g' Hg']; [lia|]. specialize (HD _ Hg'). apply Forall_cons in HD as [(m & _ & _ & ->) _]. rewrite (bind_ok _ _ _ _ _ Es). cbn [fst snd].
    erewrite bind_ok; [|eapply get_data_in; [exact Hr|left]]. rewrite Hn. done.
Qed.
Lemma neg_contains self ks A : Good self ks A -> sl_contains self (PNum NegInf) ks = Ok true ks.
Proof.
  intros H. destruct (search_neg _ _ _ H) as (o & n & g & E & Hr & Hn). unfold sl_contains. rewrite (bind_ok _ _ _ _ _ E). cbn [fst snd].
  erewrite (bind_ok (lift _)); [|eapply lift_ok0, get_data_in; [exact Hr|left]]. by rewrite Hn.
Qed.
Lemma neg_insert self ks A h : Good self ks A -> sl_insert self (PNum NegInf) h ks = Ok tt ks.
Proof.
  intros H. destruct (search_neg _ _ _ H) as (o & n & g & E & Hr & Hn). unfold sl_insert. cbn [check_num]. erewrite (bind_ok (ret _)) by done. rewrite (bind_ok _ _ _ _ _ E). cbn [fst snd].
  erewrite (bind_ok (lift _)); [|eapply lift_ok0, get_data_in; [exact Hr|left]]. by rewrite Hn.
Qed.
Lemma kcalls_app os os' s : kcalls (os ++ os') s = match kcalls os s with Some (rs, s1) => match kcalls os' s1 with Some (rs', s2) => Some (rs ++ rs', s2) | None => None end | None => None end.
Proof.
  revert s. induction os as [|o os IH]; intros s; cbn [app kcalls]; [by destruct (kcalls os' s) as [[? ?]|]|]. destruct (kcall o.1 o.2 s) as [[r s1]|]; [|done]. rewrite IH.
  destruct (kcalls os s1) as [[rs s2]|]; [|done]. by destruct (kcalls os' s2) as [[? ?]|].
Qed.
Lemma history_then os o : Forall avoids_neg_inf os -> exists s, Good 0 s (tafter os []) /\
  khistory (os ++ [o]) = match kcall 0 o s with Some (r, s') => Some (tanswers os [] ++ [r], s') | None => None end.
Proof.
  intros Ho. destruct (history_ok os Ho) as (s & E & H). exists s. split; [done|]. destruct new_ok as (s0 & E0 & _). unfold khistory in *. rewrite E0 in *. rewrite map_app, kcalls_app, E. cbn.
  by destruct (kcall 0 o s) as [[r s']|].
Qed.
Lemma tanswers_app os os' A : tanswers (os ++ os') A = tanswers os A ++ tanswers os' (tafter os A).
Proof. revert A. induction os as [|o os IH]; intros A; [done|]. cbn. by rewrite IH. Qed.
(** The coins only matter for the towers. *)
Lemma tput_elems x h h' A A' : elems A = elems A' -> elems (tput x h A) = elems (tput x h' A').
Proof.
  revert A'. induction A as [|[y k] A IH]; intros [|[y' k'] A'] E; try done. cbn in E. injection E as <- E. cbn [tput]. destruct (num_ltb x y); [cbn; f_equal; f_equal; exact E|].
  destruct (decide (x = y)); cbn; f_equal; [exact E|by apply IH].
Qed.
Lemma tdel_elems x A : elems (tdel x A) = filter (fun y => y <> x) (elems A).
Proof.
  unfold tdel. induction A as [|[y k] A IH]; [done|]. change (elems ((y, k) :: A)) with (y :: elems A). rewrite !filter_cons. cbn [fst]. destruct (decide (y <> x)); [cbn; by f_equal|done].
Qed.
Lemma tindex_elems i A A' : elems A = elems A' -> tindex i A = tindex i A'.
Proof. intros E. destruct i; cbn; try done. apply (f_equal length) in E. unfold elems in E. rewrite !map_length in E. by rewrite E. Qed.
Lemma delete_elems n A : elems (delete n A) = delete n (elems A).
Proof. revert n. induction A as [|p A IH]; intros [|n]; try done. change (delete (S n) (p :: A)) with (p :: delete n A). cbn. f_equal. apply IH. Qed.
Lemma coins_step o o' A A' : same_call o o' -> elems A = elems A' -> elems (tnext o A) = elems (tnext o' A') /\ (o <> KHeight -> tanswer o A = tanswer o' A').
Proof.
  intros Hs E. assert (length A = length A') as El. { apply (f_equal length) in E. unfold elems in E. by rewrite !map_length in E. }
  destruct o as [v h|v|v|i|i| | | | |]; destruct o' as [v' h'|v'|v'|i'|i'| | | | |]; try done; cbn in Hs; try (injection Hs as <-); try subst v'.
  - destruct v; cbn; try done. split; [by apply tput_elems|done].
  - destruct v; cbn; try done. by rewrite !tdel_elems, E.
  - destruct v; cbn; try done. by rewrite E.
  - cbn. by rewrite (tindex_elems i _ _ E), E.
  - cbn. rewrite (tindex_elems i _ _ E). destruct (tindex i A'); [|done]. by rewrite !delete_elems, E.
  - cbn. by rewrite El.
  - cbn. split; [done|]. intros _. f_equal. destruct A, A'; done.
  - cbn. by rewrite E.
Qed.
Lemma coins_history os os' : Forall2 same_call os os' -> forall A A', elems A = elems A' -> forall i o, os !! i = Some o -> o <> KHeight -> tanswers os A !! i = tanswers os' A' !! i.
Proof.
  induction 1 as [|o o' os os' Hs _ IH]; intros A A' E i p Hi Hp; [done|]. destruct (coins_step _ _ _ _ Hs E) as [E' Ha]. destruct i as [|i]; cbn in *.
  - injection Hi as ->. f_equal. by apply Ha.
  - by eapply IH.
Qed.

(** ** No call creates or drops SkipLists *)
Definition keeps {A} (m : M kst A) : Prop := forall s, match m s with Ok _ s' | Exc _ s' => length (k_sls s') = length (k_sls s) | Diverge => True end.
Lemma keeps_bind {A B} (m : M kst A) (k : A -> M kst B) : keeps m -> (forall a, keeps (k a)) -> keeps (bind m k).
Proof. intros Hm Hk s. unfold bind. specialize (Hm s). destruct (m s) as [a s1|e s1|]; [|done|done]. specialize (Hk a s1). destruct (k a s1); by rewrite ?Hk, ?Hm || done. Qed.
Lemma keeps_ret {A} (a : A) : keeps (ret a). Proof. done. Qed.
Lemma keeps_raise {A} e : keeps (raise e : M kst A). Proof. done. Qed.
Lemma keeps_lift {A} (m : M st A) : keeps (lift m). Proof. intros s. unfold lift. by destruct (m (k_st s)). Qed.
Lemma keeps_get_sl self : keeps (get_sl self). Proof. intros s. unfold get_sl. by destruct (k_sls s !! self). Qed.
Lemma keeps_put_sl self p : keeps (put_sl self p). Proof. intros s. cbn. by rewrite insert_length. Qed.
Lemma keeps_get_lls r : keeps (get_lls r). Proof. intros s. unfold get_lls. by destruct (k_lls s !! r). Qed.
Lemma keeps_put_lls r l : keeps (put_lls r l). Proof. done. Qed.
Lemma keeps_new_lls l : keeps (new_lls l). Proof. done. Qed.
Lemma keeps_assert b : keeps (py_assert b). Proof. by destruct b. Qed.
Create HintDb keeps.
#[local] Hint Resolve keeps_ret keeps_raise keeps_lift keeps_get_sl keeps_put_sl keeps_get_lls keeps_put_lls keeps_new_lls keeps_assert : keeps.
Ltac keep := repeat first [apply keeps_bind; [|intros ?]|solve [auto with keeps]|case_match].
Lemma keeps_level_list self i : keeps (level_list self i). Proof. unfold level_list. keep. Qed.
Lemma keeps_num_levels self : keeps (num_levels self). Proof. unfold num_levels. keep. Qed.
#[local] Hint Resolve keeps_level_list keeps_num_levels : keeps.
Lemma keeps_search self v : keeps (search self v). Proof. unfold search. keep. Qed.
#[local] Hint Resolve keeps_search : keeps.
Lemma keeps_add self : keeps (add_extra_level self). Proof. unfold add_extra_level. keep. Qed.
Lemma keeps_promote self u c l : keeps (promote self u c l). Proof. unfold promote. keep. Qed.
#[local] Hint Resolve keeps_add keeps_promote : keeps.
Lemma keeps_promote_loop self h : forall l c k, keeps (promote_loop self h l c k). Proof. induction h; intros l c k; cbn [promote_loop]; keep. Qed.
Lemma keeps_remove_level self l : keeps (remove_level self l). Proof. unfold remove_level. keep. Qed.
#[local] Hint Resolve keeps_promote_loop keeps_remove_level : keeps.
Lemma keeps_remove_loop self k : forall p f, keeps (remove_loop self k p f). Proof. induction k; intros p f; [cbn; keep|]. rewrite remove_loop_S. keep. Qed.
#[local] Hint Resolve keeps_remove_loop : keeps.
Lemma keeps_remove self v : keeps (sl_remove self v). Proof. unfold sl_remove. keep. Qed.
Lemma keeps_len self : keeps (sl_len self). Proof. unfold sl_len. keep. Qed.
#[local] Hint Resolve keeps_remove keeps_len : keeps.
Lemma keeps_index self i : keeps (sl_check_index self i). Proof. unfold sl_check_index. keep. Qed.
#[local] Hint Resolve keeps_index : keeps.
Lemma keeps_exec self o : keeps (kexec self o).
Proof. destruct o; cbn [kexec]; unfold sl_insert, check_num, sl_contains, sl_getitem, sl_delitem, sl_to_list, sl_clear, sl_init; keep. Qed.
Lemma kcalls_keeps os s rs s' : kcalls os s = Some (rs, s') -> length (k_sls s') = length (k_sls s).
Proof.
  revert s rs. induction os as [|o os IH]; intros s rs; cbn; [by intros [= _ ->]|]. unfold kcall. pose proof (keeps_exec o.1 o.2 s) as H.
  destruct (kexec o.1 o.2 s) as [r s1|e s1|]; [| |done]; (destruct (kcalls os s1) as [[rs1 s2]|] eqn:E; [|done]); intros [= _ ->]; rewrite (IH _ _ E); done.
Qed.
