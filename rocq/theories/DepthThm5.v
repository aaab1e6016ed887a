(** * A removal that runs out of stack while it exchanges values *)
From Verif Require Import Base TreeModel TreeSpec BstModel BalModel BstSpec BstSep BstRules BstPure BstThm TreeIterThm TreeIterThm3 TreeIterThm4.
From Verif Require Import DepthModel DepthSpec DepthThm DepthThm2 DepthThm3.
Local Open Scope py_scope.

Definition ids {A} (t : bin (nat * A)) : list nat := map fst (inorder t).
Definition val (m : list cell) (k : nat) : option num := (fun c => p_val (c_pay c)) <$> m !! k.
Lemma map_exchange (f g : nat -> option num) l i j : i ∈ l -> j ∈ l -> i <> j -> NoDup l ->
  g i = f j -> g j = f i -> (forall k, k <> i -> k <> j -> g k = f k) -> map g l ≡ₚ map f l.
Proof.
  intros Hi Hj Hij Hd E1 E2 E3. apply elem_of_Permutation in Hi as (l1 & H1). rewrite H1 in Hj, Hd |- *.
  apply elem_of_cons in Hj as [->|Hj]; [done|]. apply elem_of_Permutation in Hj as (l2 & H2). rewrite H2 in Hd |- *. cbn [map]. rewrite E1, E2.
  apply NoDup_cons in Hd as [Hd1 Hd2]. apply NoDup_cons in Hd2 as [Hd2 _].
  rewrite (map_ext_in g f l2); [constructor|]. intros k Hk%elem_of_list_In. apply E3.
  - intros ->. apply Hd1. by apply elem_of_list_further.
  - by intros ->.
Qed.
Lemma swap_vals c i j s : c <> CRB -> is_Some (t_nodes s !! i) -> is_Some (t_nodes s !! j) -> i <> j ->
  exists s', swap c i j s = Ok tt s' /\ val (t_nodes s') i = val (t_nodes s) j /\ val (t_nodes s') j = val (t_nodes s) i /\
    (forall k, k <> i -> k <> j -> val (t_nodes s') k = val (t_nodes s) k).
Proof.
  intros Hc [ci Hi] [cj Hj] Hij. unfold swap, rd, wr, bind. rewrite Hi. cbv beta iota. rewrite Hj. cbv beta iota. rewrite Hi. cbn [t_nodes].
  rewrite list_lookup_insert_ne by done. rewrite Hj.
  assert (forall (s : tst), (match c with CRB => fun _ => Diverge | _ => ret tt end) s = Ok tt s) as Er by (by destruct c).
  set (s' := TSt _ _ _). exists s'. split; [by destruct c|].
  assert (i < length (t_nodes s)) by (by eapply lookup_lt_Some). assert (j < length (t_nodes s)) by (by eapply lookup_lt_Some).
  unfold val, s'. cbn [t_nodes]. split_and!.
  - rewrite list_lookup_insert_ne by done. rewrite list_lookup_insert by done. rewrite Hj. done.
  - rewrite list_lookup_insert by (by rewrite insert_length). by rewrite Hi.
  - intros k Hk Hk'. by rewrite !list_lookup_insert_ne by done.
Qed.
Lemma lk_some {A} m (t : bin (nat * A)) : forall p, lk m p t -> forall k, k ∈ ids t -> is_Some (m !! k).
Proof.
  induction t as [|l IHl ix r IHr]; intros p H k Hk; [by apply elem_of_nil in Hk|]. destruct H as (-> & c & Hc & Hl & Hr).
  unfold ids in *. cbn [inorder] in Hk. rewrite map_app in Hk. apply elem_of_app in Hk as [Hk|Hk]; [by eapply IHl|].
  cbn [map] in Hk. apply elem_of_cons in Hk as [->|Hk]; [by eexists|by eapply IHr].
Qed.
Lemma transplant_stuck {A} c (R : bin (nat * A)) : c <> CRB -> forall node p s L, lk (t_nodes s) p R -> NoDup (node :: ids R) ->
  is_Some (t_nodes s !! node) -> L < exchanges R ->
  exists s', transplant_l L c node p s = Exc RecursionError s' /\
    same_links (t_nodes s) (t_nodes s') /\ t_root s' = t_root s /\ t_len s' = t_len s /\
    (forall k, k ∉ node :: ids R -> val (t_nodes s') k = val (t_nodes s) k) /\
    (forall l, NoDup l -> node :: ids R ⊆ l -> map (val (t_nodes s')) l ≡ₚ map (val (t_nodes s)) l) /\
    (forall k, 0 < L -> p = Some k -> val (t_nodes s') node = val (t_nodes s) k).
Proof.
  intros HC. induction R as [|l IHl [k x] r IHr]; intros node p s L H Hd Hn HL; [cbn in HL; lia|].
  pose proof (lk_some _ _ _ H) as Hsome. destruct H as (-> & ce & Hc & Hl & Hr). cbn [fst] in *.
  destruct L as [|L].
  { exists s. split; [done|]. split_and!; try done; [apply same_refl|lia]. }
  cbn [transplant_l].
  assert (forall B (q : bool -> M tst B), bind (node_is_leaf k) q s = q (match c_left ce, c_right ce with None, None => true | _, _ => false end) s) as E1.
  { intros. unfold node_is_leaf, get_left, get_right, rd, ret, bind. repeat (rewrite Hc; cbv beta iota). done. }
  assert (forall B (q : option nat -> M tst B), bind (get_left k) q s = q (c_left ce) s) as E3.
  { intros. unfold get_left, rd, ret, bind. by rewrite Hc. }
  assert (get_right k s = Ok (c_right ce) s) as E4.
  { intros. unfold get_right, rd, ret, bind. by rewrite Hc. }
  rewrite E1.
  set (nr := match c_left ce with Some _ => c_left ce | None => c_right ce end).
  assert (forall B (q : option nat -> M tst B),
    bind (if (match c_left ce, c_right ce with None, None => true | _, _ => false end) then ret None
          else let! l0 := get_left k in match l0 with Some _ => ret l0 | None => get_right k end) q s = q nr s) as E5.
  { intros. unfold nr. unfold bind at 1. destruct (c_left ce), (c_right ce); try done; rewrite E3; cbn; try rewrite E4; done. }
  rewrite E5.
  assert (k ∈ ids (Bin l (k, x) r)) as Hk. { unfold ids. cbn [inorder]. rewrite map_app. apply elem_of_app. right. cbn. apply elem_of_list_here. }
  assert (node <> k) as Hnk. { apply NoDup_cons in Hd as [Hd _]. by intros ->. }
  destruct (swap_vals c node k s HC Hn (Hsome k Hk) Hnk) as (s1 & Es & V1 & V2 & V3). rewrite (bind_ok _ _ _ _ _ Es).
  pose proof (quiet_swap c node k s) as Hq. rewrite Es in Hq. destruct Hq as (Q1 & Q2 & Q3).
  assert (exists R' : bin (nat * A), lk (t_nodes s) nr R' /\ exchanges (Bin l (k, x) r) = S (exchanges R') /\ (exists a b, ids (Bin l (k, x) r) = a ++ ids R' ++ b /\ k ∈ a ++ b) /\
    (forall node p s L, lk (t_nodes s) p R' -> NoDup (node :: ids R') -> is_Some (t_nodes s !! node) -> L < exchanges R' ->
  exists s', transplant_l L c node p s = Exc RecursionError s' /\
    same_links (t_nodes s) (t_nodes s') /\ t_root s' = t_root s /\ t_len s' = t_len s /\
    (forall k, k ∉ node :: ids R' -> val (t_nodes s') k = val (t_nodes s) k) /\
    (forall l, NoDup l -> node :: ids R' ⊆ l -> map (val (t_nodes s')) l ≡ₚ map (val (t_nodes s)) l) /\
    (forall k, 0 < L -> p = Some k -> val (t_nodes s') node = val (t_nodes s) k))) as (R' & HR' & HX & (a & b & Ha & Hka) & IH).
  { destruct l as [|ll lx lr].
    - exists r. cbn in Hl. unfold nr. rewrite Hl. split_and!; [done|done| |exact IHr]. exists [k], []. split; [|apply elem_of_list_here].
      unfold ids. cbn. by rewrite app_nil_r.
    - exists (Bin ll lx lr). unfold nr. pose proof Hl as [El _]. rewrite El. rewrite <- El. split_and!; [done|done| |exact IHl].
      exists [], (k :: ids r). split; [|apply elem_of_list_here]. unfold ids. change (inorder (Bin (Bin ll lx lr) (k, x) r)) with (inorder (Bin ll lx lr) ++ (k, x) :: inorder r).
      by rewrite map_app. }
  clear IHl IHr. rewrite HX in HL. rewrite Ha in Hd, Hk.
  assert (ids R' ⊆ a ++ ids R' ++ b) as Hsub by (intros q Hq; rewrite !elem_of_app; tauto).
  assert (NoDup (k :: ids R')) as Hd'.
  { apply NoDup_cons in Hd as [_ Hd]. apply NoDup_app in Hd as (D1 & D2 & D3). apply NoDup_app in D3 as (D3 & D4 & D5).
    apply NoDup_cons. split; [|done]. intros Hk'. apply elem_of_app in Hka as [Hka|Hka].
    - apply (D2 k Hka). apply elem_of_app. by left.
    - by apply (D4 k Hk'). }
  destruct (IH k nr s1 L) as (s' & E & I1 & I2 & I3 & I4 & I5 & I6).
  { by eapply lk_same. }
  { done. }
  { destruct (Q1 k ce Hc) as (c' & Hc' & _). by eexists. }
  { lia. }
  assert (node ∉ k :: ids R') as Hnode.
  { apply NoDup_cons in Hd as [Hd _]. intros [->|Hq]%elem_of_cons; [done|]. apply Hd. by apply Hsub. }
  exists s'. split_and!.
  - done.
  - by eapply same_trans.
  - congruence.
  - congruence.
  - intros q Hq. rewrite Ha in Hq. rewrite I4.
    + apply V3; intros ->; apply Hq; [apply elem_of_list_here|]. apply elem_of_list_further. done.
    + intros [->|Hq']%elem_of_cons; apply Hq, elem_of_list_further; [done|by apply Hsub].
  - intros q Hq1 Hq2. rewrite Ha in Hq2. etrans; [apply I5; [done|]|].
    + intros z [->|Hz]%elem_of_cons; apply Hq2, elem_of_list_further; [done|by apply Hsub].
    + apply (map_exchange _ _ q node k); try done; apply Hq2; [apply elem_of_list_here|]. by apply elem_of_list_further.
  - intros q _ [= <-]. rewrite (I4 node Hnode). done.
Qed.

(** ** The whole removal *)
Lemma snap_inj m T1 : forall p T2, snap m p T1 -> snap m p T2 -> T1 = T2.
Proof.
  induction T1 as [|l IHl [i x] r IHr]; intros p [|l2 [i2 x2] r2] H1 H2; [done| | |].
  - destruct H2 as (-> & _). done.
  - destruct H1 as (-> & _). done.
  - destruct H1 as (-> & c1 & C1 & X1 & L1 & R1), H2 as ([= <-] & c2 & C2 & X2 & L2 & R2). cbn [fst snd] in *.
    rewrite C1 in C2. injection C2 as <-. rewrite (IHl _ _ L1 L2), (IHr _ _ R1 R2). by subst.
Qed.
Definition seg {A} (t1 t : bin A) : Prop := exists a b, inorder t = a ++ inorder t1 ++ b.
Lemma seg_refl {A} (t : bin A) : seg t t.
Proof. exists [], []. by rewrite app_nil_r. Qed.
Lemma seg_left {A} (t l : bin A) x r : seg t l -> seg t (Bin l x r).
Proof. intros (a & b & E). exists a, (b ++ x :: inorder r). cbn [inorder]. rewrite E. by rewrite <- !app_assoc. Qed.
Lemma seg_right {A} (t l : bin A) x r : seg t r -> seg t (Bin l x r).
Proof. intros (a & b & E). exists (inorder l ++ x :: a), b. cbn [inorder]. rewrite E. by rewrite <- !app_assoc. Qed.
Lemma seg_leftmost {A} (t : bin A) : seg (at_leftmost t) t.
Proof. induction t as [|l IHl x r IHr]; [apply seg_refl|]. destruct l; [apply seg_refl|]. by apply seg_left. Qed.
Lemma seg_rightmost {A} (t : bin A) : seg (at_rightmost t) t.
Proof. induction t as [|l IHl x r IHr]; [apply seg_refl|]. destruct r; [apply seg_refl|]. by apply seg_right. Qed.
Lemma search_seg v T : forall i s f, snap (t_nodes s) (Some i) T -> nlevels T <= f ->
  exists j S, search f v i s = Ok j s /\ snap (t_nodes s) (Some j) S /\ seg S T.
Proof.
  induction T as [|l IHl [k x] r IHr]; intros i s f H Hf; [done|].
  pose proof H as ([= ->] & c & Hc & Hx & Hl & Hr). cbn [fst snd] in *. cbn [nlevels] in Hf. destruct f as [|f]; [lia|]. cbn [search].
  assert (forall A (q : num -> M tst A), bind (get_data k) q s = q (p_val x) s) as E2.
  { intros. unfold get_data, rd, ret, bind. by rewrite Hc, Hx. }
  assert (forall A (q : option nat -> M tst A), bind (get_left k) q s = q (c_left c) s) as E3.
  { intros. unfold get_left, rd, ret, bind. by rewrite Hc. }
  assert (forall A (q : option nat -> M tst A), bind (get_right k) q s = q (c_right c) s) as E4.
  { intros. unfold get_right, rd, ret, bind. by rewrite Hc. }
  rewrite E2. assert (exists j S, @ret tst nat k s = Ok j s /\ snap (t_nodes s) (Some j) S /\ seg S (Bin l (k, x) r)) as Hk.
  { exists k, (Bin l (k, x) r). split_and!; [done|exact H|apply seg_refl]. }
  destruct (bool_decide (v = p_val x)); [done|]. destruct (num_ltb v (p_val x)).
  - rewrite E3. destruct (c_left c) as [q|]; [|done]. destruct (IHl q s f Hl ltac:(lia)) as (j & S & E & HS & Hg). exists j, S. split_and!; try done. by apply seg_left.
  - rewrite E4. destruct (c_right c) as [q|]; [|done]. destruct (IHr q s f Hr ltac:(lia)) as (j & S & E & HS & Hg). exists j, S. split_and!; try done. by apply seg_right.
Qed.
Lemma replacement_total T i s : snap (t_nodes s) (Some i) T -> nlevels T <= S (length (t_nodes s)) -> exists p, find_replacement i s = Ok p s.
Proof.
  intros H Hf. destruct T as [|l [k x] r]; [done|]. destruct H as ([= ->] & c & Hc & Hx & Hl & Hr). cbn [fst snd] in *. cbn [nlevels] in Hf.
  unfold find_replacement.
  assert (forall A (q : option nat -> M tst A), bind (get_left k) q s = q (c_left c) s) as E3.
  { intros. unfold get_left, rd, ret, bind. by rewrite Hc. }
  assert (forall A (q : option nat -> M tst A), bind (get_right k) q s = q (c_right c) s) as E4.
  { intros. unfold get_right, rd, ret, bind. by rewrite Hc. }
  rewrite E4. destruct (c_right c) as [j|].
  - unfold get_fuel. destruct (min_total r j s (S (length (t_nodes s))) Hr ltac:(lia)) as (q & E). exists (Some q). unfold bind, ret. by rewrite E.
  - rewrite E3. destruct (c_left c) as [j|]; [|by exists None]. unfold get_fuel.
    destruct (max_total l j s (S (length (t_nodes s))) Hl ltac:(lia)) as (q & E). exists (Some q). unfold bind, ret. by rewrite E.
Qed.
Lemma inc_perm_same l l' : increasing l -> increasing l' -> l ≡ₚ l' -> l = l'.
Proof.
  revert l'. induction l as [|x l IH]; intros l' H1 H2 HP; [by apply Permutation_nil_l in HP|].
  destruct l' as [|y l']; [by apply Permutation_nil_r in HP|].
  apply inc_cons in H1 as [H1 F1]. apply inc_cons in H2 as [H2 F2].
  assert (x = y) as <-.
  { destruct (decide (x = y)) as [|Hne]; [done|]. exfalso. rewrite Forall_forall in F1, F2.
    assert (num_lt x y). { apply F1. assert (y ∈ x :: l) as Hy by (rewrite HP; apply elem_of_list_here). by apply elem_of_cons in Hy as [->|]. }
    assert (num_lt y x). { apply F2. assert (x ∈ y :: l') as Hy by (rewrite <- HP; apply elem_of_list_here). by apply elem_of_cons in Hy as [->|]. }
    by apply (num_lt_irrefl x), (num_lt_trans x y x). }
  f_equal. apply IH; try done. by apply Permutation_cons_inv in HP.
Qed.
Lemma inc_nodup l : increasing l -> NoDup l.
Proof.
  induction l as [|x l IH]; [constructor|]. intros [H F]%inc_cons. apply NoDup_cons. split; [by apply gt_notin|auto].
Qed.
Lemma lk_snap {A} m (T : bin (nat * A)) : forall p, lk m p T -> exists T', snap m p T' /\ bin_map fst T' = bin_map fst T.
Proof.
  induction T as [|l IHl [i x] r IHr]; intros p H; [by exists Nil|]. destruct H as (-> & c & Hc & Hl & Hr). cbn [fst] in *.
  destruct (IHl _ Hl) as (l' & L1 & L2), (IHr _ Hr) as (r' & R1 & R2). exists (Bin l' (i, c_pay c) r'). split.
  - split; [done|]. by exists c.
  - cbn. by rewrite L2, R2.
Qed.
Lemma inorder_map {A B} (f : A -> B) t : inorder (bin_map f t) = map f (inorder t).
Proof. induction t as [|l IHl x r IHr]; [done|]. cbn [bin_map inorder]. rewrite map_app. cbn [map]. by rewrite IHl, IHr. Qed.
Lemma snap_vals m T : forall p, snap m p T -> map Some (inorder (vmap T)) = map (val m) (ids T).
Proof.
  unfold vmap, ids. induction T as [|l IHl [i x] r IHr]; intros p H; [done|]. destruct H as (-> & c & Hc & Hx & Hl & Hr). cbn [fst snd] in *.
  cbn [bin_map inorder]. rewrite !map_app. cbn [map fst snd]. rewrite (IHl _ Hl), (IHr _ Hr). do 2 f_equal. unfold val. rewrite Hc. cbn. by rewrite Hx.
Qed.
Lemma same_length m m' : same_links m m' -> length m <= length m'.
Proof.
  intros H. destruct (decide (length m = 0)) as [->|Hn]; [lia|].
  destruct (lookup_lt_is_Some_2 m (length m - 1)) as [c Hc]; [lia|]. destruct (H _ _ Hc) as (c' & Hc' & _). apply lookup_lt_Some in Hc'. lia.
Qed.
Lemma some_inj_map (l l' : list num) : map Some l = map Some l' -> l = l'.
Proof. revert l'. induction l as [|x l IH]; intros [|y l'] H; try done. injection H as -> H. f_equal. auto. Qed.
Lemma some_perm (l l' : list num) : map Some l ≡ₚ map Some l' -> l ≡ₚ l'.
Proof.
  intros H. apply (Permutation_map (fun o : option num => match o with Some x => x | None => NegInf end)) in H. by rewrite !map_map, !map_id in H.
Qed.

Lemma remove_value_stuck c x s L T : c <> CRB -> held s T -> T <> Nil -> NoDup (ids T) -> increasing (inorder (vmap T)) ->
  path x (vmap T) <= L -> replacement_branch (subtree_at x (vmap T)) <= L -> L < exchanges (replacement (subtree_at x (vmap T))) ->
  exists s' T', remove_value_l L c x s = Exc RecursionError s' /\ held s' T' /\ t_len s' = t_len s /\
    inorder (vmap T') ≡ₚ inorder (vmap T) /\ ~ increasing (inorder (vmap T')) /\ bin_map fst T' = bin_map fst T.
Proof.
  intros HC H HT Hd Hinc H1 H2 H3. unfold remove_value_l. unfold bind at 1. rewrite (search_root_l_eq x s L T H). unfold deep.
  rewrite (proj2 (Nat.leb_le _ _) H1).
  destruct (search_root_lands x s T H HT) as (j & E & l & y & r & Hs & Hf & _ & Hv & Hn). rewrite E.
  destruct (decide (x = p_val y)) as [Ey|Hne]; [|rewrite (Hn Hne) in H3; cbn in H3; lia].
  assert (seg (Bin l (j, y) r) T) as Hseg.
  { destruct H as [Hs' Hf']. unfold search_root, get_root, get_fuel, bind in E. destruct (t_root s) as [i|]; [|done].
    destruct (search_seg x T i s _ Hs' Hf') as (j' & S & E' & HS & Hg). rewrite E' in E. injection E as ->.
    by rewrite <- (snap_inj _ _ _ _ HS Hs). }
  assert (forall A (q : num -> M tst A), bind (get_data j) q s = q (p_val y) s) as E2.
  { intros. destruct Hs as (_ & c0 & Hc & Hx & _ & _). cbn [fst snd] in *. unfold get_data, rd, ret, bind. by rewrite Hc, Hx. }
  rewrite E2. rewrite bool_decide_eq_true_2 by done. cbn [negb]. rewrite <- (Hv Ey) in H2, H3. unfold vmap in H2, H3. rewrite !branch_map in H2.
  rewrite !replacement_map, !exchanges_map in H3.
  unfold bind at 1. rewrite (replacement_eq _ j s L Hs Hf). unfold deep. rewrite (proj2 (Nat.leb_le _ _) H2).
  destruct (replacement_total _ j s Hs Hf) as (p & Ep). rewrite Ep. destruct (replacement_found _ _ _ _ _ Hs Ep) as [_ Hp].
  set (R := replacement (Bin l (j, y) r)) in *.
  assert (exists a b, ids T = a ++ ids R ++ b /\ j ∈ a ++ b) as (a & b & Hab & Hj).
  { destruct Hseg as (a & b & Hab). unfold ids. rewrite Hab. cbn [inorder]. unfold R. destruct r as [|rl rx rr].
    - destruct (seg_rightmost l) as (a' & b' & Hr). cbn [replacement]. rewrite Hr. exists (map fst (a ++ a')), (map fst (b' ++ (j, y) :: inorder Nil ++ b)).
      rewrite <- !map_app, <- !app_assoc. split; [done|]. rewrite !map_app. cbn [map fst]. rewrite !elem_of_app. do 3 right. apply elem_of_list_here.
    - destruct (seg_leftmost (Bin rl rx rr)) as (a' & b' & Hr). cbn [replacement]. rewrite Hr. exists (map fst (a ++ inorder l ++ (j, y) :: a')), (map fst (b' ++ b)).
      rewrite <- !map_app, <- !app_assoc. split; [by rewrite <- app_comm_cons, <- !app_assoc|]. rewrite !map_app. cbn [map]. rewrite !elem_of_app, elem_of_cons. tauto. }
  destruct R as [|Rl [k z] Rr] eqn:ER; [cbn in H3; lia|].
  pose proof Hp as (-> & ck & Hck & _). cbn [fst] in Hck.
  assert (forall A (q : option nat -> M tst A), bind (get_parent k) q s = q (c_parent ck) s) as E3.
  { intros. unfold get_parent, rd, ret, bind. by rewrite Hck. }
  cbn [fst]. rewrite E3. rewrite Hab in Hd.
  assert (j ∈ ids T) as HjT. { rewrite Hab. rewrite !elem_of_app in *. tauto. }
  assert (ids (Bin Rl (k, z) Rr) ⊆ ids T) as Hsub. { rewrite Hab. intros q Hq. rewrite !elem_of_app. tauto. }
  assert (NoDup (j :: ids (Bin Rl (k, z) Rr))) as Hd'.
  { apply NoDup_app in Hd as (D1 & D2 & D3). apply NoDup_app in D3 as (D3 & D4 & D5). apply NoDup_cons. split; [|done].
    intros Hq. apply elem_of_app in Hj as [Hj|Hj].
    - apply (D2 j Hj). apply elem_of_app. by left.
    - by apply (D4 j Hq). }
  assert (0 < L) as HL0. { destruct T; [done|]. cbn [vmap bin_map path] in H1. lia. }
  destruct H as [Hsn Hlev].
  destruct (transplant_stuck c (Bin Rl (k, z) Rr) HC j (Some k) s L) as (s' & Et & T1 & T2 & T3 & T4 & T5 & T6); [by apply snap_lk|done| |done|].
  { destruct Hs as (_ & c0 & Hc0 & _). by eexists. }
  unfold bind. rewrite Et.
  destruct (lk_snap (t_nodes s') T (t_root s)) as (T' & HT' & EI).
  { eapply lk_same; [exact T1|]. by apply snap_lk. }
  assert (ids T' = ids T) as Hids. { unfold ids. rewrite <- !inorder_map. by rewrite EI. }
  assert (map (val (t_nodes s')) (ids T) ≡ₚ map (val (t_nodes s)) (ids T)) as HP.
  { apply T5; [by rewrite Hab|]. intros q [->|Hq]%elem_of_cons; [done|by apply Hsub]. }
  pose proof (snap_vals _ _ _ HT') as V'. pose proof (snap_vals _ _ _ Hsn) as V. rewrite Hids in V'. rewrite <- V, <- V' in HP. apply some_perm in HP.
  exists s', T'. split_and!; try done.
  - split; [by rewrite T2|]. rewrite <- (nlevels_map fst T'), EI, nlevels_map. pose proof (same_length _ _ T1). lia.
  - intros Hinc'. pose proof (inc_perm_same _ _ Hinc' Hinc HP) as Heq. rewrite Heq, V in V'.
    assert (val (t_nodes s') j = val (t_nodes s) j) as Hjj.
    { clear -V' HjT. induction (ids T) as [|q l IH]; [by apply elem_of_nil in HjT|]. cbn [map] in V'. injection V' as V1 V2.
      apply elem_of_cons in HjT as [->|HjT]; [by symmetry|auto]. }
    rewrite (T6 k HL0 eq_refl) in Hjj.
    assert (k ∈ ids T) as HkT. { apply Hsub. unfold ids. cbn [inorder]. rewrite map_app. apply elem_of_app. right. cbn. apply elem_of_list_here. }
    assert (j = k) as ->.
    { assert (NoDup (map (val (t_nodes s)) (ids T))) as HND.
      { rewrite <- V. apply (NoDup_fmap_2 Some). by apply inc_nodup. }
      apply elem_of_list_lookup in HjT as (n1 & N1), HkT as (n2 & N2).
      assert (n1 = n2) as <-; [|congruence].
      eapply (NoDup_lookup _ n1 n2 (val (t_nodes s) j) HND).
      - change (map (val (t_nodes s)) (ids T)) with ((val (t_nodes s)) <$> (ids T)). by rewrite list_lookup_fmap, N1.
      - change (map (val (t_nodes s)) (ids T)) with ((val (t_nodes s)) <$> (ids T)). rewrite list_lookup_fmap, N2. cbn. by rewrite Hjj. }
    apply NoDup_cons in Hd' as [Hd' _]. apply Hd'. unfold ids. cbn [inorder]. rewrite map_app. apply elem_of_app. right. cbn. apply elem_of_list_here.
Qed.
Lemma remove_stuck c x s L T : shares_removal c -> held s T -> NoDup (ids T) -> increasing (inorder (vmap T)) ->
  removal_looks x (vmap T) <= L -> L < removal_exchanges x (vmap T) ->
  exists s' T', remove_l L c (PNum x) s = Exc RecursionError s' /\ held s' T' /\ t_len s' = t_len s /\
    inorder (vmap T') ≡ₚ inorder (vmap T) /\ ~ increasing (inorder (vmap T')) /\ bin_map fst T' = bin_map fst T.
Proof.
  unfold removal_looks, removal_exchanges. intros Hc H Hd Hinc H1 H2.
  assert (T <> Nil) as HT. { intros ->. cbn in H2. lia. }
  assert (only_value x (vmap T) = false) as Ho.
  { destruct (only_value x (vmap T)) eqn:Eo; [|done]. exfalso. destruct (vmap T) as [|[|] y [|]]; try done. cbn in Eo. apply bool_decide_eq_true in Eo as ->.
    cbn [subtree_at] in H2. rewrite decide_True in H2 by done. cbn in H2. lia. }
  rewrite Ho in H1.
  assert (c <> CRB) as HC. { destruct Hc as [->|[->| ->]]; done. }
  destruct (remove_value_stuck c x s L T HC H HT Hd Hinc) as (s' & T' & E & HR); [lia|lia|done|].
  exists s', T'. split; [|exact HR]. clear HR.
  destruct Hc as [->|[->| ->]]; cbn [remove_l]; rewrite (remove_with_num x s T _ H); (destruct T; [done|]); rewrite Ho.
  - unfold bind. by rewrite E.
  - unfold bind, get_len. by rewrite E.
  - unfold bind. by rewrite E.
Qed.
