(** * Pure facts about the trees and zippers of BstZip.v and BstDel.v *)
From Coq Require Import Sorted.
From iris.proofmode Require Import proofmode.
From Verif Require Import Base NumOrd TreeModel TreeSpec BstModel BalModel BstSpec BstSep BstRules BstZip BstDel BinThm.

(** ** Order *)
Lemma num_lt_irrefl a : ~ num_lt a a.
Proof. unfold num_lt. destruct a; cbn; try done. rewrite Z.ltb_irrefl. done. Qed.
Lemma num_lt_trans a b c : num_lt a b -> num_lt b c -> num_lt a c.
Proof. unfold num_lt. destruct a, b, c; cbn; try done. rewrite !Z.ltb_lt. lia. Qed.
Lemma num_lt_ne a b : num_lt a b -> a <> b.
Proof. intros H ->. by eapply num_lt_irrefl. Qed.
Lemma num_lt_asym a b : num_lt a b -> num_ltb b a = false.
Proof. intros H. destruct (num_ltb b a) eqn:E; [|done]. destruct (num_lt_irrefl a). by eapply num_lt_trans. Qed.
Lemma num_lt_total a b : a <> b -> num_ltb a b = false -> num_lt b a.
Proof.
  unfold num_lt. destruct a, b; cbn; try done. rewrite Z.ltb_ge. intros H1 H2. apply Z.ltb_lt.
  assert (z <> z0) by congruence. lia.
Qed.

(** ** Increasing lists *)
Lemma inc_app l1 l2 : increasing (l1 ++ l2) <-> increasing l1 /\ increasing l2 /\ forall x y, x ∈ l1 -> y ∈ l2 -> num_lt x y.
Proof.
  unfold increasing. induction l1 as [|a l1 IH]; cbn [app].
  - split; [intros H; split_and!; [constructor|done|set_solver]|by intros (_ & H & _)].
  - split.
    + intros H. apply StronglySorted_inv in H as [H1 H2]. apply IH in H1 as (H3 & H4 & H5).
      apply Forall_app in H2 as [H6 H7]. rewrite -> Forall_forall in H7. split_and!; [by constructor|done|].
      intros x y Hx Hy. apply elem_of_cons in Hx as [->|Hx]; [by apply H7|by apply H5].
    + intros (H1 & H2 & H3). apply StronglySorted_inv in H1 as [H4 H5]. constructor.
      * apply IH. split_and!; [done|done|]. intros x y Hx Hy. apply H3; [by right|done].
      * apply Forall_app. split; [done|]. apply Forall_forall. intros y Hy. apply H3; [by left|done].
Qed.
Lemma inc_cons x l : increasing (x :: l) <-> increasing l /\ Forall (num_lt x) l.
Proof.
  unfold increasing. split; [by intros H; apply StronglySorted_inv in H|intros [H1 H2]; by constructor].
Qed.
Lemma inc_mid l1 x l2 : increasing (l1 ++ x :: l2) <->
  increasing l1 /\ increasing l2 /\ Forall (fun y => num_lt y x) l1 /\ Forall (num_lt x) l2.
Proof.
  rewrite inc_app inc_cons. split.
  - intros (H1 & (H2 & H3) & H4). split_and!; try done. apply Forall_forall. intros y Hy. apply H4; [done|by left].
  - intros (H1 & H2 & H3 & H4). split_and!; try done. intros a b Ha Hb.
    rewrite -> Forall_forall in H3, H4. apply elem_of_cons in Hb as [->|Hb]; [by apply H3|].
    eapply num_lt_trans; [by apply H3|by apply H4].
Qed.
Lemma inc_NoDup l : increasing l -> NoDup l.
Proof.
  induction l as [|x l IH]; [constructor|]. rewrite inc_cons. intros [H1 H2]. constructor; [|by apply IH].
  intros Hx. rewrite -> Forall_forall in H2. by apply (num_lt_irrefl x), H2.
Qed.
Lemma inc_mid_del l1 x l2 : increasing (l1 ++ x :: l2) -> increasing (l1 ++ l2).
Proof.
  intros H. apply inc_app. apply inc_mid in H as (H1 & H2 & H3 & H4). split_and!; try done.
  rewrite -> Forall_forall in H3, H4. intros a b Ha Hb. eapply num_lt_trans; [by apply H3|by apply H4].
Qed.
Lemma lt_notin l v : Forall (fun y => num_lt y v) l -> v ∉ l.
Proof. rewrite Forall_forall. intros H Hv. by apply (num_lt_irrefl v), H. Qed.
Lemma gt_notin l v : Forall (num_lt v) l -> v ∉ l.
Proof. rewrite Forall_forall. intros H Hv. by apply (num_lt_irrefl v), H. Qed.
Lemma set_add_new l1 l2 v : Forall (fun y => num_lt y v) l1 -> Forall (num_lt v) l2 -> set_add v (l1 ++ l2) = l1 ++ v :: l2.
Proof.
  induction l1 as [|x l1 IH]; cbn [app].
  - intros _ H. destruct l2 as [|x l2]; [done|]. cbn [set_add]. apply Forall_cons in H as [H _].
    rewrite decide_False; [|by apply num_lt_ne]. by rewrite H.
  - intros H H'. apply Forall_cons in H as [H1 H2]. cbn [set_add].
    rewrite decide_False; [|intros ->; by eapply num_lt_irrefl]. rewrite (num_lt_asym _ _ H1). by rewrite IH.
Qed.
Lemma set_add_old l1 l2 v : Forall (fun y => num_lt y v) l1 -> set_add v (l1 ++ v :: l2) = l1 ++ v :: l2.
Proof.
  induction l1 as [|x l1 IH]; cbn [app].
  - intros _. cbn [set_add]. by rewrite decide_True.
  - intros H. apply Forall_cons in H as [H1 H2]. cbn [set_add].
    rewrite decide_False; [|intros ->; by eapply num_lt_irrefl]. rewrite (num_lt_asym _ _ H1). by rewrite IH.
Qed.
Lemma set_add_in l v : increasing l -> v ∈ l -> set_add v l = l.
Proof.
  intros Hl Hv. apply elem_of_list_split in Hv as (l1 & l2 & ->). apply inc_mid in Hl as (_ & _ & H & _).
  by apply set_add_old.
Qed.
Lemma set_del_notin l v : v ∉ l -> set_del v l = l.
Proof.
  intros Hv. unfold set_del. induction l as [|x l IH]; [done|]. rewrite filter_cons_True; [|set_solver].
  rewrite IH; [done|set_solver].
Qed.
Lemma set_del_mid l1 l2 v : v ∉ l1 -> v ∉ l2 -> set_del v (l1 ++ v :: l2) = l1 ++ l2.
Proof.
  intros H1 H2. unfold set_del. rewrite filter_app filter_cons_False; [|naive_solver].
  f_equal; by apply set_del_notin.
Qed.
Lemma elem_set_add l v x : x ∈ set_add v l <-> x = v \/ x ∈ l.
Proof.
  induction l as [|y l IH]; cbn [set_add]; [set_solver|].
  destruct (decide (v = y)) as [->|]; [set_solver|]. destruct (num_ltb v y); [set_solver|].
  rewrite !elem_of_cons IH. tauto.
Qed.
Lemma elem_set_del l v x : x ∈ set_del v l <-> x ∈ l /\ x <> v.
Proof. unfold set_del. rewrite elem_of_list_filter. tauto. Qed.
Lemma set_add_inc l v : increasing l -> increasing (set_add v l).
Proof.
  induction l as [|y l IH]; intros H; cbn [set_add]; [by repeat constructor|].
  destruct (decide (v = y)) as [->|Hne]; [done|]. destruct (num_ltb v y) eqn:E.
  - apply inc_cons. split; [done|]. apply inc_cons in H as [_ H]. constructor; [done|].
    eapply Forall_impl; [exact H|]. intros z Hz. by eapply num_lt_trans.
  - apply inc_cons in H as [H1 H2]. apply inc_cons. split; [by apply IH|]. apply Forall_forall. intros z Hz.
    apply elem_set_add in Hz as [->|Hz]; [by apply num_lt_total|]. rewrite -> Forall_forall in H2. by apply H2.
Qed.
Lemma set_del_inc l v : increasing l -> increasing (set_del v l).
Proof.
  intros H. destruct (decide (v ∈ l)) as [Hv|Hv]; [|by rewrite set_del_notin].
  apply elem_of_list_split in Hv as (l1 & l2 & ->). pose proof H as H'. apply inc_mid in H' as (_ & _ & H1 & H2).
  rewrite set_del_mid; [|by apply lt_notin|by apply gt_notin]. by eapply inc_mid_del.
Qed.

(** ** Values of a tree in order *)
Fixpoint ino (t : ptree) : list num :=
  match t with Nil => [] | Bin l ix u => ino l ++ p_val ix.2 :: ino u end.
Fixpoint zl (K : ctx) : list num :=
  match K with [] => [] | InL _ _ :: K' => zl K' | InR u ix :: K' => zl K' ++ ino u ++ [p_val ix.2] end.
Fixpoint zr (K : ctx) : list num :=
  match K with [] => [] | InL ix u :: K' => p_val ix.2 :: ino u ++ zr K' | InR _ _ :: K' => zr K' end.
Lemma ino_plug K t : ino (plug K t) = zl K ++ ino t ++ zr K.
Proof.
  revert t. induction K as [|[ix u|u ix] K IH]; intros t; cbn [plug zl zr app].
  - by rewrite app_nil_r.
  - rewrite IH. cbn [fill ino]. by rewrite -!app_assoc.
  - rewrite IH. cbn [fill ino]. by rewrite -!app_assoc.
Qed.
Lemma ino_vals t : inorder_traverse (bin_map p_val (bin_map snd t)) = ino t.
Proof. induction t as [|l IHl ix u IHu]; [done|]. cbn. by rewrite IHl IHu. Qed.
Lemma inorder_pays t : map p_val (inorder (bin_map snd t)) = ino t.
Proof. induction t as [|l IHl ix u IHu]; [done|]. cbn [bin_map inorder ino]. by rewrite map_app IHl /= IHu. Qed.
Lemma inorder_vals t : inorder (bin_map p_val (bin_map snd t)) = ino t.
Proof. induction t as [|l IHl ix u IHu]; [done|]. cbn. by rewrite IHl IHu. Qed.
Lemma ino_length t : length (ino t) = bsize t.
Proof. induction t as [|l IHl ix u IHu]; [done|]. cbn [ino bsize]. rewrite app_length. cbn. lia. Qed.
Lemma bsize_ino t t' : length (ino t) = length (ino t') -> bsize t = bsize t'.
Proof. by rewrite !ino_length. Qed.
Lemma ino_nil t : ino t = [] <-> t = Nil.
Proof. destruct t; [done|]. cbn. split; [|done]. by destruct (ino _). Qed.
Lemma ino_node c l ix u : ino (node c l ix u) = ino l ++ p_val ix.2 :: ino u.
Proof. by destruct c. Qed.
Lemma zl_app K K' : zl (K ++ K') = zl K' ++ zl K.
Proof. induction K as [|[ix u|u ix] K IH]; cbn [app zl]; [by rewrite app_nil_r|exact IH|]. by rewrite IH -app_assoc. Qed.
Lemma zr_app K K' : zr (K ++ K') = zr K ++ zr K'.
Proof. induction K as [|[ix u|u ix] K IH]; cbn [app zr]; [done| |exact IH]. by rewrite IH -app_assoc. Qed.
Lemma p_val_refresh c l x u : p_val (refresh c l x u) = p_val x.
Proof. by destruct c. Qed.
Lemma ino_fillc c f t : ino (fillc c f t) = ino (fill f t).
Proof. destruct f; cbn [fillc fill node ino fst snd]; by rewrite p_val_refresh. Qed.
Lemma ino_plug_fillc c K f t : ino (plug K (fillc c f t)) = ino (plug (f :: K) t).
Proof. cbn [plug]. by rewrite !ino_plug ino_fillc. Qed.

Lemma zfind_bounds v T : increasing (ino T) ->
  Forall (fun y => num_lt y v) (zl (zfind v T).1) /\ Forall (num_lt v) (zr (zfind v T).1).
Proof.
  induction T as [|l IHl [i x] u IHu]; cbn [zfind ino]; [by repeat constructor|].
  intros H. apply inc_mid in H as (H1 & H2 & H3 & H4). cbn [snd] in *.
  destruct (bool_decide (v = p_val x)) eqn:E; [by repeat constructor|]. apply bool_decide_eq_false in E.
  destruct (num_ltb v (p_val x)) eqn:E'; cbn [fst].
  - rewrite zl_app zr_app. cbn [zl zr app snd]. rewrite ?app_nil_r. destruct (IHl H1) as [H5 H6]. split; [done|].
    apply Forall_app. split; [done|]. constructor; [done|].
    eapply Forall_impl; [exact H4|]. intros y Hy. by eapply num_lt_trans.
  - apply num_lt_total in E'; [|done]. rewrite zl_app zr_app. cbn [zl zr app snd]. rewrite ?app_nil_r. destruct (IHu H2) as [H5 H6].
    split; [|done]. cbn [app]. apply Forall_app. split; [|done]. apply Forall_app. split; [|by constructor].
    eapply Forall_impl; [exact H3|]. intros y Hy. cbn in Hy |- *. exact (num_lt_trans _ _ _ Hy E').
Qed.
Lemma zfind_in v T : increasing (ino T) -> (v ∈ ino T <-> (zfind v T).2 <> Nil).
Proof.
  intros H. destruct (zfind_bounds v T H) as [H1 H2]. pose proof (zfind_plug v T) as HP. pose proof (zfind_val v T) as HV.
  destruct (zfind v T) as [K t]. cbn [fst snd] in *. rewrite -HP ino_plug. split.
  - intros Hv ->. cbn in Hv. apply elem_of_app in Hv as [Hv|Hv]; [by apply lt_notin in Hv|by apply gt_notin in Hv].
  - intros Ht. destruct t as [|l ix u]; [done|]. specialize (HV l ix u eq_refl). cbn [ino]. rewrite HV.
    rewrite !elem_of_app elem_of_cons. tauto.
Qed.
Lemma zfind_nil_notin v T K : zfind v T = (K, Nil) -> increasing (ino T) -> v ∉ ino T.
Proof. intros E H Hv. apply zfind_in in Hv; [|done]. by rewrite E in Hv. Qed.
Lemma zfind_bin_in v T K l ix u : zfind v T = (K, Bin l ix u) -> v ∈ ino T.
Proof.
  intros E. pose proof (zfind_plug v T) as HP. pose proof (zfind_val v T) as HV. rewrite E in HP, HV. cbn in *.
  rewrite -HP ino_plug. cbn [ino]. rewrite (HV _ _ _ eq_refl). rewrite !elem_of_app elem_of_cons. tauto.
Qed.
(** Insertion adds the value. *)
Lemma zinsert_ino c v new x T : p_val x = v -> T <> Nil -> increasing (ino T) -> ino (zinsert c v new x T) = set_add v (ino T).
Proof.
  intros Hx HT H. unfold zinsert. destruct (zfind_bounds v T H) as [H1 H2]. pose proof (zfind_plug v T) as HP.
  pose proof (zfind_val v T) as HV. destruct (zfind v T) as [K t] eqn:E. cbn [fst snd] in *.
  destruct t as [|l ix u].
  - destruct K as [|f K]; [by subst T|]. rewrite ino_plug_fillc -HP !ino_plug. cbn [leaf_of ino app snd]. rewrite Hx.
    by rewrite set_add_new.
  - assert (v ∈ ino T) by (by eapply zfind_bin_in). rewrite set_add_in //. by destruct K.
Qed.

(** ** Removal *)
Definition root_val (t : ptree) (d : num) : num := match t with Nil => d | Bin _ ix _ => p_val ix.2 end.
Lemma p_val_take c x y : p_val (take_pay c x y) = p_val y.
Proof. by destruct c. Qed.
Lemma ino_mk c (b : bool) l ix u : ino ((if b then node c else Bin) l ix u) = ino l ++ p_val ix.2 :: ino u.
Proof. destruct b; [apply ino_node|done]. Qed.
Lemma chain_perm c t : forall d, t <> Nil -> root_val t d :: ino (chain c t) ≡ₚ ino t.
Proof.
  induction t as [|l IHl ix u IHu]; intros d Ht; [done|]. destruct l as [|l1 jy l2].
  - destruct u as [|u1 jy u2]; [done|]. rewrite chain_u ino_mk. cbn [fst snd root_val]. rewrite p_val_take.
    change (ino (Bin Nil ix (Bin u1 jy u2))) with (p_val ix.2 :: ino (Bin u1 jy u2)).
    constructor. cbn [ino app]. by apply (IHu d).
  - rewrite chain_l ino_mk. cbn [fst snd root_val]. rewrite p_val_take.
    change (ino (Bin (Bin l1 jy l2) ix u)) with (ino (Bin l1 jy l2) ++ p_val ix.2 :: ino u).
    rewrite -Permutation_middle. rewrite (Permutation_app_comm (ino (Bin l1 jy l2))). cbn [app].
    constructor. rewrite -(IHl d) //. cbn [root_val]. rewrite -Permutation_middle. constructor. apply Permutation_app_comm.
Qed.
Definition dels c f t := ino (putdel c f t).
Lemma ino_putdel c f t : ino (putdel c f t) = ino (fill f (chain c t)).
Proof.
  unfold putdel. destruct (leafb t) eqn:E; [|done]. rewrite (chain_leaf _ _ E). apply ino_fillc.
Qed.
Lemma ino_zremove c q : zrep c q = ([], q.2) \/ True ->
  (zrep c q).1 <> [] -> ino (plug (zremove c q).1 (zremove c q).2) = zl (zrep c q).1 ++ ino (chain c (zrep c q).2) ++ zr (zrep c q).1.
Proof.
  intros _ H. unfold zremove. destruct (zrep c q) as [[|f K] t]; [done|]. cbn [fst snd].
  rewrite -ino_plug. cbn [plug]. by rewrite !ino_plug ino_putdel.
Qed.
Lemma zmin_zl t : zl (zmin t).1 = [].
Proof.
  induction t as [|l IHl ix u IHu]; [done|]. cbn [zmin]. destruct l; [done|]. cbn [fst]. by rewrite zl_app IHl.
Qed.
Lemma zmax_zr t : zr (zmax t).1 = [].
Proof.
  induction t as [|l IHl ix u IHu]; [done|]. cbn [zmax]. destruct u; [done|]. cbn [fst]. by rewrite zr_app IHu.
Qed.
(** What is left where a value with both neighbours is removed. *)
Definition rest (c : tcls) (l u : ptree) : list num :=
  match u with
  | Bin _ _ _ =>
      let w := zmin u in
      match w.2 with Bin _ jy _ => ino l ++ p_val jy.2 :: ino (chain c w.2) ++ zr w.1 | Nil => [] end
  | Nil =>
      match l with
      | Bin _ _ _ =>
          let w := zmax l in
          match w.2 with Bin _ jy _ => zl w.1 ++ ino (chain c w.2) ++ [p_val jy.2] | Nil => [] end
      | Nil => []
      end
  end.
Lemma zremove_ino c K l ix u : ~ (K = [] /\ l = Nil /\ u = Nil) ->
  let z := zremove c (K, Bin l ix u) in ino (plug z.1 z.2) = zl K ++ rest c l u ++ zr K.
Proof.
  intros HK. cbn zeta. destruct u as [|u1 jy u2].
  - destruct l as [|l1 jy l2].
    + rewrite ino_zremove; [|by right|cbn; naive_solver]. cbn [zrep fst snd rest]. by rewrite (chain_leaf c (Bin Nil ix Nil)).
    + destruct (zmax_shape (Bin l1 jy l2)) as (l3 & ky & E); [done|].
      assert (zrep c (K, Bin (Bin l1 jy l2) ix Nil) = ((zmax (Bin l1 jy l2)).1 ++ InL (ix.1, take_pay c ix.2 ky.2) Nil :: K, Bin l3 ky Nil)) as HZ.
      { unfold zrep. cbn zeta. rewrite E. done. }
      rewrite ino_zremove; [|by right|rewrite HZ; cbn [fst]; by destruct ((zmax (Bin l1 jy l2)).1)].
      rewrite HZ. cbn [fst snd]. rewrite zl_app zr_app zmax_zr. cbn [zl zr app snd]. unfold rest. cbn zeta. rewrite E.
      rewrite p_val_take. by rewrite -!app_assoc.
  - destruct (zmin_shape (Bin u1 jy u2)) as (ky & l3 & E); [done|].
    assert (zrep c (K, Bin l ix (Bin u1 jy u2)) = ((zmin (Bin u1 jy u2)).1 ++ InR l (ix.1, take_pay c ix.2 ky.2) :: K, Bin Nil ky l3)) as HZ.
    { unfold zrep. cbn zeta. rewrite E. done. }
    rewrite ino_zremove; [|by right|rewrite HZ; cbn [fst]; by destruct ((zmin (Bin u1 jy u2)).1)].
    rewrite HZ. cbn [fst snd]. rewrite zl_app zr_app zmin_zl. cbn [zl zr app snd]. unfold rest. cbn zeta. rewrite E.
    rewrite p_val_take. rewrite app_nil_r. rewrite -!app_assoc. cbn [app]. by rewrite -!app_assoc.
Qed.
Lemma ino_zmin u : forall ky l3, (zmin u).2 = Bin Nil ky l3 -> ino u = p_val ky.2 :: ino l3 ++ zr (zmin u).1.
Proof. intros ky l3 E. rewrite -{1}(zmin_plug u) ino_plug zmin_zl E. done. Qed.
Lemma ino_zmax l : forall ky l3, (zmax l).2 = Bin l3 ky Nil -> ino l = zl (zmax l).1 ++ ino l3 ++ [p_val ky.2].
Proof. intros ky l3 E. rewrite -{1}(zmax_plug l) ino_plug zmax_zr E. cbn [ino]. by rewrite app_nil_r. Qed.
(** As a multiset, exactly one value goes. *)
Lemma rest_perm c l u : rest c l u ≡ₚ ino l ++ ino u.
Proof.
  destruct u as [|u1 jy u2]; [destruct l as [|l1 jy l2]|]; [done| |].
  - unfold rest. destruct (zmax_shape (Bin l1 jy l2)) as (l3 & ky & E); [done|]. cbn zeta. rewrite E.
    rewrite (ino_zmax _ _ _ E). rewrite app_nil_r. apply Permutation_app_head.
    rewrite Permutation_app_comm. cbn [app]. rewrite (chain_perm c (Bin l3 ky Nil) NegInf) //.
  - unfold rest. destruct (zmin_shape (Bin u1 jy u2)) as (ky & l3 & E); [done|]. cbn zeta. rewrite E.
    rewrite (ino_zmin _ _ _ E). apply Permutation_app_head.
    rewrite !app_comm_cons. apply Permutation_app_tail. by rewrite (chain_perm c (Bin Nil ky l3) NegInf).
Qed.
(** In order, iff below the replacement there is a single branch. *)
Lemma chain_right c ix u : NoDup (ino u) -> (ino (chain c (Bin Nil ix u)) = ino u <-> only_right u).
Proof.
  revert ix. induction u as [|l _ jy u IH]; intros ix H; [done|]. rewrite chain_u ino_mk. cbn [fst snd ino app]. rewrite p_val_take.
  destruct l as [|l1 kz l2]; cbn [only_right].
  - cbn [ino app]. cbn in H. apply NoDup_cons in H as [_ H]. rewrite -(IH jy) //. split; [by intros [= ?]|by intros ->].
  - split; [|done]. intros E. exfalso.
    change (ino (Bin (Bin l1 kz l2) jy u)) with (ino (Bin l1 kz l2) ++ p_val jy.2 :: ino u) in H.
    destruct (ino (Bin l1 kz l2)) as [|a w] eqn:Ew; [by apply ino_nil in Ew|].
    cbn [app] in E, H. injection E as E _. subst a. apply NoDup_cons in H as [H _]. set_solver.
Qed.
Lemma chain_left c ix l : NoDup (ino l) -> (ino (chain c (Bin l ix Nil)) = ino l <-> only_left l).
Proof.
  revert ix. induction l as [|l IH jy u _]; intros ix H; [done|]. rewrite chain_l ino_mk. cbn [fst snd]. rewrite p_val_take.
  cbn [ino] in H |- *.
  destruct u as [|l1 kz l2]; cbn [only_left].
  - cbn [ino]. apply NoDup_app in H as (H & _ & _). rewrite -(IH jy) //. split; [by intros ?%app_inv_tail|by intros ->].
  - split; [|by destruct l]. intros E. exfalso.
    destruct (exists_last (l := ino (Bin l1 kz l2))) as (w & a & Ew); [by intros ?%ino_nil|].
    rewrite Ew in E, H.
    assert (forall (A : list num) x y, A ++ [x] = ino l ++ p_val jy.2 :: w ++ [y] -> x = y) as Hinj.
    { intros A x y E'. change (ino l ++ p_val jy.2 :: w ++ [y]) with (ino l ++ (p_val jy.2 :: w) ++ [y]) in E'.
      rewrite (app_assoc (ino l)) in E'. by apply app_inj_tail in E' as [_ E']. }
    apply Hinj in E. subst a.
    apply NoDup_app in H as (_ & _ & H). apply NoDup_cons in H as [H _]. set_solver.
Qed.
Lemma below_leftmost_zmin u : forall ky l3, (zmin u).2 = Bin Nil ky l3 -> below_leftmost u = l3.
Proof.
  induction u as [|l IHl ix u IHu]; [done|]. intros ky l3. cbn [zmin below_leftmost]. destruct l.
  - cbn. congruence.
  - cbn [snd]. apply IHl.
Qed.
Lemma below_rightmost_zmax l : forall ky l3, (zmax l).2 = Bin l3 ky Nil -> below_rightmost l = l3.
Proof.
  induction l as [|l IHl ix u IHu]; [done|]. intros ky l3. cbn [zmax below_rightmost]. destruct u.
  - cbn. congruence.
  - cbn [snd]. apply IHu.
Qed.
Lemma rest_exact c l ix u : NoDup (ino l ++ ino u) -> (rest c l u = ino l ++ ino u <-> replaceable (Bin l ix u)).
Proof.
  intros H. destruct u as [|u1 jy u2]; [destruct l as [|l1 jy l2]|]; [done| |].
  - unfold rest, replaceable. destruct (zmax_shape (Bin l1 jy l2)) as (l3 & ky & E); [done|]. cbn zeta. rewrite E.
    rewrite (below_rightmost_zmax _ _ _ E). rewrite (ino_zmax _ _ _ E) in H |- *. rewrite app_nil_r in H.
    apply NoDup_app in H as (_ & _ & H). apply NoDup_app in H as (H & _ & _).
    rewrite app_nil_r. rewrite -(chain_left c ky) //. split; [by intros ?%app_inv_head%app_inv_tail|by intros ->].
  - unfold rest, replaceable. destruct (zmin_shape (Bin u1 jy u2)) as (ky & l3 & E); [done|]. cbn zeta. rewrite E.
    rewrite (below_leftmost_zmin _ _ _ E). rewrite (ino_zmin _ _ _ E) in H |- *.
    apply NoDup_app in H as (_ & _ & H). apply NoDup_cons in H as [_ H]. apply NoDup_app in H as (H & _ & _).
    rewrite -(chain_right c ky) //. split; [|by intros ->]. intros E'%app_inv_head. injection E' as E'. by apply app_inv_tail in E'.
Qed.
