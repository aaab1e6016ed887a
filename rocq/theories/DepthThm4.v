(** * Histories under the recursion limit *)
From Verif Require Import Base NumOrd TreeModel TreeSpec BstModel BalModel BstSpec BstSep BstRules BstPure BstZip BstThm TreeIterThm TreeIterThm3 TreeIterThm4.
From Verif Require Import BstProps AvlProps AvlProps2 AvlProps3 SplayProps TreapProps RbProps DepthModel DepthSpec DepthThm DepthThm2 DepthThm3.
Local Open Scope py_scope.

Lemma no_removals_set c os : no_removals os -> behaves_as_set c os.
Proof.
  intros H. destruct c.
  - by apply C24_insertions_implement_a_set.
  - by apply C26_insertions_implement_a_set.
  - by apply C30_insertions_implement_a_set.
  - by apply C29_insertions.
  - by apply C32_insertions_implement_a_set.
Qed.
Lemma answer_in_stack c o l r : answer c o l r -> out_of_stack r = false.
Proof.
  destruct o as [v p|v|v| | | | |m| | | | | | |]; cbn [answer]; intros H.
  - destruct v; subst r; try done. by destruct (prio_ok c p).
  - destruct v; by subst r.
  - destruct c, v; subst r; try done. by destruct (decide (l = [])).
  - by subst r.
  - by subst r.
  - subst r. by destruct (head l).
  - subst r. by destruct (last l).
  - destruct m; try (by subst r). destruct (decide _); [by subst r|]. destruct (decide _); [by destruct H as (vs & -> & _)|by subst r].
  - by destruct H as (? & -> & _).
  - by destruct H as (? & ->).
  - by destruct H as (? & ->).
  - by destruct H as (? & ->).
  - by destruct H as (? & ->).
  - by destruct H as (? & ->).
  - by subst r.
Qed.
(** One more call after a history. *)
Lemma next_call c pre o rs s : behaves_as_set c (pre ++ [o]) -> history c pre = Some (rs, s) ->
  exists r s', call c o s = Some (r, s') /\ history c (pre ++ [o]) = Some (rs ++ [r], s') /\ out_of_stack r = false.
Proof.
  intros (rs' & s' & t & E & HA & _) H. pose proof E as E'. unfold history in E, H. rewrite calls_app, H in E. cbn [calls] in E.
  destruct (call c o s) as [[r s1]|]; [|done]. injection E as <- <-. exists r, s1. split_and!; [done|done|].
  apply answers_app in HA as (r1 & r2 & Er & HA1 & HA2 & Hl).
  destruct r2 as [|q r2]; [done|]. destruct HA2 as [HA2 HA3]. destruct r2 as [|? ?]; [|done].
  apply app_inj_2 in Er as [_ [= ->]]; [|done]. by eapply answer_in_stack.
Qed.
Lemma no_removals_snoc os o : no_removals os -> is_removal o = false -> no_removals (os ++ [o]).
Proof. intros. apply Forall_app. split; [done|]. by constructor. Qed.

Lemma limited_calls c os : forall pre rs0 s, no_removals pre -> no_removals (calls_of os) -> history c pre = Some (rs0, s) ->
  exists rs s', calls_l c os s = Some (rs, s') /\ calls c (done_calls os rs) s = Some (done_results rs, s') /\ length rs = length os /\
    no_removals (done_calls os rs).
Proof.
  induction os as [|[L o] os IH]; intros pre rs0 s Hp Ho H.
  { exists [], s. by split_and!. }
  apply Forall_cons in Ho as [Ho Hos]. cbn [snd] in Ho.
  destruct (no_removals_set c pre Hp) as (rs1 & s1 & t & E & _ & Ht & _). rewrite H in E. injection E as <- <-.
  destruct (shape_held s t Ht) as (T & HT & _). cbn [calls_l]. rewrite (call_deep c L o s T HT Ho).
  destruct (Nat.leb _ L).
  - assert (no_removals (pre ++ [o])) as Hpo by (by apply no_removals_snoc).
    destruct (next_call c pre o rs0 s (no_removals_set c _ Hpo) H) as (r & s' & Ec & Eh & Hr).
    destruct (IH _ _ _ Hpo Hos Eh) as (rs & s2 & E1 & E2 & E3 & E4). rewrite Ec, E1. exists (r :: rs), s2. split_and!; [done| |cbn; lia|].
    + cbn [done_calls done_results calls]. rewrite Hr. cbn [calls]. rewrite Ec, E2. unfold done_results. rewrite filter_cons.
      by rewrite decide_True by done.
    + cbn [done_calls]. rewrite Hr. by constructor.
  - destruct (IH _ _ _ Hp Hos H) as (rs & s2 & E1 & E2 & E3 & E4). rewrite E1. exists (ORaise RecursionError :: rs), s2. split_and!; [done|done|cbn; lia|done].
Qed.

(** ** AVL trees *)
Lemma balanced_levels {A} (t : bin A) : height_balanced t -> nlevels t <= 2 * Nat.log2 (length (inorder t) + 1) + 1.
Proof.
  intros H. apply balanced_fib in H. destruct (fib_square (nlevels t)) as [Hq _]. set (n := length (inorder t)) in *.
  assert (2 ^ nlevels t <= (n + 1) * (n + 1)) as Hb.
  { etrans; [exact Hq|]. by apply Nat.mul_le_mono. }
  apply Nat.log2_le_mono in Hb. rewrite Nat.log2_pow2 in Hb by lia.
  pose proof (Nat.log2_mul_above (n + 1) (n + 1) ltac:(lia) ltac:(lia)). lia.
Qed.
Lemma set_add_length v l : length (set_add v l) <= S (length l).
Proof. induction l as [|x l IH]; cbn; [lia|]. case_decide; cbn; [lia|]. destruct (num_ltb v x); cbn; lia. Qed.
Lemma set_after_length c os : forall l, length (set_after c os l) <= length l + length os.
Proof.
  induction os as [|o os IH]; intros l; cbn [set_after length]; [lia|]. etrans; [apply IH|].
  enough (length (next c o l) <= S (length l)) by lia.
  destruct o as [[|x| | | |] p|[|x| | | |]| | | | | | | | | | | | |]; cbn [next length]; try lia.
  - destruct (prio_ok c p); [apply set_add_length|lia].
  - unfold set_del. pose proof (filter_length (fun y => y <> x) l). lia.
Qed.
Lemma throughout_prefix c a b : balanced_throughout c (a ++ b) -> balanced_throughout c a.
Proof. intros H pre post rs s t -> Hp. apply (H pre (post ++ b)); [by rewrite <- app_assoc|by destruct post]. Qed.
Lemma avl_limited os : forall pre rs0 s N, balanced_throughout CAVL (pre ++ calls_of os) -> history CAVL pre = Some (rs0, s) ->
  length pre + length os <= N -> Forall (fun Lo => 2 * Nat.log2 (N + 1) + 1 <= fst Lo) os ->
  calls_l CAVL os s = calls CAVL (calls_of os) s.
Proof.
  induction os as [|[L o] os IH]; intros pre rs0 s N HB H HN HL; [done|]. apply Forall_cons in HL as [HL HLs]. cbn [fst] in HL.
  cbn [calls_l calls_of map snd calls]. cbn [calls_of map snd] in HB.
  destruct (C28_removal_partial pre (throughout_prefix _ _ _ HB)) as [(rs1 & s1 & t & E & _ & Ht & Hin) _]. rewrite H in E. injection E as <- <-.
  pose proof (HB pre (o :: calls_of os) _ _ _ eq_refl ltac:(done) H Ht) as Hb.
  destruct (shape_held s t Ht) as (T & HT & ET). rewrite (call_fits CAVL L o s T HT).
  2:{ rewrite <- (nlevels_map snd T), ET. etrans; [by apply balanced_levels|]. etrans; [|exact HL].
      assert (Nat.log2 (length (inorder t) + 1) <= Nat.log2 (N + 1)); [|lia]. apply Nat.log2_le_mono.
      rewrite <- (map_length p_val), Hin. pose proof (set_after_length CAVL pre []). cbn [length] in *. lia. }
  assert (balanced_throughout CAVL ((pre ++ [o]) ++ calls_of os)) as HB' by (by rewrite <- app_assoc).
  destruct (C28_removal_partial _ (throughout_prefix _ _ _ HB')) as [HS _].
  destruct (next_call CAVL pre o rs0 s HS H) as (r & s' & Ec & Eh & _). rewrite Ec.
  rewrite (IH (pre ++ [o]) _ s' N HB' Eh); [done|rewrite app_length; cbn in *; lia|done].
Qed.

(** ** Increasing insertions into a BST *)
Lemma path_above x t : Forall (fun y => num_lt y x) (inorder t) -> path x t = right_branch t.
Proof.
  induction t as [|l IHl y r IHr]; intros H; [done|]. cbn [inorder] in H. apply Forall_app in H as [_ H]. apply Forall_cons in H as [Hy Hr].
  cbn [path right_branch]. unfold num_lt in Hy. rewrite decide_False by (intros ->; by apply (num_lt_irrefl y)).
  rewrite (num_lt_asym y x) by done. by rewrite IHr.
Qed.
Lemma zinsert_above x new p T : T <> Nil -> Forall (fun y => num_lt y x) (ino T) -> right_branch (zinsert CBST x new p T) = S (right_branch T).
Proof.
  induction T as [|l IHl ix u IHu]; intros HT H; [done|]. cbn [ino] in H. apply Forall_app in H as [_ H]. apply Forall_cons in H as [Hy Hr].
  unfold num_lt in Hy. assert (bool_decide (x = p_val ix.2) = false) as E1.
  { apply bool_decide_eq_false. intros ->. by apply (num_lt_irrefl (p_val ix.2)). }
  assert (num_ltb x (p_val ix.2) = false) as E2 by (by apply num_lt_asym).
  destruct (decide (u = Nil)) as [->|Hu].
  - unfold zinsert. cbn [zfind]. rewrite E1, E2. destruct ix. done.
  - rewrite (zinsert_right CBST x new p l ix u E1 E2 Hu). cbn [right_branch]. by rewrite IHu.
Qed.

Lemma bsize_above x new p T : T <> Nil -> Forall (fun y => num_lt y x) (ino T) -> bsize (zinsert CBST x new p T) = S (bsize T).
Proof.
  intros HT H. rewrite (zinsert_size CBST x new p T HT). destruct (found x T) eqn:E; [|lia].
  apply found_elem in E. by apply lt_notin in H.
Qed.
Lemma sorted_limited L vs : forall s T, rep s T -> increasing (ino T ++ vs) -> right_branch T = bsize T -> bsize T <= S L ->
  exists s' T', calls_l CBST (map (fun v => (L, TInsert (PNum v) (Drawn 0))) vs) s =
      Some (replicate (Nat.min (length vs) (S L - bsize T)) (OUnit false) ++ replicate (length vs - (S L - bsize T)) (ORaise RecursionError), s') /\
    rep s' T' /\ ino T' = ino T ++ take (S L - bsize T) vs.
Proof.
  induction vs as [|v vs IH]; intros s T HR Hinc Hb HL.
  { exists s, T. cbn. split_and!; [done|done|]. by rewrite take_nil, app_nil_r. }
  apply inc_app in Hinc as (H1 & H2 & H3).
  assert (Forall (fun y => num_lt y v) (ino T)) as Hv. { apply Forall_forall. intros y Hy. apply H3; [done|]. apply elem_of_list_here. }
  pose proof (rep_shape s T HR) as Hsh. destruct (shape_held s _ Hsh) as (T1 & HT1 & ET1).
  cbn [map calls_l]. rewrite (call_deep CBST L (TInsert (PNum v) (Drawn 0)) s T1 HT1 eq_refl). cbn [needs prio_ok].
  assert (path v (vmap T1) = bsize T) as ->.
  { unfold vmap. rewrite ET1, path_above; [|by rewrite inorder_vals]. by rewrite !right_map. }
  destruct (Nat.leb_spec (bsize T) L) as [HlL|HlL].
  - destruct (bst_insert_run s T v (Drawn 0) HR) as (s1 & T2 & E & HR2 & new & HT2).
    assert (found v T = false) as Hf.
    { destruct (found v T) eqn:Ef; [|done]. apply found_elem in Ef. by apply lt_notin in Hv. }
    assert (call CBST (TInsert (PNum v) (Drawn 0)) s = Some (OUnit false, s1)) as Ec.
    { apply call_ok. cbn [exec]. rewrite (bind_ok _ _ _ _ _ E). by rewrite Hf. }
    rewrite Ec.
    assert (ino T2 = ino T ++ [v]) as Hi.
    { destruct (decide (T = Nil)) as [->|HT]; [by subst T2|].
      assert (T2 = zinsert CBST v new (Pay v 0 (Fin 0) Red) T) as -> by (by destruct T).
      rewrite zinsert_ino; try done. rewrite <- (app_nil_r (ino T)) at 1. by apply set_add_new. }
    assert (bsize T2 = S (bsize T) /\ right_branch T2 = S (right_branch T)) as [Hs Hr].
    { destruct (decide (T = Nil)) as [->|HT]; [by subst T2|].
      assert (T2 = zinsert CBST v new (Pay v 0 (Fin 0) Red) T) as -> by (by destruct T).
      split; [by apply bsize_above|by apply zinsert_above]. }
    destruct (IH s1 T2 HR2) as (s' & T' & E1 & HR' & HN); [|lia|lia|].
    { rewrite Hi, <- app_assoc. apply inc_app. by split_and!. }
    rewrite E1, Hs. exists s', T'. rewrite Hs, Hi, <- app_assoc in HN.
    replace (S L - bsize T) with (S (L - bsize T)) by lia. replace (S L - S (bsize T)) with (L - bsize T) in * by lia. by split_and!.
  - destruct (IH s T HR) as (s' & T' & E1 & HR' & HN); [|done|done|].
    { apply inc_app. apply inc_cons in H2 as [H2 _]. split_and!; try done. intros x y Hx Hy. apply H3; [done|]. by apply elem_of_list_further. }
    rewrite E1. exists s', T'. replace (S L - bsize T) with 0 in * by lia. rewrite Nat.min_0_r in *. rewrite Nat.sub_0_r in *.
    rewrite take_0 in *. by split_and!.
Qed.
Lemma calls_l_app c a : forall b s, calls_l c (a ++ b) s = match calls_l c a s with
  | Some (o1, q1) => match calls_l c b q1 with Some (o2, q2) => Some (o1 ++ o2, q2) | None => None end
  | None => None
  end.
Proof.
  induction a as [|t a IH]; intros b q; cbn [app calls_l]; [by destruct (calls_l c b q) as [[o q2]|]|].
  destruct (call_l c t q) as [[o q1]|]; [|done]. rewrite IH. destruct (calls_l c a q1) as [[o1 q2]|]; [|done]. by destruct (calls_l c b q2) as [[o2 q3]|].
Qed.
