(** * Removal from a RedBlackTree: exactly when it keeps the tree valid (C34, continued)

    Specification: BstSpec.v, RbSpec.v.  Model: BstModel.v, BalModel.v.  Proofs: RbThm.v,
    RbDel.v - RbDel5.v. *)
From Coq Require Import Sorted.
From iris.proofmode Require Import proofmode.
From Verif Require Import Base NumOrd TreeModel TreeSpec BstModel BalModel BstSpec RbSpec BstRules BstZip BstPure BstThm AvlThm RbThm RbDel3 RbDel5.

Lemma red_spare_dec t : red_spare t \/ ~ red_spare t.
Proof.
  assert (forall o : option pay, option_map p_color o = Some Red \/ option_map p_color o <> Some Red) as Hd.
  { intros [x|]; cbn; [destruct (p_color x); [by right|by left]|by right]. }
  assert (forall a b : option pay, (option_map p_color a = Some Red \/ option_map p_color b = Some Red) \/ ~ (option_map p_color a = Some Red \/ option_map p_color b = Some Red)) as H2.
  { intros a b. destruct (Hd a), (Hd b); tauto. }
  destruct t as [|[|l1 y l2] x [|r1 z r2]]; [by left|cbn; destruct (p_color x); [by right|by left]|apply H2..].
Qed.
Lemma leaf_tree_dec (t : bin pay) : is_leaf_tree t \/ ~ is_leaf_tree t.
Proof. destruct t as [|[] x []]; cbn; tauto. Qed.
Lemma rb_remove_exact s T x : rep s T -> increasing (ino T) -> rbok T ->
  (exists s' T', tree_remove CRB (PNum x) s = Ok (bool_decide (x ∉ ino T)) s' /\ rep s' T' /\ colr T' = Black /\ ino T' = set_del x (ino T) /\ (rbok T' <-> removable x (bin_map snd T))) \/
  (~ removable x (bin_map snd T) /\ x ∈ ino T /\ ((root_color (node_at x (bin_map snd T)) = Black /\ exists s', tree_remove CRB (PNum x) s = Exc AttributeError s') \/
     (root_color (node_at x (bin_map snd T)) = Red /\ exists s', tree_remove CRB (PNum x) s = Exc ValueError s' /\ rep s' T))).
Proof.
  intros H Hi Hk. destruct (red_spare_dec (node_at x (bin_map snd T))) as [Hs|Hs]; [|destruct (leaf_tree_dec (bin_map snd T)) as [Hl|Hl]].
  - left. destruct (rb_remove_run s T x H Hi Hk (or_introl Hs)) as (s' & T' & E & HR & HI & Hk'). exists s', T'. split_and!; try done; [by destruct Hk'|].
    split; [|done]. intros _. right. by left.
  - left. destruct (rb_remove_run s T x H Hi Hk (or_intror Hl)) as (s' & T' & E & HR & HI & Hk'). exists s', T'. split_and!; try done; [by destruct Hk'|].
    split; [|done]. intros _. by left.
  - assert (x ∈ ino T) as Hx.
    { destruct (decide (x ∈ ino T)) as [|Hx]; [done|]. exfalso. apply Hs. rewrite node_at_zfind.
      assert (found x T = false) as Ef by (rewrite (found_in _ _ Hi); by apply bool_decide_eq_false_2). unfold found in Ef. by destruct (zfind x T).2. }
    destruct (rb_remove_outcome s T x H Hi Hk Hx Hs Hl) as [(s' & T' & E & HR & HC & HI & Hb)|[Hno Hc]]; [left|by right].
    exists s', T'. rewrite bool_decide_eq_false_2; [by split_and!|by intros Hn].
Qed.
Lemma fit_step s T o : rep s T -> increasing (ino T) -> colr T = Black -> removals_fit o (bin_map snd T) ->
  exists r s' T', call CRB o s = Some (r, s') /\ rep s' T' /\ colr T' = Black /\ answer CRB o (ino T) r /\ ino T' = next CRB o (ino T).
Proof.
  intros H Hinc Hc Hf. destruct (is_removal o) eqn:Er.
  - destruct o as [|v| | | | | | | | | | | | |]; try done. apply remove_step; [done| |done].
    intros x ->. destruct Hf as [Hk Hf]. apply rbok_spec in Hk. destruct (rb_remove_exact s T x H Hinc Hk) as [(s' & T' & E & HR & HC & HI & _)|[Hno _]]; [|done]. by exists s', T'.
  - destruct (rb_ins_step s T o H Hinc Hc Er) as (r & s' & T' & E & HR & [HB _] & HA & HN). by exists r, s', T'.
Qed.
Lemma fit_run os : forall s T, rep s T -> increasing (ino T) -> colr T = Black ->
  (forall pre o post rs s' t, os = pre ++ o :: post -> calls CRB pre s = Some (rs, s') -> shape s' = Some t -> removals_fit o t) ->
  exists rs s' T', calls CRB os s = Some (rs, s') /\ rep s' T' /\ colr T' = Black /\ answers CRB os (ino T) rs /\ ino T' = set_after CRB os (ino T).
Proof.
  induction os as [|o os IH]; intros s T H Hinc Hk HB; [by exists [], s, T|].
  destruct (fit_step s T o H Hinc Hk) as (r & s1 & T1 & E & HR & Hk1 & HA1 & HN).
  { eapply (HB [] o os); try done. by apply rep_shape. }
  destruct (IH s1 T1 HR) as (rs & s2 & T2 & E2 & HR2 & Hk2 & HA2 & HN2); [|done| |].
  - rewrite HN. by apply next_inc.
  - intros pre o' post rs s' t -> Ec Ht. eapply (HB (o :: pre) o' post); try done. cbn [calls]. by rewrite E Ec.
  - rewrite HN in HA2, HN2. exists (r :: rs), s2, T2. cbn [calls]. rewrite E E2. by split_and!.
Qed.
Lemma fit_history os : removals_fit_throughout os ->
  behaves_as_set CRB os /\
  (forall rs s t, history CRB os = Some (rs, s) -> shape s = Some t ->
     exists T, rep s T /\ colr T = Black /\ t = bin_map snd T /\ ino T = set_after CRB os [] /\ increasing (ino T)).
Proof.
  intros H. destruct (fit_run os tst0 Nil rep0) as (rs & s & T & E & HR & Hk & HA & HN); [constructor|done|done|]. split.
  - exists rs, s, (bin_map snd T). split_and!; try done; [by apply rep_shape|]. by rewrite inorder_pays.
  - intros rs' s' t Hh Ht. unfold history in Hh. rewrite E in Hh. injection Hh as <- <-. rewrite (rep_shape _ _ HR) in Ht. injection Ht as <-.
    exists T. split; [done|]. split; [done|]. split_and!; try done. rewrite HN. apply set_after_inc. constructor.
Qed.
Lemma allowed_step s T o : rep s T -> increasing (ino T) -> rbok T -> removals_allowed o (bin_map snd T) ->
  exists r s' T', call CRB o s = Some (r, s') /\ rep s' T' /\ rbok T' /\ answer CRB o (ino T) r /\ ino T' = next CRB o (ino T).
Proof.
  intros H Hinc Hk Hf. destruct (is_removal o) eqn:Er.
  - destruct o as [|v| | | | | | | | | | | | |]; try done. apply remove_step; [done| |done].
    intros x ->. cbn in Hf. destruct (rb_remove_exact s T x H Hinc Hk) as [(s' & T' & E & HR & HC & HI & Hb)|[Hno _]]; [|done]. exists s', T'. split_and!; try done. by apply Hb.
  - apply rb_step; try done. by destruct o as [[]|[]| | | | | | | | | | | | |].
Qed.
Lemma allowed_run os : forall s T, rep s T -> increasing (ino T) -> rbok T ->
  (forall pre o post rs s' t, os = pre ++ o :: post -> calls CRB pre s = Some (rs, s') -> shape s' = Some t -> removals_allowed o t) ->
  exists rs s' T', calls CRB os s = Some (rs, s') /\ rep s' T' /\ rbok T' /\ answers CRB os (ino T) rs /\ ino T' = set_after CRB os (ino T).
Proof.
  induction os as [|o os IH]; intros s T H Hinc Hk HB; [by exists [], s, T|].
  destruct (allowed_step s T o H Hinc Hk) as (r & s1 & T1 & E & HR & Hk1 & HA1 & HN).
  { eapply (HB [] o os); try done. by apply rep_shape. }
  destruct (IH s1 T1 HR) as (rs & s2 & T2 & E2 & HR2 & Hk2 & HA2 & HN2); [|done| |].
  - rewrite HN. by apply next_inc.
  - intros pre o' post rs s' t -> Ec Ht. eapply (HB (o :: pre) o' post); try done. cbn [calls]. by rewrite E Ec.
  - rewrite HN in HA2, HN2. exists (r :: rs), s2, T2. cbn [calls]. rewrite E E2. by split_and!.
Qed.

(** Insertions and removals are right, and keep the red-black invariants, as long as the
    values are inserted and removed where the code can handle it. *)
Theorem C34_allowed_removals_partial os : removals_allowed_throughout os ->
  behaves_as_set CRB os /\
  forall rs s t, history CRB os = Some (rs, s) -> shape s = Some t -> red_black t /\ nlevels t <= 2 * Nat.log2 (length (inorder t) + 1).
Proof.
  intros H. destruct (allowed_run os tst0 Nil rep0) as (rs & s & T & E & HR & Hk & HA & HN); [constructor|by split; [|exists 0]|done|]. split.
  - exists rs, s, (bin_map snd T). split_and!; try done; [by apply rep_shape|]. by rewrite inorder_pays.
  - intros rs' s' t Hh Ht. unfold history in Hh. rewrite E in Hh. injection Hh as <- <-. rewrite (rep_shape _ _ HR) in Ht. injection Ht as <-.
    apply rbok_spec in Hk. split; [done|by apply rb_height].
Qed.
Print Assumptions C34_allowed_removals_partial.
(** The tree implements a set under any insertions, if the removals are made on valid trees
    and where the code can handle it. *)
Theorem C34_set_partial os : removals_fit_throughout os -> behaves_as_set CRB os.
Proof. intros H. by apply fit_history. Qed.
Print Assumptions C34_set_partial.
(** That condition is exact: from a valid tree, removing a value succeeds and leaves a valid
    tree if and only if [removable] says so. *)
Theorem C34_removal_keeps_valid_iff os rs s t x : removals_fit_throughout os ->
  history CRB os = Some (rs, s) -> shape s = Some t -> red_black t ->
  (exists w s' t', call CRB (TRemove (PNum x)) s = Some (OUnit w, s') /\ shape s' = Some t' /\ red_black t') <-> removable x t.
Proof.
  intros H Hh Ht Hk. destruct (fit_history os H) as [_ HH]. destruct (HH rs s t Hh Ht) as (T & HR & HB & -> & _ & Hi).
  apply rbok_spec in Hk. destruct (rb_remove_exact s T x HR Hi Hk) as [(s' & T' & E & HR' & HC & HI & Hb)|(Hno & _ & Hc)].
  - assert (call CRB (TRemove (PNum x)) s = Some (OUnit (bool_decide (x ∉ ino T)), s')) as Ec.
    { apply call_ok. cbn [exec]. by rewrite (bind_ok _ _ _ _ _ E). }
    rewrite -Hb. split.
    + intros (w & s2 & t' & Ec' & Ht' & Hk'). rewrite Ec in Ec'. injection Ec' as <- <-. rewrite (rep_shape _ _ HR') in Ht'. injection Ht' as <-. by apply rbok_spec.
    + intros Hk'. exists (bool_decide (x ∉ ino T)), s', (bin_map snd T'). split_and!; [done|by apply rep_shape|by apply rbok_spec].
  - split; [|done]. intros (w & s2 & t' & Ec & _). exfalso. unfold call in Ec. cbn [exec] in Ec. unfold bind in Ec.
    destruct Hc as [[_ (s' & E)]|[_ (s' & E & _)]]; by rewrite E in Ec.
Qed.
Print Assumptions C34_removal_keeps_valid_iff.
(** What can happen when a value is removed from a valid tree: it is gone and the others are
    still there; or, if it is in a red node, ValueError is raised and nothing has changed; or,
    if it is in a black node, AttributeError is raised. *)
Theorem C34_removal_outcomes os rs s t x : removals_fit_throughout os ->
  history CRB os = Some (rs, s) -> shape s = Some t -> red_black t ->
  (exists s' t', call CRB (TRemove (PNum x)) s = Some (OUnit (bool_decide (x ∉ map p_val (inorder t))), s') /\ shape s' = Some t' /\
     map p_val (inorder t') = set_del x (map p_val (inorder t)) /\ root_color t' = Black) \/
  (root_color (node_at x t) = Red /\ ~ removable x t /\ exists s', call CRB (TRemove (PNum x)) s = Some (ORaise ValueError, s') /\ shape s' = Some t) \/
  (root_color (node_at x t) = Black /\ ~ removable x t /\ exists s', call CRB (TRemove (PNum x)) s = Some (ORaise AttributeError, s')).
Proof.
  intros H Hh Ht Hk. destruct (fit_history os H) as [_ HH]. destruct (HH rs s t Hh Ht) as (T & HR & HB & -> & _ & Hi).
  apply rbok_spec in Hk. destruct (rb_remove_exact s T x HR Hi Hk) as [(s' & T' & E & HR' & HC & HI & Hb)|(Hno & _ & [[Hc (s' & E)]|[Hc (s' & E & HR')]])].
  - left. exists s', (bin_map snd T'). rewrite !inorder_pays. split; [apply call_ok; cbn [exec]; by rewrite (bind_ok _ _ _ _ _ E)|]. split_and!; [by apply rep_shape|done|by rewrite -colr_root].
  - right. right. split_and!; [done..|]. exists s'. unfold call. cbn [exec]. unfold bind. by rewrite E.
  - right. left. split_and!; [done..|]. exists s'. unfold call. cbn [exec]. unfold bind. rewrite E. split; [done|by apply rep_shape].
Qed.
Print Assumptions C34_removal_outcomes.
(** The tree of 1, ..., 8: the root 4 is black and its successor, 5, is a black leaf whose
    sibling 7 has the red child 8; 5 itself can be removed, but not 3, 1 (no red node to
    lend), or 2 (red, with black children). *)
Example C34_exact_example : exists rs s t,
  removals_fit_throughout (inserts (map Fin [1; 2; 3; 4; 5; 6; 7; 8]%Z)) /\
  history CRB (inserts (map Fin [1; 2; 3; 4; 5; 6; 7; 8]%Z)) = Some (rs, s) /\ shape s = Some t /\ red_black t /\
  removable (Fin 4) t /\ removable (Fin 5) t /\ removable (Fin 7) t /\ removable (Fin 8) t /\ removable (Fin 9) t /\
  ~ removable (Fin 1) t /\ ~ removable (Fin 2) t /\ ~ removable (Fin 3) t /\ ~ removable (Fin 6) t /\
  ~ red_spare (node_at (Fin 4) t) /\ ~ red_spare (node_at (Fin 5) t) /\
  root_color (node_at (Fin 2) t) = Red /\ root_color (node_at (Fin 3) t) = Black.
Proof.
  eexists _, _, _. split.
  { intros pre o post rs s t E _ _. assert (o ∈ inserts (map Fin [1; 2; 3; 4; 5; 6; 7; 8]%Z)) as Ho by (rewrite E; set_solver).
    unfold inserts in Ho. apply elem_of_list_fmap in Ho as (v & -> & _). done. }
  split; [by vm_compute|]. split; [by vm_compute|]. split.
  { split_and!; [done|vm_compute; naive_solver|]. exists 2. vm_compute. naive_solver eauto. }
  split_and!; vm_compute; naive_solver.
Qed.
(** A history with removals of black nodes. *)
Example C34_allowed_example : removals_allowed_throughout (inserts (map Fin [2; 1; 3; 4]%Z) ++ [TRemove (PNum (Fin 1)); TRemove (PNum (Fin 2))]).
Proof.
  intros pre o post rs s t E Hh Ht.
  do 6 (destruct pre as [|? pre]; [cbn in E; injection E as <- _; vm_compute in Hh; injection Hh as <- <-; vm_compute in Ht; injection Ht as <-; vm_compute; naive_solver|]; cbn in E; injection E as <- E).
  clear Hh. by destruct pre.
Qed.
