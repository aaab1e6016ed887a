(** * The nodes on one branch of a Treap and of a RedBlackTree: C85 *)
From iris.proofmode Require Import proofmode.
From Verif Require Import Base TreeModel TreeSpec BstModel BalModel BstSpec BstSep BstRules BstZip BstDel BstPure BstThm SplayThm AvlThm WalkModel WalkSpec WalkThm2.
From Verif Require Import TreeIterThm TreeIterThm3 TreeIterThm4 DepthSpec DepthThm DepthThm2 DepthThm3 DepthThm6 DownModel DownSpec DownThm DownThm2 DownThm3.
From Verif Require Import TreapSpec TreapThm RbSpec RbThm RbProps RbProps2 DownModel2 DownSpec2 DownThm4 DownThm5.
Local Open Scope py_scope.

(** The programs that count do what the programs of BalModel.v do. *)
Theorem C85_same v p :
  counts (treap_insert_c v p) (treap_insert v p) /\ counts (treap_remove_c v) (treap_remove v) /\ counts (rb_insert_c v) (rb_insert v).
Proof. split_and!; [apply co_treap_insert|apply co_treap_remove|apply co_rb_insert]. Qed.
Print Assumptions C85_same.

Lemma treap_held b os rs s t : Forall (treap_pre b) os -> history CTreap os = Some (rs, s) -> shape s = Some t ->
  exists T, rep s T /\ t = bin_map snd T /\ treap_ok b T /\ increasing (ino T).
Proof.
  intros H Hh Ht. destruct (treap_run b os tst0 Nil rep0) as (rs' & s' & T & E & HR & HH & HA & HN & HP); [|constructor|done|].
  { split; [done|]. intros _. constructor. }
  unfold history in Hh. rewrite E in Hh. injection Hh as <- <-. rewrite (rep_shape _ _ HR) in Ht. injection Ht as <-.
  exists T. split_and!; try done. rewrite HN. apply set_after_inc. constructor.
Qed.
(** A treap walks down to the place of [x], and then up while [x] rises: past the nodes above
    whose priority is not greater, and to the one that stops it.  (A value that is there keeps
    its priority.) *)
Theorem C85_treap_insert os rs s t x p q : no_removals os \/ Forall prio_above os -> history CTreap os = Some (rs, s) -> shape s = Some t ->
  prio_val p = Some q ->
  takes s (treap_insert_c (PNum x) p) (path x (values t) + rising (default q (priority_of x t)) (above x t)).
Proof.
  intros H Hh Ht Hq. assert (exists T, rep s T /\ t = bin_map snd T /\ increasing (ino T)) as (T & HR & -> & Hi).
  { destruct H as [H|H]; [destruct (treap_held false os rs s t H Hh Ht) as (T & ? & ? & _ & ?)|destruct (treap_held true os rs s t H Hh Ht) as (T & ? & ? & _ & ?)]; by exists T. }
  by apply tk_treap_insert.
Qed.
Print Assumptions C85_treap_insert.
(** Removing walks to the value and then sinks it, past the right branch of what is on its
    left and the left branch of what is on its right. *)
Theorem C85_treap_remove os rs s t x : Forall prio_above os -> history CTreap os = Some (rs, s) -> shape s = Some t ->
  takes s (treap_remove_c (PNum x)) (if only_value x (values t) then 0 else path x (values t) + sinking x (values t)).
Proof.
  intros H Hh Ht. destruct (treap_held true os rs s t H Hh Ht) as (T & HR & -> & [HH Hok] & Hi).
  apply tk_treap_remove; [done|done|done|]. apply okp_sks. by apply Hok.
Qed.
Print Assumptions C85_treap_remove.
(** A red-black tree walks down and, mending colors, back up: one round for every node on the
    way and one at the top.  The histories are those of C34_set_partial (RbProps2.v): any
    insertions, and removals from a valid tree at a place that allows them. *)
Theorem C85_rb_insert os rs s t x : removals_fit_throughout os -> history CRB os = Some (rs, s) -> shape s = Some t ->
  at_most s (rb_insert_c (PNum x)) (path x (values t) + nlevels t + 1).
Proof.
  intros H Hh Ht. destruct (fit_history os H) as [_ HH]. destruct (HH rs s t Hh Ht) as (T & HR & _ & -> & _ & Hi).
  rewrite nlevels_map. by apply am_rb_insert.
Qed.
Print Assumptions C85_rb_insert.
(** Documented as O(h). *)
Theorem C85_treap_levels os rs s t x p q : Forall prio_above os -> history CTreap os = Some (rs, s) -> shape s = Some t -> prio_val p = Some q ->
  at_most s (treap_insert_c (PNum x) p) (2 * nlevels t) /\ at_most s (treap_remove_c (PNum x)) (2 * nlevels t).
Proof.
  intros H Hh Ht Hq. pose proof (path_levels x (values t)) as HP. pose proof (sinking_levels x (values t)) as HS. unfold values in HP, HS. rewrite nlevels_map in HP HS.
  destruct (C85_treap_insert os rs s t x p q (or_intror H) Hh Ht Hq) as [H1 _]. destruct (C85_treap_remove os rs s t x H Hh Ht) as [H2 _].
  split; [eapply am_le; [exact H1|]|eapply am_le; [exact H2|]]; unfold values.
  - pose proof (rising_length (default q (priority_of x t)) (above x t)). pose proof (above_levels x t). lia.
  - destruct (only_value _ _); lia.
Qed.
Print Assumptions C85_treap_levels.
Theorem C85_rb_levels os rs s t x : removals_fit_throughout os -> history CRB os = Some (rs, s) -> shape s = Some t ->
  at_most s (rb_insert_c (PNum x)) (2 * nlevels t + 1).
Proof.
  intros H Hh Ht. pose proof (path_levels x (values t)) as HP. unfold values in HP. rewrite nlevels_map in HP.
  eapply am_le; [by eapply (C85_rb_insert os)|unfold values; lia].
Qed.
Print Assumptions C85_rb_levels.
(** Hence O(log n) on a valid red-black tree of [n] elements. *)
Theorem C85_rb_log os rs s t x : removals_fit_throughout os -> history CRB os = Some (rs, s) -> shape s = Some t -> red_black t ->
  at_most s (rb_insert_c (PNum x)) (4 * Nat.log2 (length (inorder t) + 1) + 1).
Proof.
  intros H Hh Ht Hk. pose proof (rb_height t Hk). eapply am_le; [by eapply (C85_rb_levels os)|lia].
Qed.
Print Assumptions C85_rb_log.

(** A treap of 7 elements on 4 levels: inserting 27 with a high priority takes it from the
    bottom to the root, and removing the root sinks it past four nodes.  A red-black tree of
    7 elements on 4 levels: 4 nodes down and 3 rounds of recoloring. *)
Example C85_example : exists rs s t rs' s' t',
  let os := map (fun vp => TInsert (PInt vp.1) (Given (PInt vp.2))) [(50, 9); (20, 8); (80, 7); (10, 5); (30, 6); (25, 2); (70, 3)]%Z in
  Forall prio_above os /\ history CTreap os = Some (rs, s) /\ shape s = Some t /\ nlevels t = 4
  /\ path (Fin 27) (values t) = 4 /\ above (Fin 27) t = [Fin 2; Fin 6; Fin 8; Fin 9] /\ path (Fin 50) (values t) = 1 /\ sinking (Fin 50) (values t) = 4
  /\ (exists b p, treap_insert_c (PInt 27) (Given (PInt 10)) (s, 0) = Ok b p /\ p.2 = 8)
  /\ (exists b p, treap_remove_c (PInt 50) (s, 0) = Ok b p /\ p.2 = 5)
  /\ removals_fit_throughout (inserts (map Fin [50; 20; 80; 10; 30; 5; 35]%Z))
  /\ history CRB (inserts (map Fin [50; 20; 80; 10; 30; 5; 35]%Z)) = Some (rs', s') /\ shape s' = Some t' /\ red_black t' /\ nlevels t' = 4
  /\ path (Fin 1) (values t') = 4
  /\ (exists b p, rb_insert_c (PInt 1) (s', 0) = Ok b p /\ p.2 = 7) /\ (exists b p, rb_insert_c (PInt 40) (s', 0) = Ok b p /\ p.2 = 7).
Proof.
  eexists _, _, _, _, _, _. cbn zeta. split; [repeat constructor|]. do 7 (split; [by vm_compute|]). do 2 (split; [eexists _, _; split; by vm_compute|]).
  split.
  { intros pre o post rs s t E _ _. destruct o as [|v| | | | | | | | | | | | |]; try done. exfalso.
    assert (TRemove v ∈ inserts (map Fin [50; 20; 80; 10; 30; 5; 35]%Z)) as Hin by (rewrite E; set_solver).
    unfold inserts in Hin. apply elem_of_list_fmap in Hin as (? & ? & _). done. }
  do 2 (split; [by vm_compute|]). split.
  { split_and!; [done|vm_compute; naive_solver|]. exists 2. vm_compute. naive_solver eauto. }
  do 2 (split; [by vm_compute|]). split; eexists _, _; split; by vm_compute.
Qed.
