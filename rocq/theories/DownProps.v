(** * The nodes on one branch of a search tree: C83 *)
From iris.proofmode Require Import proofmode.
From Verif Require Import Base TreeModel TreeSpec BstModel BalModel BstSpec BstSep BstRules BstZip BstDel BstPure BstThm SplayThm AvlThm WalkModel WalkSpec WalkThm2.
From Verif Require Import TreeIterThm TreeIterThm3 TreeIterThm4 DepthSpec DepthThm DepthThm2 DepthThm3 DepthThm4 DepthThm6 DownModel DownSpec DownThm DownThm2 DownThm3 AvlProps.
Local Open Scope py_scope.

(** The programs that count do what the programs of BstModel.v and BalModel.v do. *)
Theorem C83_same v :
  counts (bst_contains_c v) (bst_contains v) /\ counts bst_get_min_c bst_get_min /\ counts bst_get_max_c bst_get_max
  /\ counts (bst_insert_c v) (bst_insert v) /\ counts (bst_remove_c v) (bst_remove v)
  /\ counts (avl_insert_c v) (avl_insert v) /\ counts (avl_remove_c v) (avl_remove v).
Proof. split_and!; [apply co_contains|apply co_get_min|apply co_get_max|apply co_bst_insert|apply co_bst_remove|apply co_avl_insert|apply co_avl_remove]. Qed.
Print Assumptions C83_same.

(** A tree that holds [t], of any shape.  Looking for [x] visits the nodes from the root to
    [x] or to where [x] would be, and so does inserting [x] into a BST; the smallest and the
    largest element are found along one branch; removing from a BST takes [removal_steps]. *)
Theorem C83_exact s t x : shape s = Some t ->
  takes s (bst_contains_c (PNum x)) (path x (values t)) /\ takes s bst_get_min_c (left_branch t) /\ takes s bst_get_max_c (right_branch t)
  /\ takes s (bst_insert_c (PNum x)) (path x (values t))
  /\ takes s (bst_remove_c (PNum x)) (if only_value x (values t) then 0 else removal_steps x (values t)).
Proof.
  intros H. destruct (shape_held s t H) as (T & HT & <-). change (values (bin_map snd T)) with (vmap T).
  split_and!; [apply (tk_contains (PNum x)), HT|rewrite left_map; by apply tk_get_min|rewrite right_map; by apply tk_get_max
    |apply (tk_bst_insert (PNum x)), HT|apply (tk_bst_remove (PNum x)), HT].
Qed.
Print Assumptions C83_exact.
(** Documented as O(h): no call goes beyond the number of levels by more than 2. *)
Theorem C83_levels s t x : shape s = Some t ->
  at_most s (bst_contains_c (PNum x)) (nlevels t) /\ at_most s bst_get_min_c (nlevels t) /\ at_most s bst_get_max_c (nlevels t)
  /\ at_most s (bst_insert_c (PNum x)) (nlevels t) /\ at_most s (bst_remove_c (PNum x)) (nlevels t + 2).
Proof.
  intros H. destruct (C83_exact s t x H) as ([H1 _] & [H2 _] & [H3 _] & [H4 _] & [H5 _]).
  pose proof (path_levels x (values t)) as HP. pose proof (removal_levels x (values t)) as HR. unfold values in HP, HR. rewrite nlevels_map in HP, HR.
  split_and!; [by eapply am_le|eapply am_le; [exact H2|apply left_levels]|eapply am_le; [exact H3|apply right_levels]|by eapply am_le|].
  eapply am_le; [exact H5|]. destruct (only_value _ _); [lia|done].
Qed.
Print Assumptions C83_levels.

(** An AVL tree walks back to the root after an insertion, and after a removal from the place
    of the replacement. *)
Theorem C83_avl os rs s t x : balanced_throughout CAVL os -> history CAVL os = Some (rs, s) -> shape s = Some t -> height_balanced t ->
  takes s (avl_insert_c (PNum x)) (path x (values t) + nodes_above x (values t))
  /\ takes s (avl_remove_c (PNum x)) (if only_value x (values t) then 0 else removal_steps x (values t) + way_back x (values t)).
Proof.
  intros H Hh Ht Hb. destruct (avl_balanced_run os tst0 Nil rep0) as (rs' & s' & T & E & HR & HE & HA & HN); [done|constructor|exact H|].
  unfold history in Hh. rewrite E in Hh. injection Hh as <- <-. rewrite (rep_shape _ _ HR) in Ht. injection Ht as <-.
  assert (increasing (ino T)) as Hi. { rewrite HN. apply set_after_inc. constructor. }
  assert (avl_ok T) as Hok. { split; [done|]. by apply avlb_balanced. }
  change (values (bin_map snd T)) with (vals T). split; [by apply tk_avl_insert|by apply tk_avl_remove].
Qed.
Print Assumptions C83_avl.
(** Hence all calls on a balanced AVL tree of [n] elements are O(log n). *)
Theorem C83_avl_log os rs s t x : balanced_throughout CAVL os -> history CAVL os = Some (rs, s) -> shape s = Some t -> height_balanced t ->
  let n := Nat.log2 (length (inorder t) + 1) in
  at_most s (bst_contains_c (PNum x)) (2 * n + 1) /\ at_most s bst_get_min_c (2 * n + 1) /\ at_most s bst_get_max_c (2 * n + 1)
  /\ at_most s (avl_insert_c (PNum x)) (4 * n + 2) /\ at_most s (avl_remove_c (PNum x)) (4 * n + 4).
Proof.
  intros H Hh Ht Hb n. destruct (C83_avl os rs s t x H Hh Ht Hb) as [[H1 _] [H2 _]].
  pose proof (nodes_above_levels x (values t)) as HN. pose proof (way_back_levels x (values t)) as HW. destruct (C83_levels s t x Ht) as (H3 & H4 & H5 & _).
  pose proof (balanced_levels t Hb) as HL. fold n in HL.
  pose proof (path_levels x (values t)) as HP. pose proof (removal_levels x (values t)) as HR. unfold values in HP, HR, HN, HW. rewrite nlevels_map in HP HR HN HW.
  split_and!; try (by eapply am_le); [eapply am_le; [exact H1|unfold values; lia]|eapply am_le; [exact H2|]].
  unfold values. destruct (only_value _ _); lia.
Qed.
Print Assumptions C83_avl_log.

(** 50, 20, 60, 10, 30, 70, 5, 25 inserted into an AVL tree, and into a BST in increasing order:
    nodes visited by contains(25), insert(26), remove(20), and by remove(70) on the BST. *)
Example C83_example : exists rs s t rs' s',
  let os := inserts (map Fin [50; 20; 60; 10; 30; 70; 5; 25]%Z) in
  history CAVL os = Some (rs, s) /\ shape s = Some t /\ height_balanced t /\ balanced_throughout CAVL os /\ nlevels t = 4
  /\ (exists b p, bst_contains_c (PInt 25) (s, 0) = Ok b p /\ p.2 = 4)
  /\ (exists b p, avl_insert_c (PInt 26) (s, 0) = Ok b p /\ p.2 = 8)
  /\ (exists b p, avl_remove_c (PInt 20) (s, 0) = Ok b p /\ p.2 = 9)
  /\ history CBST (inserts (map Fin [5; 10; 20; 25; 30; 50; 60; 70]%Z)) = Some (rs', s')
  /\ (exists b p, bst_remove_c (PInt 70) (s', 0) = Ok b p /\ p.2 = 9).
Proof.
  assert (forall os, no_removals os -> balanced_throughout CAVL os) as HB.
  { intros os H pre post rs s t E Hp Hh Ht. apply (C26_balanced_after_insertions pre rs s t); [|done|done]. unfold no_removals in *. rewrite E in H. by apply Forall_app in H as [H _]. }
  eexists _, _, _, _, _. cbn zeta. split; [by vm_compute|]. split; [by vm_compute|]. split; [cbn; lia|]. split; [apply HB; repeat constructor|].
  split; [by vm_compute|]. split; [eexists _, _; split; by vm_compute|]. split; [eexists _, _; split; by vm_compute|]. split; [eexists _, _; split; by vm_compute|].
  split; [by vm_compute|]. eexists _, _; split; by vm_compute.
Qed.
