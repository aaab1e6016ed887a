(** * The nodes visited by RedBlackTree.remove: C85 *)
From iris.proofmode Require Import proofmode.
From Verif Require Import Base TreeModel TreeSpec BstModel BalModel BstSpec BstSep BstRules BstZip BstDel BstPure BstThm SplayThm AvlThm WalkModel WalkSpec WalkThm2.
From Verif Require Import TreeIterThm TreeIterThm3 TreeIterThm4 DepthSpec DepthThm DepthThm2 DepthThm3 DepthThm6 DownModel DownSpec DownThm DownThm2 DownThm3.
From Verif Require Import RbSpec RbThm RbProps RbProps2 DownModel2 DownSpec2 DownThm5 DownModel3 DownThm6 DownThm7.
Local Open Scope py_scope.

(** The program that counts does what the program of BalModel.v does. *)
Theorem C85_rb_remove_same v : counts (rb_remove_c v) (rb_remove v).
Proof. apply co_rb_remove. Qed.
Print Assumptions C85_rb_remove_same.

(** Removing from a valid red-black tree, whether it succeeds or raises an exception, walks to
    the value and, if it is there, down the two branches that end at the values next to it;
    then there are at most five more rounds: two exchanges, one to cut the node off and two
    to mend the colors. *)
Theorem C85_rb_remove os rs s t x : removals_fit_throughout os -> history CRB os = Some (rs, s) -> shape s = Some t -> red_black t ->
  at_most s (rb_remove_c (PNum x)) (path x (values t) + if bool_decide (x ∈ map p_val (inorder t)) then sinking x (values t) + 5 else 0).
Proof.
  intros H Hh Ht Hk. destruct (fit_history os H) as [_ HH]. destruct (HH rs s t Hh Ht) as (T & HR & _ & -> & _ & Hi).
  apply rbok_spec in Hk. pose proof (am_rb_remove s T x HR Hi Hk) as Ha. unfold values. rewrite inorder_pays.
  pose proof (subtree_at_zfind x T) as HS. unfold vals in Ha.
  eapply am_le; [exact Ha|]. apply Nat.add_le_mono_l. rewrite HS. case_bool_decide as Hin; [set (k := sinking _ _); clearbody k; destruct (zfind x T).2; cbn [bin_map]; [apply Nat.le_0_l|done]|].
  destruct ((zfind x T).2) as [|a b c] eqn:E; [done|]. exfalso. apply Hin, (zfind_in x T Hi). by rewrite E.
Qed.
Print Assumptions C85_rb_remove.
(** Documented as O(h); hence O(log n) for [n] elements. *)
Theorem C85_rb_remove_levels os rs s t x : removals_fit_throughout os -> history CRB os = Some (rs, s) -> shape s = Some t -> red_black t ->
  at_most s (rb_remove_c (PNum x)) (2 * nlevels t + 5).
Proof.
  intros H Hh Ht Hk. pose proof (sinking_levels x (values t)) as HS. unfold values in HS. rewrite nlevels_map in HS.
  eapply am_le; [by eapply (C85_rb_remove os)|]. unfold values. case_bool_decide; lia.
Qed.
Print Assumptions C85_rb_remove_levels.
Theorem C85_rb_remove_log os rs s t x : removals_fit_throughout os -> history CRB os = Some (rs, s) -> shape s = Some t -> red_black t ->
  at_most s (rb_remove_c (PNum x)) (4 * Nat.log2 (length (inorder t) + 1) + 5).
Proof.
  intros H Hh Ht Hk. pose proof (rb_height t Hk). eapply am_le; [by eapply (C85_rb_remove_levels os)|lia].
Qed.
Print Assumptions C85_rb_remove_log.

(** Seven elements on four levels: removing the root; a red node that the code cannot remove;
    a value that is not there. *)
Example C85_rb_remove_example : exists rs s t,
  removals_fit_throughout (inserts (map Fin [50; 20; 80; 10; 30; 5; 35]%Z))
  /\ history CRB (inserts (map Fin [50; 20; 80; 10; 30; 5; 35]%Z)) = Some (rs, s) /\ shape s = Some t /\ red_black t /\ nlevels t = 4
  /\ path (Fin 50) (values t) = 1 /\ sinking (Fin 50) (values t) = 4
  /\ (exists b p, rb_remove_c (PInt 50) (s, 0) = Ok b p /\ p.2 = 7) /\ (exists p, rb_remove_c (PInt 20) (s, 0) = Exc ValueError p /\ p.2 = 4)
  /\ (exists b p, rb_remove_c (PInt 40) (s, 0) = Ok b p /\ p.2 = 4).
Proof.
  eexists _, _, _. split.
  { intros pre o post rs s t E _ _. destruct o as [|v| | | | | | | | | | | | |]; try done. exfalso.
    assert (TRemove v ∈ inserts (map Fin [50; 20; 80; 10; 30; 5; 35]%Z)) as Hin by (rewrite E; set_solver).
    unfold inserts in Hin. apply elem_of_list_fmap in Hin as (? & ? & _). done. }
  do 2 (split; [by vm_compute|]). split.
  { split_and!; [done|vm_compute; naive_solver|]. exists 2. vm_compute. naive_solver eauto. }
  do 3 (split; [by vm_compute|]).
  split; [eexists _, _; split; by vm_compute|]. split; [eexists _; split; by vm_compute|]. eexists _, _; split; by vm_compute.
Qed.
