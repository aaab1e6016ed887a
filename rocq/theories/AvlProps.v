(** * Properties of AVL (C26 - C28)

    Specification: BstSpec.v.  Model: BstModel.v, BalModel.v.  Proofs: BstThm.v, AvlThm.v. *)
From Coq Require Import Sorted.
From iris.proofmode Require Import proofmode.
From Verif Require Import Base NumOrd TreeModel TreeSpec BstModel BalModel BstSpec BstRules BstZip BstPure BstThm AvlThm.

Lemma avl_ins_history os : no_removals os ->
  behaves_as_set CAVL os /\
  (forall rs s t, history CAVL os = Some (rs, s) -> shape s = Some t ->
     exists T, rep s T /\ avl_ok T /\ t = bin_map snd T /\ ino T = set_after CAVL os [] /\ increasing (ino T)).
Proof.
  intros H. apply (history_set CAVL avl_ok (fun o _ => is_removal o = false)); [|done|by apply along_all].
  intros s T o ? ? ? Hr ? ?. apply avl_ins_step; try done. by intros v ->.
Qed.

(** ** C26: histories without removals *)
Theorem C26_insertions_implement_a_set os : no_removals os -> behaves_as_set CAVL os.
Proof. intros H. by apply avl_ins_history. Qed.
Print Assumptions C26_insertions_implement_a_set.
Theorem C26_balanced_after_insertions os rs s t : no_removals os ->
  history CAVL os = Some (rs, s) -> shape s = Some t -> height_balanced t /\ heights_exact t.
Proof.
  intros H Hh Ht. destruct (avl_ins_history os H) as [_ HH]. destruct (HH rs s t Hh Ht) as (T & HR & [HE HA] & -> & _).
  split; [by apply avlb_balanced|by apply exact_heights].
Qed.
Print Assumptions C26_balanced_after_insertions.
(** [get_height] is the number of edges on the longest path from the root. *)
Theorem C26_get_height os rs s t : no_removals os ->
  history CAVL os = Some (rs, s) -> shape s = Some t -> t <> Nil ->
  exists s', call CAVL THeight s = Some (OInt (Z.of_nat (nlevels t - 1)), s').
Proof.
  intros H Hh Ht Hn. destruct (avl_ins_history os H) as [_ HH]. destruct (HH rs s t Hh Ht) as (T & HR & [HE HA] & -> & _).
  destruct T as [|l [i x] u]; [done|]. destruct (rep_height s _ i x l u HR eq_refl) as (s' & E & HR').
  exists s'. apply call_ok. cbn [exec get_tree_height]. unfold bind at 1, get_root at 1, bind at 1. rewrite (rep_root _ _ HR). cbn [rp fst].
  rewrite (bind_ok _ _ _ _ _ E). unfold ret. do 3 f_equal. apply exact_heights in HE. cbn -[Nat.max] in HE |- *. destruct HE as (_ & _ & ->). lia.
Qed.
Print Assumptions C26_get_height.
Theorem C26_after_inserting vs : after_inserting CAVL vs.
Proof.
  apply behaves_after_inserting. intros x. apply C26_insertions_implement_a_set. unfold no_removals. rewrite Forall_app. split.
  - apply Forall_map, Forall_true. done.
  - repeat constructor.
Qed.
Print Assumptions C26_after_inserting.
Example C26_example :
  no_removals (inserts (map Fin [1; 2; 3; 4; 5; 6; 7]%Z)) /\
  exists rs s t, history CAVL (inserts (map Fin [1; 2; 3; 4; 5; 6; 7]%Z)) = Some (rs, s) /\ shape s = Some t /\ nlevels t = 3.
Proof. split; [repeat constructor|]. eexists _, _, _. split_and!; by vm_compute. Qed.

(** ** C27: balance under removals *)
(** False: when the left subtree is too high and its two subtrees are equally high,
    [_rebalance] chooses the double rotation, which leaves the left side unbalanced. *)
Theorem C27_balance_refuted :
  exists os rs s t, history CAVL os = Some (rs, s) /\ shape s = Some t /\ ~ height_balanced t.
Proof.
  exists (inserts (map Fin [50; 20; 60; 10; 30; 70; 5; 40]%Z) ++ [TRemove (PInt 70)]). eexists _, _, _.
  split; [by vm_compute|]. split; [by vm_compute|]. cbn. lia.
Qed.
Print Assumptions C27_balance_refuted.
(** Balance is kept as long as only the current minimum (or an absent value) is removed. *)
Theorem C27_balanced_partial os rs s t : along CAVL removes_minimum os [] ->
  history CAVL os = Some (rs, s) -> shape s = Some t -> height_balanced t /\ heights_exact t.
Proof.
  intros H Hh Ht. destruct (history_set CAVL avl_ok removes_minimum) with (os := os) as [_ HH]; [|done|done|].
  { intros. by apply avl_min_step. }
  destruct (HH rs s t Hh Ht) as (T & HR & [HE HA] & -> & _). split; [by apply avlb_balanced|by apply exact_heights].
Qed.
Print Assumptions C27_balanced_partial.
Theorem C27_minimum_removals_partial os : along CAVL removes_minimum os [] -> behaves_as_set CAVL os.
Proof.
  intros H. apply (history_set CAVL avl_ok removes_minimum); [|done|done]. intros. by apply avl_min_step.
Qed.
Print Assumptions C27_minimum_removals_partial.
Example C27_example :
  along CAVL removes_minimum (inserts (map Fin [5; 2; 8; 1; 9; 7; 3]%Z) ++ [TRemove (PInt 1); TRemove (PInt 2); TRemove (PInt 4); TRemove (PInt 3)]) [].
Proof.
  cbn. unfold removes_minimum. split_and!; try done; intros x [= <-]; (by left) || (right; set_solver).
Qed.

Lemma inc_pairs l : increasing l -> forallb (fun '(a, b) => num_ltb a b) (zip l (tail l)) = true.
Proof.
  induction 1 as [|a l H IH HF]; [done|]. destruct l as [|b l]; [done|]. apply Forall_cons in HF as [HF _].
  cbn [tail zip zip_with forallb]. by rewrite HF.
Qed.
(** ** C28: removal deletes exactly the given value *)
(** False: repeated failures to rebalance (C27) leave a node whose in-order neighbour has
    a branching subtree below it, and the removal inherited from [BST] then breaks the
    search order (see C25). *)
Theorem C28_removal_refuted :
  exists os rs s t, history CAVL os = Some (rs, s) /\ shape s = Some t /\ ~ increasing (map p_val (inorder t)).
Proof.
  exists (inserts (map Fin [121; 5; 20; 140; 21; 57; 155; 129; 176; 164; 167; 65; 108; 84; 83; 142; 126; 159; 124; 153; 154; 144]%Z) ++
    map (fun z => TRemove (PInt z)) [153; 164; 124; 154]%Z). eexists _, _, _.
  split; [by vm_compute|]. split; [by vm_compute|]. intros H.
  apply inc_pairs in H. by vm_compute in H.
Qed.
Print Assumptions C28_removal_refuted.
(** As long as the tree is height-balanced before each call, every call - any removal
    included - is right, and the stored heights stay exact. *)
Theorem C28_removal_partial os : balanced_throughout CAVL os ->
  behaves_as_set CAVL os /\
  forall rs s t, history CAVL os = Some (rs, s) -> shape s = Some t -> heights_exact t.
Proof.
  intros H. destruct (avl_balanced_run os tst0 Nil rep0) as (rs & s & T & E & HR & HE & HA & HN); [done|constructor|exact H|].
  split.
  - exists rs, s, (bin_map snd T). split_and!; try done; [by apply rep_shape|]. by rewrite inorder_pays.
  - intros rs' s' t Hh Ht. unfold history in Hh. rewrite E in Hh. injection Hh as <- <-. rewrite (rep_shape _ _ HR) in Ht. injection Ht as <-.
    by apply exact_heights.
Qed.
Print Assumptions C28_removal_partial.
(** In particular: any one removal after any insertions. *)
Theorem C28_one_removal_partial os x : no_removals os -> behaves_as_set CAVL (os ++ [TRemove (PNum x)]).
Proof.
  intros H. apply C28_removal_partial. intros pre post rs s t E Hp Hh Ht.
  eapply C26_balanced_after_insertions; [|done|done]. unfold no_removals in *.
  destruct (exists_last Hp) as (post' & o & ->). rewrite app_assoc in E. apply app_inj_tail in E as [E _]. rewrite E Forall_app in H. tauto.
Qed.
Print Assumptions C28_one_removal_partial.
Example C28_example : exists rs s t,
  history CAVL (inserts (map Fin [5; 2; 8; 1; 9; 7; 3]%Z) ++ [TRemove (PInt 5); TContains (PInt 5); TTraverse (PStr s_inorder)]) = Some (rs, s) /\ shape s = Some t /\
  drop 7 rs = [OUnit false; OBool false; OVals (map Fin [1; 2; 3; 7; 8; 9]%Z)].
Proof. eexists _, _, _. split_and!; by vm_compute. Qed.
