(** * C28, C31, C34: what else removals break

    The removals refuted in AvlProps.v, SplayProps.v and RbProps.v leave a tree out of search
    order.  Later calls compare values to find out on which side of its parent a node is
    (bst.py, is_left_child), so on such a tree they do not only give wrong answers: they
    crash, lose and duplicate values, and tie nodes into a circle.  All theorems here are
    refutations; the positive results are in those files. *)
From Verif Require Import Base TreeModel TreeSpec BstModel BalModel BstSpec.
Local Open Scope Z_scope.

Definition removes (vs : list num) : list top := map (fun v => TRemove (PNum v)) vs.
(** The values of the tree, from left to right. *)
Definition contents (s : tst) : option (list num) := option_map (fun t => map p_val (inorder t)) (shape s).

(** ** C28 *)
(** Four removals from an AVL tree of thirteen values, all accepted: after them, inserting a
    new value raises AttributeError, although the value has been stored and counted. *)
Theorem C28_insert_crashes_refuted : exists vs ds x l rs s s',
  Forall (fun d => d ∈ vs) ds /\ NoDup ds /\ x ∉ vs /\
  history CAVL (inserts vs ++ removes ds) = Some (rs, s) /\ contents s = Some l /\
  call CAVL (TInsert (PNum x) (Drawn 0)) s = Some (ORaise AttributeError, s') /\
  exists l', contents s' = Some l' /\ l' ≡ₚ x :: l /\ exists s2, call CAVL TLen s' = Some (OInt (Z.of_nat (length l')), s2).
Proof.
  exists (map Fin [14; 31; 10; 32; 23; 8; 5; 33; 12; 25; 29; 22; 30]), (map Fin [33; 5; 25; 32]), (Fin 34).
  eexists _, _, _, _. split; [repeat (apply Forall_cons; split; [set_solver|]); constructor|]. split; [apply (bool_decide_unpack _); by vm_compute|].
  split; [apply (bool_decide_unpack _); by vm_compute|]. split; [by vm_compute|]. split; [by vm_compute|]. split; [by vm_compute|].
  eexists. split; [by vm_compute|]. split; [apply (bool_decide_unpack _); by vm_compute|]. eexists. by vm_compute.
Qed.
Print Assumptions C28_insert_crashes_refuted.
(** With three removals, inserting a value that is there raises AttributeError instead of
    warning. *)
Theorem C28_duplicate_crashes_refuted : exists vs ds x rs s s',
  Forall (fun d => d ∈ vs) ds /\ x ∈ vs /\ x ∉ ds /\
  history CAVL (inserts vs ++ removes ds) = Some (rs, s) /\
  call CAVL (TInsert (PNum x) (Drawn 0)) s = Some (ORaise AttributeError, s').
Proof.
  exists (map Fin [3; 5; 29; 6; 12; 10; 13; 24; 27; 21; 20; 22; 15]), (map Fin [27; 3; 20]), (Fin 29).
  eexists _, _, _. split; [repeat (apply Forall_cons; split; [set_solver|]); constructor|]. split; [set_solver|].
  split; [apply (bool_decide_unpack _); by vm_compute|]. split; by vm_compute.
Qed.
Print Assumptions C28_duplicate_crashes_refuted.

(** ** C31 *)
(** After removing 1 from SplayTree([12, 7, 5, 8, 1]), removing the absent 13 warns, as it
    should, but changes the tree: 7 is now in two places, while [len] stays 4. *)
Theorem C31_duplicated_refuted : exists vs x y rs s s' l l',
  x ∈ vs /\ y ∉ vs /\ history CSplay (inserts vs ++ [TRemove (PNum x)]) = Some (rs, s) /\ contents s = Some l /\ y ∉ l /\
  call CSplay (TRemove (PNum y)) s = Some (OUnit true, s') /\ contents s' = Some l' /\
  (exists v l1 l2, l' = l1 ++ [v] ++ l2 ++ [v]) /\ (length l < length l')%nat.
Proof.
  exists (map Fin [12; 7; 5; 8; 1]), (Fin 1), (Fin 13). eexists _, _, _, _, _. split; [set_solver|]. split; [apply (bool_decide_unpack _); by vm_compute|].
  split; [by vm_compute|]. split; [by vm_compute|]. split; [apply (bool_decide_unpack _); by vm_compute|]. split; [by vm_compute|]. split; [by vm_compute|].
  split; [|cbn; lia]. exists (Fin 7), [Fin 5], [Fin 12; Fin 8]. done.
Qed.
Print Assumptions C31_duplicated_refuted.
(** After removing 17 from SplayTree([15, 3, 2, 12, 17]), removing the absent 1 ties two nodes
    into a circle: [get_min] follows left children for ever, however many steps it is given. *)
Theorem C31_never_returns_refuted : exists vs x y rs s,
  x ∈ vs /\ y ∉ vs /\ history CSplay (inserts vs ++ [TRemove (PNum x); TRemove (PNum y)]) = Some (rs, s) /\ last rs = Some (OUnit true) /\
  exists i, t_root s = Some i /\ (forall fuel, get_min_node fuel i s = Diverge) /\ call CSplay TGetMin s = None.
Proof.
  exists (map Fin [15; 3; 2; 12; 17]), (Fin 17), (Fin 1). eexists _, _. split; [set_solver|]. split; [apply (bool_decide_unpack _); by vm_compute|].
  split; [by vm_compute|]. split; [done|]. exists 2%nat. split; [done|]. split; [|by vm_compute].
  intros fuel. match goal with |- get_min_node _ _ ?s = _ => set (st := s) end.
  assert (get_min_node fuel 2 st = Diverge /\ get_min_node fuel 3 st = Diverge) as [H _]; [|done].
  induction fuel as [|fuel [IH2 IH3]]; [done|]. split; cbn [get_min_node].
  - by rewrite (bind_ok (get_left 2) _ st (Some 3%nat) st ltac:(by vm_compute)).
  - by rewrite (bind_ok (get_left 3) _ st (Some 2%nat) st ltac:(by vm_compute)).
Qed.
Print Assumptions C31_never_returns_refuted.

(** ** C34 *)
(** A removal from a red-black tree that raises need not leave the values as they were, nor
    without the removed one: here 53 is lost and
    43 is stored twice when 49 is removed. *)
Theorem C34_values_lost_refuted : exists vs x y rs s s' l l',
  history CRB (inserts vs ++ [TRemove (PNum x)]) = Some (rs, s) /\ last rs = Some (OUnit false) /\ contents s = Some l /\
  call CRB (TRemove (PNum y)) s = Some (ORaise AttributeError, s') /\ contents s' = Some l' /\
  y ∈ l /\ NoDup l /\ ~ NoDup l' /\ exists v, v ∈ l /\ v <> y /\ v ∉ l'.
Proof.
  exists (map Fin [28; 49; 29; 43; 16; 5; 25; 53; 21; 34; 33; 39; 28]), (Fin 28), (Fin 49). eexists _, _, _, _, _.
  split; [by vm_compute|]. split; [done|]. split; [by vm_compute|]. split; [by vm_compute|]. split; [by vm_compute|].
  split; [set_solver|]. split; [apply (bool_decide_unpack _); by vm_compute|]. split; [apply (bool_decide_unpack _); by vm_compute|].
  exists (Fin 53). split; [set_solver|]. split; [done|]. apply (bool_decide_unpack _); by vm_compute.
Qed.
Print Assumptions C34_values_lost_refuted.
