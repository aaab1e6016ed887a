(** * C63: the list that [to_list] of a heap returns *)
From Verif Require Import Base NumOrd HeapModel HeapSpec HeapAliasModel HeapAliasSpec HeapAliasThm.

(** C63 as stated is false in both directions.  A list taken earlier changes with the heap ... *)
Theorem C63_list_follows_heap_refuted : exists (b : bool) (p : list aop) (c : hop),
  final_answer b (p ++ [ARead 0]) = Some (HVals [Fin 5]) /\
  final_answer b (p ++ [ACall c; ARead 0]) = Some (HVals [Fin 3; Fin 5]).
Proof. exists true, [ACall (HInsert (PInt 5)); ACall HToList], (HInsert (PInt 3)). split; vm_compute; reflexivity. Qed.
Print Assumptions C63_list_follows_heap_refuted.
(** ... and a program that appends to its list makes the heap contain the value, and answer a
    [get_min()] that is not the minimum. *)
Theorem C63_heap_follows_list_refuted : exists (p : list aop) (x : num),
  final_answer true (p ++ [ACall (HContains (PNum x))]) = Some (HBool false) /\
  final_answer true (p ++ [AAppend 0 x; ACall (HContains (PNum x))]) = Some (HBool true) /\
  exists y, final_answer true (p ++ [AAppend 0 x; ACall HGetMin]) = Some (HVal y) /\ num_le x y /\ x <> y.
Proof.
  exists [ACall (HInsert (PInt 5)); ACall HToList], (Fin 1). split; [vm_compute; reflexivity|]. split; [vm_compute; reflexivity|].
  exists (Fin 5). split; [vm_compute; reflexivity|]. split; [done|discriminate].
Qed.
Print Assumptions C63_heap_follows_list_refuted.
(** Exactly: a list taken since the last [clear()] always reads as [to_list()] answers now, whatever
    was done to either of them in between ([given p] lists were taken before it) ... *)
Theorem C63_shared_until_clear : forall (b : bool) (p q : list aop), Forall (fun op => ~ clears op) q ->
  final_answer b (p ++ ACall HToList :: q ++ [ARead (given p)]) =
  final_answer b (p ++ ACall HToList :: q ++ [ACall HToList]).
Proof. exact shared. Qed.
Print Assumptions C63_shared_until_clear.
(** ... one taken before a [clear()] keeps what it held at that moment, whatever is then done with
    the heap and the lists it gives, as long as the program does not change lists itself ... *)
Theorem C63_detached_by_clear : forall (b : bool) (p q : list aop) (i : nat), i < given p ->
  Forall (fun op => ~ changes_list op) q ->
  final_answer b (p ++ ACall HClear :: q ++ [ARead i]) = final_answer b (p ++ [ARead i]).
Proof. exact detached. Qed.
Print Assumptions C63_detached_by_clear.
(** ... and taking and reading lists never disturbs the heap: a program that changes none of them
    gets from the heap what C35 to C37 say. *)
Theorem C63_reading_is_harmless : forall (b : bool) (p : list aop), Forall (fun op => ~ changes_list op) p ->
  exists rs m h, heap_program b mem0 p = Some (rs, m) /\
    heap_calls b [] (calls_made p) = Some (answers_of_calls p rs, h).
Proof.
  intros b p Hp. destruct (program_total b p mem0) as (rs & m & Hr).
  destruct (unchanged b p mem0 rs m [] wf0 eq_refl Hp Hr) as (h & Hc & _). eauto.
Qed.
Print Assumptions C63_reading_is_harmless.

Definition ex_prog : list aop :=
  [ACall (HInsert (PInt 5)); ACall HToList; ACall (HInsert (PInt 3)); ACall HToList; ARead 0; ACall HClear; ACall (HInsert (PInt 9)); ARead 1].
Example ex_harmless : Forall (fun op => ~ changes_list op) ex_prog /\ given ex_prog = 2 /\
  option_map fst (heap_program true mem0 ex_prog) = Some [HRet false; HVals [Fin 5]; HRet false; HVals [Fin 3; Fin 5];
    HVals [Fin 3; Fin 5]; HRet false; HRet false; HVals [Fin 3; Fin 5]].
Proof. split; [repeat constructor; intros []|]. by split; vm_compute. Qed.
Example ex_shared : Forall (fun op => ~ clears op) [ACall (HInsert (PInt 3)); AAppend 0 (Fin 7)] /\
  final_answer true ([ACall (HInsert (PInt 5))] ++ ACall HToList :: [ACall (HInsert (PInt 3)); AAppend 0 (Fin 7)] ++ [ARead 0])
  = Some (HVals [Fin 3; Fin 5; Fin 7]).
Proof. split; [repeat constructor; discriminate|]. by vm_compute. Qed.
