(** * Heap properties C35-C38.  [b] = true is MinHeap, [b] = false MaxHeap. *)
From Coq Require Import Sorted.
From Verif Require Import Base NumOrd HeapModel HeapSpec HeapThm.

(** C35.  [heapify xs], followed by any history that removes nothing but the top:
    every answer is the ideal one (so get_min/get_max are the extrema and to_list, len
    and membership those of the multiset), and the array stays heap-ordered.  [xs = []]
    gives the histories that start from [MinHeap()] / [MaxHeap()]. *)
Theorem C35_heap_histories : forall (b : bool) (xs : list num) (ops : list hop),
  Forall (top_only b) ops ->
  exists h, heapify b (PNum <$> xs) = Ok tt h /\ h ≡ₚ xs /\ heap_ordered b h /\
  exists rs h', heap_calls b h ops = Some (rs, h') /\ heap_answers h ops rs h' /\ heap_ordered b h'.
Proof.
  intros b xs ops Ht. destruct (heapify_spec b xs) as (h & H1 & H2 & H3).
  exists h. split; [done|]. split; [done|]. split; [by apply hord_heap_ordered|].
  destruct (calls_exact b ops h H3 Ht) as (rs & h' & H4 & H5 & H6).
  exists rs, h'. split; [done|]. split; [done|]. by apply hord_heap_ordered.
Qed.
Print Assumptions C35_heap_histories.
(** The answers do not depend on how the multiset is listed. *)
Theorem C35_answers_depend_on_the_multiset_only : forall bag1 bag2 op r bag',
  bag1 ≡ₚ bag2 -> heap_may bag1 op r bag' -> heap_may bag2 op r bag'.
Proof. exact heap_may_perm. Qed.
Print Assumptions C35_answers_depend_on_the_multiset_only.
(** heapify of an iterable with an item that is not a number raises. *)
Theorem C35_heapify_rejects : forall (b : bool) (xs : list num) (v : pyval) (rest : list pyval),
  (forall n, v <> PNum n) ->
  exists h, heapify b ((PNum <$> xs) ++ v :: rest) =
    Exc (if bool_decide (v = PNone) then ValueError else TypeError) h.
Proof. exact heapify_bad. Qed.
Print Assumptions C35_heapify_rejects.

Definition ex_ops : list hop :=
  [HInsert (PInt 5); HInsert PNone; HInsert (PInt 3); HInsert (PInt 9); HInsert (PInt 1); HGetMax; HRemoveMin;
   HGetMin; HInsert (PInt 3); HRemoveMin; HGetMin; HLen; HToList; HContains (PInt 5); HContains (PStr [])].
Example ex_ops_ok : Forall (top_only true) ex_ops.
Proof. repeat constructor. Qed.
Example ex_ops_run : heap_run true ex_ops = Some
  [HRet false; HExc ValueError; HRet false; HRet false; HRet false; HVal (Fin 9); HRet false; HVal (Fin 3);
   HRet false; HRet false; HVal (Fin 3); HNat 3; HVals [Fin 3; Fin 5; Fin 9]; HBool true; HBool false].
Proof. vm_compute. reflexivity. Qed.

(** C36.  Reading and removing the top [length xs] times lists [xs] in order. *)
Theorem C36_min_heap_sorts : forall (xs : list num), exists h ys,
  heapify true (PNum <$> xs) = Ok tt h /\
  heap_calls true h (concat (replicate (length xs) [HGetMin; HRemoveMin])) =
    Some (flat_map (fun y => [HVal y; HRet false]) ys, []) /\
  ys ≡ₚ xs /\ StronglySorted num_le ys.
Proof.
  intros xs. destruct (heapify_spec true xs) as (h & H1 & H2 & H3).
  destruct (drain true h (length xs) H3) as (ys & H4 & H5 & H6); [by rewrite H2|].
  exists h, ys. split; [done|]. split; [done|]. split; [by rewrite H5|done].
Qed.
Print Assumptions C36_min_heap_sorts.
Theorem C36_max_heap_sorts : forall (xs : list num), exists h ys,
  heapify false (PNum <$> xs) = Ok tt h /\
  heap_calls false h (concat (replicate (length xs) [HGetMax; HRemoveMax])) =
    Some (flat_map (fun y => [HVal y; HRet false]) ys, []) /\
  ys ≡ₚ xs /\ StronglySorted (fun x y => num_le y x) ys.
Proof.
  intros xs. destruct (heapify_spec false xs) as (h & H1 & H2 & H3).
  destruct (drain false h (length xs) H3) as (ys & H4 & H5 & H6); [by rewrite H2|].
  exists h, ys. split; [done|]. split; [done|]. split; [by rewrite H5|done].
Qed.
Print Assumptions C36_max_heap_sorts.
Example ex_sort : heap_run true
  (map (fun z => HInsert (PInt z)) [3; 1; 2]%Z ++ concat (replicate 3 [HGetMin; HRemoveMin])) = Some
  [HRet false; HRet false; HRet false; HVal (Fin 1); HRet false; HVal (Fin 2); HRet false; HVal (Fin 3); HRet false].
Proof. vm_compute. reflexivity. Qed.

(** C37 as stated is false: after remove(11) the 4 sits under the 10, and two
    remove_min() later get_min() is 10 although 4 is in the heap. *)
Definition ex_heap : list Z := [1; 10; 2; 11; 12; 20; 4]%Z.
Theorem C37_arbitrary_removal_refuted : exists (xs : list num) (ops : list hop) rs (m m' : num),
  heap_run true ((HInsert ∘ PNum <$> xs) ++ ops ++ [HGetMin; HContains (PNum m')]) =
    Some (rs ++ [HVal m; HBool true]) /\ num_le m' m /\ m' <> m.
Proof.
  exists (map Fin ex_heap), [HRemove (PInt 11); HRemoveMin; HRemoveMin], (replicate 10 (HRet false)), (Fin 10), (Fin 4).
  split; [vm_compute; reflexivity|]. split; [done|discriminate].
Qed.
Print Assumptions C37_arbitrary_removal_refuted.
(** What does hold: removing [x] from a heap-ordered array removes exactly one
    occurrence, and the result is heap-ordered exactly when the last element of the array
    fits in the place of the first occurrence of [x] (always for the top). *)
Theorem C37_removal_partial : forall (b : bool) (h : list num) (x : num) (i : nat),
  heap_ordered b h -> first_at h x i ->
  exists h', heap_remove b (PNum x) h = Ok false h' /\ h ≡ₚ x :: h' /\
    (heap_ordered b h' <-> slot_fits b h i).
Proof. exact remove_order. Qed.
Print Assumptions C37_removal_partial.
(** ... and in every history whatsoever the multiset, len, membership, to_list, the
    warnings and the exceptions are right; get_min/get_max return and
    remove_min/remove_max remove some member. *)
Theorem C37_any_history_partial : forall (b : bool) (ops : list hop),
  exists rs h', heap_calls b [] ops = Some (rs, h') /\ heap_answers_weak [] ops rs h'.
Proof. intros b ops. exact (calls_weak b ops []). Qed.
Print Assumptions C37_any_history_partial.
Example ex_removal : heap_ordered true (map Fin ex_heap) /\ first_at (map Fin ex_heap) (Fin 11) 3 /\
  ~ slot_fits true (map Fin ex_heap) 3 /\ first_at (map Fin ex_heap) (Fin 2) 2 /\ slot_fits true (map Fin ex_heap) 2.
Proof.
  split; [|split; [|split; [|split]]].
  - intros i x p Hi. do 7 (destruct i as [|i]; [try lia; cbn; intros; simplify_eq; cbn; lia|]). done.
  - split; [done|]. intros j Hj. do 3 (destruct j as [|j]; [done|]). lia.
  - intros [H|[H|(p & z & H1 & H2 & H3)]]; [done|done|]. cbn in *. simplify_eq. cbn in H3. lia.
  - split; [done|]. intros j Hj. do 2 (destruct j as [|j]; [done|]). lia.
  - right; right. exists (Fin 1), (Fin 4). split; [done|]. split; [done|]. cbn. lia.
Qed.

(** C38: iterating a non-empty heap lists its array ... *)
Theorem C38_iteration_partial : forall (h : list num), h <> [] -> exists m, heap_iter h = Ok h m.
Proof. exact heap_iter_spec. Qed.
Print Assumptions C38_iteration_partial.
(** ... but iterating an empty heap fails. *)
Theorem C38_iteration_refuted : exists (h : list num), heap_iter h = Exc AssertionError [].
Proof. exists []. reflexivity. Qed.
Print Assumptions C38_iteration_refuted.
(** That is all: every heap, in one statement. *)
Theorem C38_right_iff : forall (h : list num), heap_to_list h = Ok h h /\ ((exists m, heap_iter h = Ok h m) <-> h <> []).
Proof. intros h. split; [done|]. split; [intros (m & E) ->; by vm_compute in E|apply heap_iter_spec]. Qed.
Print Assumptions C38_right_iff.
