(** * What the calls on a MinHeap or MaxHeap cost (C73)

    Specification: HeapCostSpec.v.  Model: HeapModel.v; HeapCostModel.v is the same with the
    comparisons counted.  Proofs: HeapCostThm.v.  [b] = true: MinHeap, false: MaxHeap. *)
From Coq Require Import Sorted.
From iris.proofmode Require Import proofmode.
From Verif Require Import Base NumOrd HeapModel HeapSpec HeapThm HeapCostModel HeapCostSpec HeapCostThm.
Local Open Scope py_scope.

(** The calls that count are the calls of the model, in every history and for every array,
    and so is heapify. *)
Theorem C73_same_calls b h ops items :
  option_map (fun r => (map fst r.1, r.2)) (heap_calls_c b h ops) = heap_calls b h ops /\
  match heapify_c b items with Ok _ s => Ok tt s | Exc e s => Exc e s | Diverge => Diverge end = heapify b items.
Proof.
  split; [apply same_calls|]. pose proof (same_insert_all b items 0 []) as E. unfold bind, ret in E. unfold heapify_c, heapify. rewrite -E. by destruct (insert_all_c b items 0 []).
Qed.
Print Assumptions C73_same_calls.

(** No call compares more often than its limit: [log2 (n + 1)] for an insertion into a heap of
    [n], [1 + 2 log2 n] for the removal at the root, [3/2 n + 2 log2 n] for the removal at the
    other end, [n + 2 log2 n] for the removal of a value, [n] for [in], half of [n] for
    get_max of a MinHeap and get_min of a MaxHeap, nothing for the other calls.  This holds
    for every array, in heap order or not. *)
Theorem C73_limits b h op :
  match heap_call_c b op h with
  | Ok (_, k) _ => k <= limit b (length h) op
  | Exc _ _ => True
  | Diverge => False
  end.
Proof.
  pose proof (call_c_total b op h) as H. pose proof (call_cost b op h) as Hc. destruct (heap_call_c b op h) as [[r k] h'|e h'|]; [|done|done]. by destruct (Hc _ _ eq_refl).
Qed.
Print Assumptions C73_limits.
(** A heap used as a priority queue: insertions and removals at the root, [n] of the calls
    insertions, compare no more than [1 + 2 log2 n] times per call. *)
Theorem C73_priority_queue b ops : Forall (fun op => queue_op b op = true) ops ->
  exists rs h, heap_calls_c b [] ops = Some (rs, h) /\ total rs <= length ops * (1 + 2 * Nat.log2 (insertions ops)).
Proof.
  intros Hq. destruct (calls_c_total b ops []) as (rs & h & E). exists rs, h. split; [done|]. apply (queue_cost b ops [] rs h Hq E).
Qed.
Print Assumptions C73_priority_queue.

(** The limits of insertions are met: by a number that goes before all others. *)
Theorem C73_worst_insertion b x h : Forall (before b x) h ->
  exists h', heap_call_c b (HInsert (PNum x)) h = Ok (HRet false, Nat.log2 (length h + 1)) h'.
Proof. intros Hx. destruct (insert_worst b x h Hx) as (h' & E & _). exists h'. cbn [heap_call_c]. by rewrite (bind_ok _ _ _ _ _ E). Qed.
Print Assumptions C73_worst_insertion.
(** The limit of the removal at the root is met up to two comparisons: by an array whose last
    number goes after all others. *)
Theorem C73_worst_removal b y h x : Forall (fun z => before b z x) h ->
  let n := length (y :: h ++ [x]) in
  exists k h', heap_call_c b (if b then HRemoveMin else HRemoveMax) (y :: h ++ [x]) = Ok (HRet false, k) h' /\
    2 * Nat.log2 n - 1 <= k <= 2 * Nat.log2 n + 1.
Proof.
  intros Hb n. set (op := if b then HRemoveMin else HRemoveMax). pose proof (C73_limits b (y :: h ++ [x]) op) as Hl. fold n in Hl.
  assert (exists w h', heap_remove_c b (PNum y) 0 (y :: h ++ [x]) = Ok w h' /\ w.1 = false) as (w & h' & E & Ew).
  { pose proof (same_remove b (PNum y) 0 (y :: h ++ [x])) as Es. destruct (heap_remove_member b (y :: h ++ [x]) y ltac:(by left)) as (h' & Eo & _).
    unfold bind, ret in Es. rewrite Eo in Es. destruct (heap_remove_c b (PNum y) 0 (y :: h ++ [x])) as [w h2|e h2|]; [|done|done]. injection Es as Ew ->. by exists w, h'. }
  assert (heap_call_c b op (y :: h ++ [x]) = Ok (HRet w.1, w.2) h') as Ec.
  { unfold op. destruct b; cbn [heap_call_c]; unfold heap_remove_min_c, heap_remove_max_c, bind, ret; cbn -[heap_remove_c]; unfold heap_get_top_c, bind, get_state, ret; cbn -[heap_remove_c]; by rewrite E. }
  rewrite Ec in Hl. pose proof (remove_top_worst b y h x w h' Hb E) as Hw. fold n in Hw. cbn [fst snd] in Hl.
  exists w.2, h'. split; [by rewrite Ec Ew|]. assert (limit b n op = 1 + 2 * Nat.log2 n) as El by (unfold op; by destruct b). lia.
Qed.
Print Assumptions C73_worst_removal.
(** A number that goes before none of the others is inserted at the end after one comparison. *)
Theorem C73_best_insertion b x h : Forall (fun y => ~ before b x y) h ->
  heap_call_c b (HInsert (PNum x)) h = Ok (HRet false, Nat.min 1 (length h)) (h ++ [x]).
Proof. intros Hx. cbn [heap_call_c]. by rewrite (bind_ok _ _ _ _ _ (insert_best b x h Hx)). Qed.
Print Assumptions C73_best_insertion.
(** The end of the order that is not at the root is found among the last half of the array;
    a number that does not occur is compared with every element. *)
Theorem C73_other_end b h : h <> [] ->
  exists x, heap_call_c b (if b then HGetMax else HGetMin) h = Ok (HVal x, length h - Nat.div (length h) 2 - 1) h.
Proof.
  intros Hne. set (op := if b then HGetMax else HGetMin). assert (exists r, heap_get_bottom_c b h = Ok r h) as (r & E).
  { pose proof (same_get_bottom b h) as E. destruct (get_bottom_spec b h Hne) as (x & Hx & _). rewrite Hx in E. unfold bind, ret in E.
    destruct (heap_get_bottom_c b h) as [r h'|e h'|]; [|done|done]. injection E as _ ->. by exists r. }
  exists r.1. assert (heap_call_c b op h = Ok (HVal r.1, r.2) h) as ->.
  { unfold op. destruct b; cbn [heap_call_c]; unfold heap_get_max_c, heap_get_min_c; by rewrite (bind_ok _ _ _ _ _ E). }
  apply get_bottom_cost in E as (_ & Hk & _). f_equal. f_equal. lia.
Qed.
Print Assumptions C73_other_end.
Theorem C73_absent b x h : x ∉ h ->
  heap_call_c b (HContains (PNum x)) h = Ok (HBool false, length h) h /\ heap_call_c b (HRemove (PNum x)) h = Ok (HRet true, length h) h.
Proof.
  intros Hx. assert (index_of x h = None) as Hi. { destruct (index_of x h) as [i|] eqn:E; [|done]. apply index_of_Some in E. destruct Hx. by eapply elem_of_list_lookup_2. }
  cbn [heap_call_c]. unfold heap_contains_c, heap_remove_c, bind, get_state, ret.
  pose proof (index_of_same x h 0) as E1. pose proof (index_of_cost x h 0) as E2. rewrite Hi in E1 E2. destruct (index_of_c x h 0) as [o k]. cbn [fst snd] in *. subst o k.
  destruct (Nat.eqb_spec (length h) 0) as [E|E]; [by rewrite E|done].
Qed.
Print Assumptions C73_absent.

(** ** heapify *)
(** heapify of [n] numbers compares at most [log2 1 + ... + log2 n <= n log2 n] times; that
    many times if every number goes before all earlier ones; only [n - 1] times if none does. *)
Theorem C73_heapify b (xs : list num) :
  (exists k h, heapify_c b (PNum <$> xs) = Ok k h /\ k <= log_sum (length xs) /\ log_sum (length xs) <= length xs * Nat.log2 (length xs)) /\
  (StronglySorted (fun x y => before b y x) xs -> exists h, heapify_c b (PNum <$> xs) = Ok (log_sum (length xs)) h) /\
  (StronglySorted (fun x y => ~ before b y x) xs -> heapify_c b (PNum <$> xs) = Ok (length xs - 1) xs).
Proof.
  split_and!.
  - destruct (insert_all_cost b xs 0 []) as (k & h & E & _ & Hk). exists k, h. split_and!; [done|cbn in Hk; lia|apply log_sum_le].
  - intros Hs. destruct (insert_all_worst b xs 0 []) as (h & E); [intros x y _ Hy; by apply elem_of_nil in Hy|done|]. exists h. unfold heapify_c. rewrite E. f_equal. cbn. lia.
  - intros Hs. unfold heapify_c. rewrite insert_all_best; [cbn [length app]; f_equal; lia| |done]. intros x y _ Hy. by apply elem_of_nil in Hy.
Qed.
Print Assumptions C73_heapify.
(** The documentation of heapify promises time O(n) (_heap.py:87-89, min_heap.py:49,
    max_heap.py:49).  No constant is enough. *)
Theorem C73_heapify_linear_refuted b : forall c, exists (xs : list num) k h, heapify_c b (PNum <$> xs) = Ok k h /\ c * length xs < k.
Proof.
  intros c. set (n := 2 ^ (2 * c + 2)). set (f := fun i => Fin (if b then (- Z.of_nat i)%Z else Z.of_nat i)).
  destruct (C73_heapify b (f <$> seq 0 n)) as (_ & H & _). rewrite fmap_length seq_length in H. destruct H as [h E].
  - assert (forall a l, StronglySorted (fun x y => before b y x) (f <$> seq a l)) as Hs; [|apply Hs]. intros a l. revert a. induction l as [|l IH]; intros a; [constructor|].
    cbn [seq]. rewrite fmap_cons. constructor; [apply IH|]. apply Forall_forall. intros y (i & -> & Hi)%elem_of_list_fmap. apply elem_of_seq in Hi. unfold f, before. destruct b; cbn; lia.
  - exists (f <$> seq 0 n), (log_sum n), h. split; [done|]. rewrite fmap_length seq_length. pose proof (log_sum_ge (2 ^ (2 * c + 1)) (2 ^ (2 * c + 1))) as Hl.
    rewrite Nat.log2_pow2 in Hl; [|lia]. replace (2 ^ (2 * c + 1) + 2 ^ (2 * c + 1)) with n in Hl by (unfold n; replace (2 * c + 2) with (S (2 * c + 1)) by lia; rewrite Nat.pow_succ_r'; lia).
    assert (n = 2 * 2 ^ (2 * c + 1)) as Hn by (unfold n; replace (2 * c + 2) with (S (2 * c + 1)) by lia; by rewrite Nat.pow_succ_r').
    pose proof (Nat.pow_nonzero 2 (2 * c + 1) ltac:(lia)). nia.
Qed.
Print Assumptions C73_heapify_linear_refuted.

(** The array of seven numbers; a priority queue; both orders of heapify. *)
Definition C73_heap : list num := map Fin [1; 3; 2; 7; 4; 5; 6]%Z.
Example C73_example : heap_call_c true (HInsert (PInt 0)) C73_heap = Ok (HRet false, 3) (map Fin [0; 1; 2; 3; 4; 5; 6; 7]%Z) /\
  heap_call_c true HRemoveMin C73_heap = Ok (HRet false, 4) (map Fin [2; 3; 5; 7; 4; 6]%Z) /\
  heap_call_c true (HRemove (PInt 7)) C73_heap = Ok (HRet false, 4) (map Fin [1; 3; 2; 6; 4; 5]%Z) /\
  heap_call_c true HGetMax C73_heap = Ok (HVal (Fin 7), 3) C73_heap /\
  heap_call_c true HRemoveMax C73_heap = Ok (HRet false, 3 + 4) (map Fin [1; 3; 2; 6; 4; 5]%Z) /\
  Forall (before true (Fin 0)) C73_heap.
Proof. split_and!; try (by vm_compute). repeat constructor; cbn; lia. Qed.
Example C73_example_removal : Forall (fun z => before true z (Fin 9)) C73_heap /\
  heap_call_c true HRemoveMin (Fin 0 :: C73_heap ++ [Fin 9]) = Ok (HRet false, 6) (map Fin [1; 2; 3; 6; 7; 4; 5; 9]%Z).
Proof. split; [|by vm_compute]. repeat (apply Forall_cons_2; [cbn; lia|]). apply Forall_nil_2. Qed.
Example C73_example_queue : let ops := [HInsert (PInt 5); HInsert (PInt 3); HRemoveMin; HInsert PNone; HInsert (PInt 1); HInsert (PInt 4); HRemoveMin; HRemoveMin; HRemoveMin; HRemoveMin] in
  Forall (fun op => queue_op true op = true) ops /\ insertions ops = 5 /\ option_map (fun r => map snd r.1) (heap_calls_c true [] ops) = Some [0; 1; 1; 0; 1; 1; 2; 1; 1; 0].
Proof. split_and!; [repeat constructor|done|by vm_compute]. Qed.
Example C73_example_heapify : heapify_c true (PNum <$> map Fin [8; 7; 6; 5; 4; 3; 2; 1]%Z) = Ok 13 (map Fin [1; 2; 3; 5; 6; 7; 4; 8]%Z) /\
  log_sum 8 = 13 /\ StronglySorted (fun x y => before true y x) (map Fin [8; 7; 6; 5; 4; 3; 2; 1]%Z) /\ heapify_c true (PNum <$> C73_heap) = Ok 6 C73_heap.
Proof. split_and!; try (by vm_compute). cbn [List.map]. repeat (constructor; [|repeat constructor; cbn; lia]). constructor. Qed.
