(** * Properties C12-C16: Stack, Queue, Deque, PriorityQueue.

    Vocabulary: QueueSpec.v (ideal structures on plain lists); [stack_run a ops],
    [queue_run a ops], ... run the modelled code: construct with [max_capacity=a], then
    make the calls [ops], catching exceptions. *)
From Coq Require Import QArith.
From Verif Require Import Base QueueModel QueueSpec QueueThm PQThm.
Close Scope Q_scope.

(** ** C12 *)
Theorem C12_stack : forall a ops,
  match bad_capacity a with
  | Some e => stack_run a ops = inl e
  | None => exists c, capacity_of a c /\
      stack_run a ops = inr (Some (fst (spec_calls (stack_spec c) [] ops)))
      /\ within c (length (snd (spec_calls (stack_spec c) [] ops)))
  end.
Proof. exact stack_refines. Qed.
Print Assumptions C12_stack.

Example C12_example :
  bad_capacity (CapRat (5 # 2)) = None /\ bad_capacity (CapRat (-1 # 3)) = Some ValueError /\
  stack_run (CapRat (5 # 2)) [SPush (PInt 1); SPush (PStr [10%N]); SIsFull; SPush (PInt 3); SPop; SPop; SPop; SPush PNone; SLen]
  = inr (Some [BRet false PNone; BRet false PNone; BBool true; BExc OverflowError; BRet false (PStr [92%N; 110%N]);
               BRet false (PInt 1); BRet true PNone; BExc ValueError; BNat 0]).
Proof. vm_compute. done. Qed.

(** ** C13 *)
Theorem C13_queue : forall a ops,
  match bad_capacity a with
  | Some e => queue_run a ops = inl e
  | None => exists c, capacity_of a c /\
      queue_run a ops = inr (Some (fst (spec_calls (queue_spec c) [] ops)))
      /\ within c (length (snd (spec_calls (queue_spec c) [] ops)))
  end.
Proof. exact queue_refines. Qed.
Print Assumptions C13_queue.

Example C13_example :
  queue_run (CapRat 2) [QEnqueue (PInt 1); QEnqueue (PInt 2); QEnqueue (PInt 3); QTop; QLen; QDequeue; QDequeue; QDequeue]
  = inr (Some [BRet false PNone; BRet false PNone; BRet true PNone; BRet false (PInt 2); BNat 2; BRet false (PInt 2);
               BRet false (PInt 3); BRet true PNone])
  /\ queue_run (CapRat (1 # 3)) [QEnqueue (PInt 1); QLen] = inr (Some [BRet true PNone; BNat 0]).
Proof. split; vm_compute; reflexivity. Qed.

(** ** C14 *)
Theorem C14_deque : forall a ops,
  match bad_capacity a with
  | Some e => deque_run a ops = inl e
  | None => exists c, capacity_of a c /\
      deque_run a ops = inr (Some (fst (spec_calls (deque_spec c) [] ops)))
      /\ within c (length (snd (spec_calls (deque_spec c) [] ops)))
  end.
Proof. exact deque_refines. Qed.
Print Assumptions C14_deque.

Example C14_example :
  deque_run (CapRat 2) [DAppendLeft (PInt 1); DAppendRight (PInt 2); DAppendRight (PInt 3); DGetLeft; DAppendLeft (PInt 4);
                        DGetRight; DPopRight; DPopLeft; DGetLeft]
  = inr (Some [BRet false PNone; BRet false PNone; BRet true PNone; BRet false (PInt 2); BRet true PNone;
               BRet false (PInt 2); BRet false (PInt 2); BRet false (PInt 4); BExc IndexError]).
Proof. vm_compute. reflexivity. Qed.

(** ** C15, C16.  Full property: every history is answered as the ideal priority queue
    [pq_may] allows.  Refuted below.  What holds for every history: each call is
    answered ideally, or deviates in one of the two ways of [pq_deviates]; in
    particular every dequeue that returns an item returns one of extreme priority
    among the priorities the queue then holds. *)
Theorem C15_priority_queue_partial : forall a ops,
  match bad_capacity a with
  | Some e => pq_run a ops = inl e
  | None => exists c outs l, capacity_of a c /\ pq_run a ops = inr (Some outs) /\ within c (length l)
      /\ answered (fun l op r l' => pq_may c l op r l' \/ pq_deviates l op r l') [] ops outs l
  end.
Proof. exact pq_answers. Qed.
Print Assumptions C15_priority_queue_partial.

(** With capacity at most two, one direction of dequeue and no overflow warning the
    queue is ideal. *)
Theorem C15_small_queue_partial : forall z ops outs b,
  (0 <= z <= 2)%Z -> pq_run (CapRat (inject_Z z)) ops = inr (Some outs) ->
  (forall b', PDequeue b' ∈ ops -> b' = b) ->
  (forall i v p w, ops !! i = Some (PEnqueue v p) -> outs !! i <> Some (BRet true w)) ->
  exists l, answered (pq_may (Fin z)) [] ops outs l.
Proof. exact pq_small. Qed.
Print Assumptions C15_small_queue_partial.

(** enqueue x (2), y (1), z (3); dequeue gives z; the next dequeue gives y. *)
Theorem C15_priority_queue_refuted : exists ops outs,
  pq_run CapPosInf ops = inr (Some outs) /\ ~ exists l, answered (pq_may PosInf) [] ops outs l.
Proof.
  exists [PEnqueue (PStr [120%N]) (PrNum (Fin 2)); PEnqueue (PStr [121%N]) (PrNum (Fin 1));
          PEnqueue (PStr [122%N]) (PrNum (Fin 3)); PDequeue false; PDequeue false].
  eexists. split; [vm_compute; reflexivity|]. intros (l & H).
  repeat match goal with
  | H : answered _ _ (_ :: _) _ _ |- _ => inversion H; clear H; subst
  | H : pq_may _ _ (PEnqueue _ _) (BRet _ _) _ |- _ => inversion H; clear H; subst
  | H : prio_of _ = Some _ |- _ => injection H as <-
  | H : pq_may _ _ (PDequeue _) (BRet false _) _ |- _ => inversion H; clear H; subst
  | H : _ = ?l1 ++ (_, _) :: _ |- _ => unfold pq_push in H; cbn in H; destruct l1; cbn in H; simplify_eq
  | H : extreme _ _ _ |- _ => unfold extreme, pq_push in H; cbn in H; repeat (apply Forall_cons in H as [? H]); cbn in *; lia
  end; cbn in *; simplify_eq; unfold extreme in *;
  repeat match goal with H : Forall _ _ |- _ => apply Forall_cons in H as [? H] end; cbn in *; try lia.
  repeat match goal with H : _ = ?l1 ++ (_, _) :: _ |- _ => destruct l1; cbn in H; simplify_eq end.
Qed.
Print Assumptions C15_priority_queue_refuted.

Example C15_example : exists outs,
  pq_run (CapRat 2) [PEnqueue (PInt 7) (PrNum (Fin 1)); PEnqueue (PInt 8) (PrRandom 50); PDequeue false; PTop; PDequeue false]
   = inr (Some outs) /\ outs = [BRet false PNone; BRet false PNone; BRet false (PInt 8); BRet false (PInt 7); BRet false (PInt 7)].
Proof. eexists. split; vm_compute; reflexivity. Qed.

(** C16: when all dequeues go in the same direction and no enqueue overflowed (no
    warning), dequeue never fails.  Missing: mixed directions and overflow. *)
Theorem C16_dequeue_never_fails_partial : forall a ops outs b,
  pq_run a ops = inr (Some outs) ->
  (forall b', PDequeue b' ∈ ops -> b' = b) ->
  (forall i v p w, ops !! i = Some (PEnqueue v p) -> outs !! i <> Some (BRet true w)) ->
  BExc UnboundLocalError ∉ outs.
Proof. exact pq_one_way. Qed.
Print Assumptions C16_dequeue_never_fails_partial.

Theorem C16_dequeue_never_fails_refuted :
  pq_run CapPosInf [PEnqueue (PInt 1) (PrNum (Fin 5)); PDequeue false; PEnqueue (PInt 2) (PrNum (Fin 7)); PDequeue true]
   = inr (Some [BRet false PNone; BRet false (PInt 1); BRet false PNone; BExc UnboundLocalError])
  /\ pq_run (CapRat 1) [PEnqueue (PInt 1) (PrNum (Fin 9)); PEnqueue (PInt 2) (PrNum (Fin 1)); PDequeue false]
   = inr (Some [BRet false PNone; BRet true PNone; BExc UnboundLocalError]).
Proof. split; vm_compute; reflexivity. Qed.
Print Assumptions C16_dequeue_never_fails_refuted.
