(** * C58: what every stack-like container prints after every history, empty ones included. *)
From Coq Require Import QArith.
From Verif Require Import Base ListModel QueueModel QueueSpec DrawModel DrawSpec LeftSpec LeftThm.

(** The printout of a queue or a deque, whatever the calls made: the picture of the contents
    or, when there are none, the open frame with the item that left last. *)
Theorem C58_queue_exact : forall show a ops, bad_capacity a = None ->
  exists q0 c q, queue_new a st0 = inr q0 /\ capacity_of a c
    /\ calls queue_call q0 ops = Some (fst (spec_calls (queue_spec c) [] ops), q)
    /\ queue_repr (fun d _ => show d) q
        = Ok (joined (drawn c_right show (rev (snd (spec_calls (queue_spec c) [] ops))) (left_over (queue_spec c) q_clears [] None ops))) q.
Proof. exact queue_draws. Qed.
Print Assumptions C58_queue_exact.
Theorem C58_deque_exact : forall show a ops, bad_capacity a = None ->
  exists q0 c q, queue_new a st0 = inr q0 /\ capacity_of a c
    /\ calls deque_call q0 ops = Some (fst (spec_calls (deque_spec c) [] ops), q)
    /\ deque_repr (fun d _ => show d) q
        = Ok (joined (drawn c_both show (snd (spec_calls (deque_spec c) [] ops)) (left_over (deque_spec c) d_clears [] None ops))) q.
Proof. exact deque_draws. Qed.
Print Assumptions C58_deque_exact.
(** A priority queue may answer as C29 says; its printout is fixed by those answers. *)
Theorem C58_priority_queue_exact : forall text a ops, bad_capacity a = None ->
  exists q0 c q outs l r, queue_new a st0 = inr q0 /\ capacity_of a c
    /\ calls pq_call q0 ops = Some (outs, q)
    /\ answered_leaving (fun l op r l' => pq_may c l op r l' \/ pq_deviates l op r l') [] None ops outs l r
    /\ queue_repr text q = Ok (joined (drawn c_right (fun x => text (fst x) (snd x)) l r)) q.
Proof. exact pq_draws. Qed.
Print Assumptions C58_priority_queue_exact.
(** Printing is right exactly when something is held, or nothing is left over. *)
Theorem C58_right_iff : forall {A} d (text : A -> pystr) l r,
  joined (drawn d text l r) = joined (drawn d text l None) <-> l <> [] \/ r = None.
Proof. exact @drawn_right_iff. Qed.
Print Assumptions C58_right_iff.

Example C58_exact_example : exists q0 q outs,
  let show v := match v with PStr s => s | _ => [55%N] end in
  let ops := [DAppendLeft (PInt 7); DAppendRight (PStr [97%N; 98%N]); DPopLeft; DPopRight; DLen] in
  bad_capacity (CapRat 2%Q) = None /\ queue_new (CapRat 2) st0 = inr q0 /\ calls deque_call q0 ops = Some (outs, q)
  /\ snd (spec_calls (deque_spec (Fin 2)) [] ops) = []
  /\ left_over (deque_spec (Fin 2)) d_clears [] None ops = Some (PStr [97%N; 98%N])
  /\ deque_repr (fun d _ => show d) q = Ok (joined (empty_picture c_both [[97%N; 98%N]])) q.
Proof.
  do 3 eexists. cbv zeta. split; [vm_compute; reflexivity|]. split; [vm_compute; reflexivity|].
  split; [vm_compute; reflexivity|]. split; [vm_compute; reflexivity|]. split; vm_compute; reflexivity.
Qed.
Example C58_exact_priority_example : exists q0 q outs,
  let show v (_ : num) := match v with PStr s => s | _ => [55%N] end in
  let ops := [PEnqueue (PInt 7) (PrNum (Fin 3)); PDequeue true; PLen] in
  bad_capacity (CapRat 2%Q) = None /\ queue_new (CapRat 2) st0 = inr q0 /\ calls pq_call q0 ops = Some (outs, q)
  /\ queue_repr show q = Ok (joined (empty_picture c_right [[55%N]])) q.
Proof.
  do 3 eexists. cbv zeta. split; [vm_compute; reflexivity|]. split; [vm_compute; reflexivity|].
  split; [vm_compute; reflexivity|]. vm_compute; reflexivity.
Qed.
