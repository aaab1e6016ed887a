(** * C15 and C16: the priority queue exactly as it is, for every history. *)
From Coq Require Import QArith.
From Verif Require Import Base NumOrd ListModel QueueModel QueueSpec PQSpec PQExact.

(** Every answer of every history, whatever the capacity and the priorities drawn at random. *)
Theorem C15_exact : forall a ops,
  match bad_capacity a with
  | Some e => pq_run a ops = inl e
  | None => exists c, capacity_of a c /\ pq_run a ops = inr (Some (fst (pq_refs c new_pq ops)))
  end.
Proof. exact pq_exact. Qed.
Print Assumptions C15_exact.
(** After any history, a dequeue is as the property asks exactly when the queue is empty, or
    the remembered priority is held and it is not the case that the newest of at least three
    items leaves and the next one had another priority. *)
Theorem C15_ideal_iff : forall c ops (b : bool),
  let x := snd (pq_refs c new_pq ops) in let p := if b then low x else high x in
  pq_may c (held x) (PDequeue b) (fst (pq_ref c x (PDequeue b))) (held (snd (pq_ref c x (PDequeue b)))) <->
  held x = [] \/ p ∈ map snd (held x)
    /\ (forall v w q y l, held x = (v, p) :: (w, q) :: y :: l -> q = p).
Proof. intros c ops b x p. apply dequeue_ideal_iff, reached_bounded. Qed.
Print Assumptions C15_ideal_iff.

(** A dequeue after the history [ops] fails exactly when something is held but nothing of the
    remembered priority; the remembered priorities bound those held. *)
Theorem C16_fails_iff : forall a ops (b : bool), bad_capacity a = None ->
  exists c outs r, capacity_of a c /\ pq_run a (ops ++ [PDequeue b]) = inr (Some (outs ++ [r])) /\ length outs = length ops
    /\ let x := snd (pq_refs c new_pq ops) in
       (r = BExc UnboundLocalError <-> held x <> [] /\ (if b then low x else high x) ∉ map snd (held x))
       /\ Forall (fun i => num_le (low x) (snd i) /\ num_le (snd i) (high x)) (held x).
Proof.
  intros a ops b Ha. pose proof (pq_exact a (ops ++ [PDequeue b])) as H. rewrite Ha in H. destruct H as (c & Hc & H).
  rewrite pq_refs_app in H. exists c. destruct (pq_refs c new_pq ops) as [outs x] eqn:E. exists outs, (fst (pq_ref c x (PDequeue b))).
  split; [done|]. split. { rewrite H. cbn [pq_refs]. destruct (pq_ref c x (PDequeue b)) as [r x']. done. }
  split. { pose proof (pq_refs_length c ops new_pq) as Hl. by rewrite E in Hl. }
  cbn [snd]. split; [apply dequeue_fails_iff|]. pose proof (reached_bounded c ops) as Hb. by rewrite E in Hb.
Qed.
Print Assumptions C16_fails_iff.

(** Three items; the highest is the newest, so the next takes over its priority 3: it is then
    returned before the item of priority 2.  At last the remembered lowest priority is stale. *)
Example C15_exact_example :
  let ops := [PEnqueue (PStr [120%N]) (PrNum (Fin 2)); PEnqueue (PStr [121%N]) (PrNum (Fin 1));
              PEnqueue (PStr [122%N]) (PrNum (Fin 3)); PDequeue false; PDequeue false; PDequeue true] in
  bad_capacity CapPosInf = None
  /\ pq_run CapPosInf ops = inr (Some (fst (pq_refs PosInf new_pq ops)))
  /\ pq_refs PosInf new_pq (take 4 ops)
      = ([BRet false PNone; BRet false PNone; BRet false PNone; BRet false (PStr [122%N])],
         PQ [(PStr [121%N], Fin 3); (PStr [120%N], Fin 2)] (Fin 1) (Fin 3))
  /\ fst (pq_refs PosInf new_pq ops)
      = [BRet false PNone; BRet false PNone; BRet false PNone; BRet false (PStr [122%N]); BRet false (PStr [121%N]); BExc UnboundLocalError].
Proof. split; [done|]. split; [vm_compute; reflexivity|]. split; vm_compute; reflexivity. Qed.
Example C15_ideal_example :
  let x := snd (pq_refs PosInf new_pq [PEnqueue (PInt 7) (PrNum (Fin 2)); PEnqueue (PInt 8) (PrNum (Fin 5)); PEnqueue (PInt 9) (PrNum (Fin 2))]) in
  held x = [(PInt 9, Fin 2); (PInt 8, Fin 5); (PInt 7, Fin 2)] /\ high x ∈ map snd (held x)
  /\ held (snd (pq_ref PosInf x (PDequeue false))) = [(PInt 9, Fin 2); (PInt 7, Fin 2)].
Proof. cbv zeta. split; [vm_compute; reflexivity|]. split; [vm_compute; by right; left|vm_compute; reflexivity]. Qed.
