(** * C74, C75: how far the calls on linked lists and queues walk *)
From Verif Require Import Base ListSpec ListRep ListCore ListCore2 ListOps ListOps2 ListRun ListOps3 ListModel
  QueueModel QueueSpec QueueThm PQThm PQSpec PQExact WalkModel WalkSpec WalkThm WalkThm2 WalkThm3 WalkThm4.
Local Open Scope py_scope.

(** ** C74 *)
Theorem C74_same :
  (forall o i v, counts (insert_c o i v) (insert o i v))
  /\ (forall o v, counts (add_front_c o v) (add_front o v))
  /\ (forall o v, counts (add_end_c o v) (add_end o v))
  /\ (forall o i, counts (getitem_c o i) (getitem o i))
  /\ (forall o i v, counts (setitem_c o i v) (setitem o i v))
  /\ (forall o i, counts (delitem_c o i) (delitem o i))
  /\ (forall o, counts (remove_front_c o) (remove_front o))
  /\ (forall o, counts (remove_end_c o) (remove_end o))
  /\ (forall o i, counts (split_c o i) (split o i))
  /\ (forall o p, counts (extend_c o p) (extend o p))
  /\ (forall o d r, counts (rotate_new_c o d r) (rotate_new o d r))
  /\ (forall o d r, counts (rotate_inplace_c o d r) (rotate_inplace o d r)).
Proof.
  split_and!; intros; [apply co_insert|apply co_add_front|apply co_add_end|apply co_getitem|apply co_setitem|apply co_delitem
    |apply co_remove_front|apply co_remove_end|apply co_split|apply co_extend|apply co_rotate_new|apply co_rotate_inplace].
Qed.
Print Assumptions C74_same.

(** Reading, replacing, removing at an index walk exactly to that place; inserting at [z]
    likewise, in a circular list modulo [n + 1]. *)
Theorem C74_index s o k n z v : a_list s o k n ->
  takes s (getitem_c o (IInt z)) (walk k n (place k n (if (z <? 0)%Z then z + Z.of_nat n else z)))
  /\ takes s (setitem_c o (IInt z) v) (walk k n (place k n z))
  /\ takes s (delitem_c o (IInt z)) (walk k n (place k n z))
  /\ takes s (insert_c o (IInt z) v) (walk k n (place k (S n) z)).
Proof. intros H. split_and!; [by apply tk_getitem|by apply tk_setitem|by apply tk_delitem|by apply tk_insert]. Qed.
Print Assumptions C74_index.

(** The documented limits: never more than the index, in a circular list than its remainder,
    in a doubly linked list than the distance to either end, hence than half the list. *)
Theorem C74_walk n i : i <= n ->
  walk CLL n i = i /\ walk CCLL n i = i
  /\ walk CDLL n i <= i /\ walk CDLL n i <= n - i /\ 2 * walk CDLL n i <= n.
Proof.
  intros Hi. unfold walk. pose proof (Nat.div_mod n 2 ltac:(lia)). pose proof (Nat.mod_upper_bound n 2 ltac:(lia)).
  destruct (Nat.leb_spec i (n / 2)); split_and!; try done; lia.
Qed.
Print Assumptions C74_walk.

(** The two ends. *)
Theorem C74_ends s o k n v : a_list s o k n ->
  takes s (add_front_c o v) 0 /\ takes s (remove_front_c o) 0
  /\ takes s (add_end_c o v) (match k with CDLL => 0 | _ => n end)
  /\ takes s (remove_end_c o) (match k with CDLL => if Nat.leb n 1 then 0 else 1 | _ => n - 1 end).
Proof.
  intros H. split_and!; [by eapply tk_add_front|by eapply tk_remove_front| |].
  - eapply tk_eq; [by apply tk_add_end|]. destruct k; [done|apply walk_after|done].
  - eapply tk_eq; [by apply tk_remove_end|]. destruct k; try done. pose proof (walk_end n) as Hw.
    destruct (Nat.leb_spec n 1); [destruct n as [|[|n]]; try done; lia|].
    unfold walk in *. destruct (Nat.leb_spec (n - 1) (n / 2)); lia.
Qed.
Print Assumptions C74_ends.

(** A slice walks exactly to the last place that it selects, which is the lowest one if the
    step is negative, and not at all if it selects none.  A circular list has no slices. *)
Theorem C74_slice s o k n start stop step : a_list s o k n -> k <> CCLL -> default 1%Z step <> 0%Z ->
  let sel := selected n start stop (default 1%Z step) in
  exists m, takes s (getitem_c o (ISlice start stop step)) m /\ m <= n
    /\ (forall i, sel i -> ~ sel (i + default 1%Z step)%Z -> m = Z.to_nat (i + 1)%Z)
    /\ ((forall i, ~ sel i) -> m = 0).
Proof.
  intros H Hk Hst sel. pose proof (tk_slice o start stop step s k n H) as Ht. eexists. split; [exact Ht|].
  rewrite (proj2 (Z.eqb_neq _ _) Hst). destruct k; [| |done]; exact (slice_walk n start stop _ Hst).
Qed.
Print Assumptions C74_slice.
(** The hypotheses are met: [l[1:4:2]] of five elements selects 1 and 3 and walks 4 steps;
    [l[::-1]] selects 4, ..., 0 and walks one. *)
Example C74_slice_example :
  (let go i := match construct CLL (map (fun z => PNum (Fin z)) [1; 2; 3; 4; 5]%Z) st0 with
     | Ok o s => match getitem_c o i (s, 0) with Ok _ p => Some p.2 | _ => None end | _ => None end in
   go (ISlice (Some 1%Z) (Some 4%Z) (Some 2%Z)) = Some 4 /\ go (ISlice None None (Some (-1)%Z)) = Some 1)
  /\ selected 5 (Some 1%Z) (Some 4%Z) 2 3 /\ ~ selected 5 (Some 1%Z) (Some 4%Z) 2 (3 + 2)
  /\ selected 5 None None (-1) 0 /\ ~ selected 5 None None (-1) (0 + -1).
Proof.
  split; [split; by vm_compute|]. split_and!.
  - split; [by exists 1|done].
  - intros [_ H]. by vm_compute in H.
  - split; [by exists 4|done].
  - intros [_ H]. by vm_compute in H.
Qed.

(** Splitting walks the whole list, whatever the index. *)
Theorem C74_split s o k n z : a_list s o k n -> takes s (split_c o (IInt z)) n.
Proof. apply tk_split. Qed.
Print Assumptions C74_split.

(** Appending [m] elements to [n]. *)
Theorem C74_extend s o p k n m : a_list s o k n -> a_list s p k m -> o <> p ->
  takes s (extend_c o p) (extend_steps k n m).
Proof. apply tk_extend. Qed.
Print Assumptions C74_extend.

(** Rotating walks the whole list at least once and at most twice, whatever the distance. *)
Theorem C74_rotate k s o g d r : rep (mcls k) s o g ->
  at_least s (rotate_new_c o d r) (length g) /\ at_most s (rotate_new_c o d r) (2 * length g)
  /\ at_least s (rotate_inplace_c o d r) (length g) /\ at_most s (rotate_inplace_c o d r) (2 * length g).
Proof. intros H. destruct (rotate_new_steps k s o g d r H), (rotate_inplace_steps k s o g d r H). done. Qed.
Print Assumptions C74_rotate.

(** The elements of the witnesses. *)
Definition zeros (n : nat) : list pyval := repeat (PNum (Fin 0)) n.
Lemma make_zeros k n : exists o s g, construct (mcls k) (zeros n) st0 = Ok o s /\ rep (mcls k) s o g /\ length g = n.
Proof.
  assert (Forall storable (zeros n)) as Hs by (by apply Forall_forall; intros x ->%elem_of_list_In%repeat_spec).
  pose proof (construct_spec (mcls k) st0 (zeros n) Hs) as (o & s & E & g & Hr & Hv & _)%wp_elim.
  exists o, s, g. split; [done|]. split; [done|]. apply (f_equal length) in Hv.
  unfold zeros in Hv. rewrite !map_length, repeat_length in Hv. done.
Qed.

(** The documented O(min(k, n/2)) of splitting and O(min(k, n/2)), O(k % n) of rotating are wrong:
    no [a] and [b] make [a * k + b] a bound, in any class; each call below returns normally. *)
Theorem C74_split_refuted k : ~ exists a b : nat, forall items o s i x s' steps,
  construct (mcls k) items st0 = Ok o s -> i <= length items ->
  split_c o (IInt (Z.of_nat i)) (s, 0) = Ok x (s', steps) -> steps <= a * Nat.min i (length items / 2) + b.
Proof.
  intros (a & b & H). destruct (make_zeros k (S b)) as (o & s & g & Hc & Hr & Hg).
  assert (bad_index k (length g) (AInt (Z.of_nat 0)) = None) as Hb by (by rewrite Hg; destruct k).
  pose proof (split_ok k s o g (AInt (Z.of_nat 0)) Hr Hb) as (x & s' & E & _)%wp_elim. cbn [mix] in E.
  pose proof (co_split o (IInt (Z.of_nat 0)) s 0) as Hco. pose proof (tk_split o (Z.of_nat 0) s _ _ (rep_a_list _ _ _ _ Hr)) as [_ Hl].
  specialize (Hl 0). destruct (split_c o (IInt (Z.of_nat 0)) (s, 0)) as [y [s'' steps]|? [] |] eqn:Es; try congruence.
  specialize (H _ _ _ _ _ _ _ Hc (Nat.le_0_l _) Es). cbn [snd] in Hl. rewrite Hg in Hl. cbn in H. lia.
Qed.
Print Assumptions C74_split_refuted.
Theorem C74_rotate_refuted k : ~ exists a b : nat, forall items o s i r x s' steps,
  construct (mcls k) items st0 = Ok o s -> i <= length items ->
  rotate_new_c o (Some (Z.of_nat i)) r (s, 0) = Ok x (s', steps) -> steps <= a * Nat.min i (length items / 2) + b.
Proof.
  intros (a & b & H). destruct (make_zeros k (S b)) as (o & s & g & Hc & Hr & Hg).
  pose proof (rotate_spec k s o g (Z.of_nat 0) true Hr ltac:(done)) as (x & s' & E & _)%wp_elim.
  change (rotate o (Z.of_nat 0) true s) with (rotate_new o (Some (Z.of_nat 0)) true s) in E.
  pose proof (co_rotate_new o (Some (Z.of_nat 0)) true s 0) as Hco.
  pose proof (rotate_new_steps k s o g (Some (Z.of_nat 0)) true Hr) as [Hl _].
  specialize (Hl 0). destruct (rotate_new_c o (Some (Z.of_nat 0)) true (s, 0)) as [y [s'' steps]|? [] |] eqn:Es; try congruence.
  specialize (H _ _ _ _ _ _ _ _ Hc (Nat.le_0_l _) Es). cbn [snd] in Hl. rewrite Hg in Hl. cbn in H. lia.
Qed.
Print Assumptions C74_rotate_refuted.

Definition steps_of {S A} (c : M (S * nat) A) (s : S) : option nat :=
  match c (s, 0) with Ok _ p | Exc _ p => Some p.2 | Diverge => None end.
(** Element 7 of ten: seven nodes, three from the end, seven, and two of five in a circle. *)
Example C74_example :
  let s k n := match construct k (zeros n) st0 with Ok _ s => s | _ => st0 end in
  a_list (s CDLL 10) 0 CDLL 10
  /\ steps_of (getitem_c 0 (IInt 7)) (s CLL 10) = Some 7
  /\ steps_of (getitem_c 0 (IInt 7)) (s CDLL 10) = Some 3
  /\ steps_of (getitem_c 0 (IInt 7)) (s CCLL 5) = Some 2
  /\ steps_of (getitem_c 0 (IInt (-1))) (s CLL 10) = Some 9
  /\ steps_of (split_c 0 (IInt 1)) (s CDLL 10) = Some 10
  /\ steps_of (rotate_new_c 0 (Some 1%Z) true) (s CLL 10) = Some 11.
Proof. split; [exists (LObj CDLL (Some 0) (Some 9) 10); by vm_compute|]. by vm_compute. Qed.

(** ** C75 *)
Theorem C75_same :
  (forall op, counts (queue_call_c op) (queue_call op))
  /\ (forall op, counts (deque_call_c op) (deque_call op))
  /\ (forall op, counts (pq_call_c op) (pq_call op)).
Proof. split_and!; [apply co_queue_call|apply co_deque_call|apply co_pq_call]. Qed.
Print Assumptions C75_same.

(** Whatever happened before, a call on a Queue or a Deque passes at most one node. *)
Theorem C75_queue a q op : reached queue_call a q -> at_most q (queue_call_c op) 1.
Proof. intros (c & l & H)%reached_queue%reached_deque. by eapply am_queue_call. Qed.
Print Assumptions C75_queue.
Theorem C75_deque a q op : reached deque_call a q -> at_most q (deque_call_c op) 1.
Proof. intros (c & l & H)%reached_deque. by eapply am_deque_call. Qed.
Print Assumptions C75_deque.

(** So it is for a PriorityQueue, except that taking from [n] elements passes at least [n]
    and at most [2 * n] nodes. *)
Theorem C75_priority_queue a q : reached pq_call a q ->
  exists n, queue_len q = Ok n q
  /\ forall op, match op with
     | PDequeue _ => at_least q (pq_call_c op) n /\ at_most q (pq_call_c op) (2 * n)
     | _ => at_most q (pq_call_c op) 1
     end.
Proof.
  intros (c & x & g & H & _)%reached_pq. exists (length g). split.
  { rewrite (queue_len_ok _ _ _ (pq_queue _ _ _ H)). by rewrite !map_length. }
  intros op. destruct op; cbn [pq_call_c]; try (eapply am_le; [apply tk_lf|lia]); unfold as_warn, as_pair.
  - apply am_end. by eapply am_pq_enqueue.
  - destruct (pq_dequeue_steps c q g lowest H) as [Hm Hl]. split; [|by apply am_end].
    rewrite <- (Nat.add_0_r (length g)). eapply al_bind; [done|]. intros. apply tk_ret.
Qed.
Print Assumptions C75_priority_queue.

(** The documented constant time of PriorityQueue.dequeue is wrong. *)
Theorem C75_constant_refuted : ~ exists b, forall a q lowest r q' steps, reached pq_call a q ->
  pq_call_c (PDequeue lowest) (q, 0) = Ok r (q', steps) -> steps <= b.
Proof.
  intros (b & H). destruct (pq_new_matches PosInf CapPosInf) as (q0 & Hn & Hm); try done.
  set (ops := repeat (PEnqueue (PNum (Fin 0)) (PrNum (Fin 0))) (S b)).
  destruct (exact_pq_calls PosInf ops q0 new_pq Hm) as (q & Hc & Hq).
  destruct (many_refs (S b) new_pq 0) as [Hh Hl]; try done. fold ops in Hh, Hl. specialize (Hl ltac:(done)). cbn [Nat.add] in Hh.
  assert (reached pq_call CapPosInf q) as Hre by (by exists ops, q0, (fst (pq_refs PosInf new_pq ops))).
  destruct (C75_priority_queue CapPosInf q Hre) as (n & Hlen & Hst). destruct (Hst (PDequeue true)) as [Hle _].
  assert (n = S b) as ->.
  { destruct Hq as (g & Hg & Hp & _). rewrite (queue_len_ok _ _ _ (pq_queue _ _ _ Hg)) in Hlen. injection Hlen as <-.
    rewrite <- Hp, Hh. by rewrite map_length, repeat_length. }
  destruct (exact_dequeue PosInf q _ true Hq) as (q' & Hret & _).
  assert (exists w, fst (pq_ref PosInf (snd (pq_refs PosInf new_pq ops)) (PDequeue true)) = BRet false w) as (w & Hw).
  { cbn [pq_ref]. rewrite Hh, Hl. cbn [repeat first_of]. rewrite decide_True by done. by eexists. }
  rewrite Hw in Hret. assert (pq_call (PDequeue true) q = Ok (BRet false w) q') as E.
  { destruct Hret as [?|(e & [=] & _)]. done. }
  pose proof (co_pq_call (PDequeue true) q 0) as Hco. specialize (Hle 0).
  destruct (pq_call_c (PDequeue true) (q, 0)) as [r [q'' steps]|? []|] eqn:Es; try congruence.
  specialize (H _ _ _ _ _ _ Hre Es). cbn in Hle. lia.
Qed.
Print Assumptions C75_constant_refuted.

(** A full Queue forgets its oldest element (one node); of three elements a PriorityQueue
    finds the second and compares the remaining two. *)
Example C75_example :
  let v := PNum (Fin 0) in
  let after {O} (call : O -> M qst bout) a ops := match queue_new a st0 with
    | inr q0 => match calls call q0 ops with Some (_, q) => Some q | None => None end | inl _ => None end in
  let cost {O} (call : O -> M qst bout) (callc : O -> M (qst * nat) bout) a ops op :=
    match after call a ops with Some q => steps_of (callc op) q | None => None end in
  cost queue_call queue_call_c (CapRat (QArith_base.Qmake 2 1)) [QEnqueue v; QEnqueue v] (QEnqueue v) = Some 1
  /\ cost queue_call queue_call_c CapPosInf [QEnqueue v; QEnqueue v; QEnqueue v] QDequeue = Some 1
  /\ cost deque_call deque_call_c CapPosInf [DAppendRight v; DAppendRight v; DAppendRight v] (DAppendRight v) = Some 0
  /\ cost pq_call pq_call_c CapPosInf [PEnqueue v (PrNum (Fin 3)); PEnqueue v (PrNum (Fin 1)); PEnqueue v (PrNum (Fin 2))] (PDequeue true) = Some 4.
Proof. vm_compute. done. Qed.
