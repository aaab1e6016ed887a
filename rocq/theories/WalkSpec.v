(** * How far the calls on linked lists walk (C74, C75): specification

    [c] runs in a state with a counter ([tick], WalkModel.v). *)
From Verif Require Import Base ListModel ListSpec QueueModel.
Local Open Scope py_scope.

(** Started in [s], [c] does not make more than / makes at least / makes exactly [n] rounds
    (an exception may cut it short). *)
Definition at_most {S A} (s : S) (c : M (S * nat) A) (n : nat) : Prop :=
  forall k, match c (s, k) with Ok _ p | Exc _ p => p.2 <= k + n | Diverge => True end.
Definition at_least {S A} (s : S) (c : M (S * nat) A) (n : nat) : Prop :=
  forall k, match c (s, k) with Ok _ p => k + n <= p.2 | _ => True end.
Definition takes {S A} (s : S) (c : M (S * nat) A) (n : nat) : Prop := at_most s c n /\ at_least s c n.
(** [c] does what [m] does. *)
Definition counts {S A} (c : M (S * nat) A) (m : M S A) : Prop :=
  forall s k, match c (s, k) with
              | Ok a p => m s = Ok a p.1
              | Exc e p => m s = Exc e p.1
              | Diverge => m s = Diverge
              end.

(** The nodes between the start of the walk and place [i] of a list of [n] elements: from the
    front, in a DoublyLinkedList from the nearer end. *)
Definition walk (k : lcls) (n i : nat) : nat :=
  match k with CDLL => if Nat.leb i (Nat.div n 2) then i else n - i | _ => i end.
(** The place that the index [z >= 0] means: a circular list goes round. *)
Definition place (k : lcls) (n : nat) (z : Z) : nat :=
  if is_cll k then (if Nat.eqb n 0 then 0 else Z.to_nat (z mod Z.of_nat n)) else Z.to_nat z.
(** [o] is a list of class [k] and [len(o)] is [n]. *)
Definition a_list (s : st) (o : oid) (k : lcls) (n : nat) : Prop :=
  exists ob, s_objs s !! o = Some ob /\ o_cls ob = k /\ o_len ob = n.
(** The nodes passed by [x.extend(y)], lists of [n] and [m] elements. *)
Definition extend_steps (k : lcls) (n m : nat) : nat :=
  if Nat.eqb m 0 then 0
  else match k with CLL => n | CDLL => 0 | CCLL => (n - 1) + m end.
(** [l[start:stop:step]] of a list of [n] elements selects the element at place [i]: [i] is
    [start], [start + step], ... before [stop] in the direction of travel. *)
Definition selected (n : nat) (start stop : option Z) (step i : Z) : Prop :=
  let n := Z.of_nat n in
  (exists j : nat, i = slice_bound n step start (if bool_decide (step < 0) then n - 1 else 0) + Z.of_nat j * step)%Z
  /\ if bool_decide (step < 0)%Z then (slice_bound n step stop (-1) < i)%Z else (i < slice_bound n step stop n)%Z.
(** The object made with [max_capacity = a] is in state [q] after some calls. *)
Definition reached {O} (call : O -> M qst bout) (a : cap_arg) (q : qst) : Prop :=
  exists ops q0 rs, queue_new a st0 = inr q0 /\ calls call q0 ops = Some (rs, q).
