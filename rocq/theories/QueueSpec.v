(** * What Stack, Queue, Deque and PriorityQueue promise, on plain lists.

    Shares with QueueModel.v only the call alphabets and the observable outcomes. *)
From Coq Require Import QArith Qabs.
From Verif Require Import Base NumOrd QueueModel.
Close Scope Q_scope.

(** The capacity a [max_capacity] argument stands for: the nearest integer, the even
    one when two are equally near. *)
Definition nearest (q : Q) (z : Z) : Prop :=
  (Qabs (inject_Z z - q) <= 1 # 2)%Q /\ ((Qabs (inject_Z z - q) == 1 # 2)%Q -> Z.Even z).
Definition capacity_of (a : cap_arg) (c : num) : Prop :=
  match a with
  | CapPosInf => c = PosInf
  | CapRat q => (0 <= q)%Q /\ exists z, c = Fin z /\ (0 <= z)%Z /\ nearest q z
  | _ => False
  end.

(** Arguments the constructors reject. *)
Definition bad_capacity (a : cap_arg) : option exn :=
  match a with
  | CapOther => Some TypeError
  | CapNegInf | CapNaN => Some ValueError
  | CapRat q => if Qlt_le_dec q 0 then Some ValueError else None
  | CapPosInf => None
  end.

Definition is_full (c : num) (l : list pyval) : bool :=
  match c with Fin z => Z.eqb z (Z.of_nat (length l)) | _ => false end.
Definition within (c : num) (n : nat) : Prop :=
  match c with Fin z => (Z.of_nat n <= z)%Z | _ => True end.
Definition rejected (v : pyval) : option exn :=
  match v with PNone => Some ValueError | PNodeObj _ _ | PExtraObj => Some TypeError | _ => None end.

(** ** Bounded LIFO: the top is the head of the list. *)
Definition stack_spec (c : num) (l : list pyval) (op : sop) : bout * list pyval :=
  match op with
  | SPush v =>
      if is_full c l then (BExc OverflowError, l)
      else match rejected v with
           | Some e => (BExc e, l)
           | None => (BRet false PNone, norm_item v :: l)
           end
  | SPop => match l with [] => (BRet true PNone, []) | v :: l' => (BRet false v, l') end
  | SPeek => match l with [] => (BExc IndexError, []) | v :: _ => (BRet false v, l) end
  | SClear => (BRet false PNone, [])
  | SLen => (BNat (length l), l)
  | SIsEmpty => (BBool (bool_decide (l = [])), l)
  | SIsFull => (BBool (is_full c l), l)
  end.

(** ** Bounded double-ended queue, leftmost first.  A full one drops an element at
    the other end, and one of capacity 0 never holds anything. *)
Definition push_left (c : num) (v : pyval) (l : list pyval) : list pyval :=
  if is_full c l then match l with [] => [] | _ => norm_item v :: removelast l end
  else norm_item v :: l.
Definition push_right (c : num) (v : pyval) (l : list pyval) : list pyval :=
  if is_full c l then match l with [] => [] | _ :: r => r ++ [norm_item v] end
  else l ++ [norm_item v].
Definition deque_spec (c : num) (l : list pyval) (op : dop) : bout * list pyval :=
  match op with
  | DAppendLeft v =>
      match rejected v with Some e => (BExc e, l) | None => (BRet (is_full c l) PNone, push_left c v l) end
  | DAppendRight v =>
      match rejected v with Some e => (BExc e, l) | None => (BRet (is_full c l) PNone, push_right c v l) end
  | DPopLeft => match l with [] => (BRet true PNone, []) | v :: l' => (BRet false v, l') end
  | DPopRight => match last l with None => (BRet true PNone, l) | Some v => (BRet false v, removelast l) end
  | DGetLeft => match l with [] => (BExc IndexError, []) | v :: _ => (BRet false v, l) end
  | DGetRight => match last l with None => (BExc IndexError, l) | Some v => (BRet false v, l) end
  | DClear => (BRet false PNone, [])
  | DLen => (BNat (length l), l)
  | DIsEmpty => (BBool (bool_decide (l = [])), l)
  | DIsFull => (BBool (is_full c l), l)
  end.

(** ** Bounded FIFO, oldest first. *)
Definition queue_spec (c : num) (l : list pyval) (op : qop) : bout * list pyval :=
  match op with
  | QEnqueue v =>
      match rejected v with Some e => (BExc e, l) | None => (BRet (is_full c l) PNone, push_right c v l) end
  | QDequeue => match l with [] => (BRet true PNone, []) | v :: l' => (BRet false v, l') end
  | QTop => match l with [] => (BExc IndexError, []) | v :: _ => (BRet false v, l) end
  | QClear => (BRet false PNone, [])
  | QLen => (BNat (length l), l)
  | QIsEmpty => (BBool (bool_decide (l = [])), l)
  | QIsFull => (BBool (is_full c l), l)
  end.

Fixpoint spec_calls {O} (step : list pyval -> O -> bout * list pyval) (l : list pyval) (ops : list O)
    : list bout * list pyval :=
  match ops with
  | [] => ([], l)
  | op :: ops' => let '(r, l') := step l op in
                  let '(rs, l'') := spec_calls step l' ops' in (r :: rs, l'')
  end.

(** ** Priority queue: the items with the priorities they were enqueued with, newest
    first. *)
Definition extreme (lowest : bool) (p : num) (l : list (pyval * num)) : Prop :=
  Forall (fun x => if lowest then num_le p (snd x) else num_le (snd x) p) l.
Definition prio_of (p : prio_arg) : option num :=
  match p with PrRandom r => Some (Fin r) | PrNum n => Some n | PrOther => None end.
Definition pq_push (c : num) (x : pyval * num) (l : list (pyval * num)) : list (pyval * num) :=
  if is_full c (map fst l) then match l with [] => [] | _ => x :: removelast l end
  else x :: l.

(** What one call may do.  [pq_may c l op r l']: with contents [l], the ideal priority
    queue of capacity [c] may answer [op] with [r] and have contents [l'] then. *)
Inductive pq_may (c : num) (l : list (pyval * num)) : pop -> bout -> list (pyval * num) -> Prop :=
| may_enqueue v p pr : rejected v = None -> prio_of p = Some pr ->
    pq_may c l (PEnqueue v p) (BRet (is_full c (map fst l)) PNone) (pq_push c (norm_item v, pr) l)
| may_reject v p e : rejected v = Some e -> pq_may c l (PEnqueue v p) (BExc e) l
| may_bad_prio v p : rejected v = None -> prio_of p = None -> pq_may c l (PEnqueue v p) (BExc TypeError) l
| may_dequeue lowest l1 v p l2 : l = l1 ++ (v, p) :: l2 -> extreme lowest p l ->
    pq_may c l (PDequeue lowest) (BRet false v) (l1 ++ l2)
| may_dequeue_empty lowest : l = [] -> pq_may c l (PDequeue lowest) (BRet true PNone) l
| may_top v p l' : l = l' ++ [(v, p)] -> pq_may c l PTop (BRet false v) l
| may_top_empty : l = [] -> pq_may c l PTop (BExc IndexError) l
| may_clear : pq_may c l PClear (BRet false PNone) []
| may_len : pq_may c l PLen (BNat (length l)) l
| may_empty : pq_may c l PIsEmpty (BBool (bool_decide (l = []))) l
| may_full : pq_may c l PIsFull (BBool (is_full c (map fst l))) l.

(** The two ways in which the package deviates.
    [dev_unbound]: a dequeue of a non-empty queue raises UnboundLocalError and changes
    nothing.  [dev_inherit]: when there are at least three items and the newest one is
    returned (rightly: its priority is extreme), the second newest item takes over
    the priority of the returned one. *)
Inductive pq_deviates (l : list (pyval * num)) : pop -> bout -> list (pyval * num) -> Prop :=
| dev_unbound lowest : l <> [] -> pq_deviates l (PDequeue lowest) (BExc UnboundLocalError) l
| dev_inherit lowest v p w q l2 : l = (v, p) :: (w, q) :: l2 -> l2 <> [] -> extreme lowest p l ->
    pq_deviates l (PDequeue lowest) (BRet false v) ((w, p) :: l2).

(** A history answered step by step as allowed by [step]. *)
Inductive answered (step : list (pyval * num) -> pop -> bout -> list (pyval * num) -> Prop)
  : list (pyval * num) -> list pop -> list bout -> list (pyval * num) -> Prop :=
| answered_nil l : answered step l [] [] l
| answered_cons l op r l' ops rs l'' :
    step l op r l' -> answered step l' ops rs l'' -> answered step l (op :: ops) (r :: rs) l''.
