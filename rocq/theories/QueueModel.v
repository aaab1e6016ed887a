(** * Model of extra/lists/{stack,queue,deque,priority_queue}.py

    Queue, Deque and PriorityQueue run on the heap model of DoublyLinkedList.
    A call that warns returns [true] next to its result.  Not modelled:
    __repr__ and the printing helpers. *)
From Coq Require Import QArith.
From Verif Require Import Base ListModel.
Local Open Scope py_scope.
Close Scope Q_scope.

(** The [max_capacity] argument: a number (finite floats are rationals), an
    infinity, NaN, or anything whose type is not int or float (bool included). *)
Inductive cap_arg := CapRat (q : Q) | CapPosInf | CapNegInf | CapNaN | CapOther.

(** Python's [round] on a finite number: nearest integer, ties to even. *)
Definition py_round (q : Q) : Z :=
  let n := Qnum q in let d := Z.pos (Qden q) in
  let f := Z.div n d in let r := Z.modulo n d in
  if Z.ltb (2 * r) d then f
  else if Z.ltb d (2 * r) then (f + 1)%Z
  else if Z.even f then f else (f + 1)%Z.

(** stack.py:61-72 and queue.py:64-75, the capacity part of __init__
    ([round(nan)] raises ValueError). *)
Definition init_cap (a : cap_arg) : exn + num :=
  match a with
  | CapOther => inl TypeError
  | CapNegInf => inl ValueError
  | CapNaN => inl ValueError
  | CapPosInf => inr PosInf
  | CapRat q => if Z.ltb (Qnum q) 0 then inl ValueError else inr (Fin (py_round q))
  end.
(** Passing the stored capacity back to __init__ (stack.py:331, queue.py:423). *)
Definition cap_back (c : num) : cap_arg :=
  match c with Fin z => CapRat (inject_Z z) | PosInf => CapPosInf | NegInf => CapNegInf end.

(** ** Stack *)
Record stack := Stack { sk_items : list pyval; sk_cap : num }.

(** stack.py:61-72. *)
Definition stack_new (a : cap_arg) : exn + stack :=
  match init_cap a with inl e => inl e | inr c => inr (Stack [] c) end.
(** stack.py:131, 153, 178. *)
Definition stack_len : M stack nat := let! s := get_state in ret (length (sk_items s)).
Definition stack_is_empty : M stack bool :=
  let! s := get_state in ret (Nat.eqb (length (sk_items s)) 0).
Definition stack_is_full : M stack bool :=
  let! s := get_state in ret (bool_decide (Fin (Z.of_nat (length (sk_items s))) = sk_cap s)).
(** stack.py:217-224. *)
Definition stack_push (v : pyval) : M stack unit :=
  let! f := stack_is_full in
  if f then raise OverflowError
  else match validate_item v with
       | Some e => raise e
       | None => let! s := get_state in
                 put_state (Stack (sk_items s ++ [norm_item v]) (sk_cap s))
       end.
(** stack.py:256-258. *)
Definition stack_peek : M stack pyval :=
  let! e := stack_is_empty in
  if e then raise IndexError
  else let! s := get_state in
       match last (sk_items s) with Some v => ret v | None => raise IndexError end.
(** stack.py:294-300; [list.pop()] on an empty list raises IndexError. *)
Definition stack_pop : M stack (bool * pyval) :=
  let! e := stack_is_empty in
  if e then ret (true, PNone)
  else let! s := get_state in
       match last (sk_items s) with
       | Some v => put_state (Stack (removelast (sk_items s)) (sk_cap s)) ;; ret (false, v)
       | None => raise IndexError
       end.
(** stack.py:331. *)
Definition stack_clear : M stack unit :=
  let! s := get_state in
  match stack_new (cap_back (sk_cap s)) with
  | inl e => raise e
  | inr s' => put_state s'
  end.

(** ** Queue, Deque, PriorityQueue *)

(** The object's fields and the memory its container lives in ([q_min], [q_max]
    are only used by PriorityQueue). *)
Record qst := QSt { q_cap : num; q_box : nat; q_min : num; q_max : num; q_mem : st }.

Definition on_mem {A} (m : M st A) : M qst A := fun q =>
  match m (q_mem q) with
  | Ok a s => Ok a (QSt (q_cap q) (q_box q) (q_min q) (q_max q) s)
  | Exc e s => Exc e (QSt (q_cap q) (q_box q) (q_min q) (q_max q) s)
  | Diverge => Diverge
  end.
(** [self._container.f(...)] *)
Definition boxed {A} (f : nat -> M st A) : M qst A := let! q := get_state in on_mem (f (q_box q)).

(** queue.py:64-75 and priority_queue.py:193-195, run in memory [s]. *)
Definition queue_new (a : cap_arg) (s : st) : exn + qst :=
  match init_cap a with
  | inl e => inl e
  | inr c => match create_instance CDLL s with
             | Ok o s' => inr (QSt c o PosInf NegInf s')
             | _ => inl AssertionError (* unreachable: create_instance always succeeds *)
             end
  end.
(** queue.py:171, 193, 218. *)
Definition queue_len : M qst nat := boxed ll_len.
Definition queue_is_empty : M qst bool := boxed ll_is_empty.
Definition queue_is_full : M qst bool :=
  let! n := queue_len in let! q := get_state in
  ret (bool_decide (Fin (Z.of_nat n) = q_cap q)).
(** [self._max_capacity > 0] *)
Definition cap_positive : M qst bool := let! q := get_state in ret (num_ltb (Fin 0) (q_cap q)).

(** queue.py:260-269 _enqueue with an item; the result tells whether it warned. *)
Definition queue_enqueue_item (v : pyval) : M qst bool :=
  py_assert (match v with PNone => false | _ => true end) ;;
  let! full := queue_is_full in
  (if full then boxed remove_end else ret tt) ;;
  let! pos := cap_positive in
  (if pos then boxed (fun o => insert_at o 0 v) ;; ret tt else ret tt) ;;
  ret full.
(** queue.py:312-313. *)
Definition queue_enqueue (v : pyval) : M qst bool :=
  on_mem (check_item v) ;; queue_enqueue_item v.
(** [self._container._tail.get_data()], [self._container._head.get_data()] *)
Definition tail_data (o : nat) : M st pyval :=
  let! b := get_obj o in let! t := deref (o_tail b) in get_data t.
Definition head_data (o : nat) : M st pyval :=
  let! b := get_obj o in let! t := deref (o_head b) in get_data t.
(** queue.py:345-349. *)
Definition queue_top : M qst pyval :=
  let! e := queue_is_empty in if e then raise IndexError else boxed tail_data.
(** queue.py:384-392. *)
Definition queue_dequeue : M qst (bool * pyval) :=
  let! e := queue_is_empty in
  if e then ret (true, PNone)
  else let! v := boxed tail_data in boxed remove_end ;; ret (false, v).
(** queue.py:423 (also priority_queue.py:528): __init__ again. *)
Definition queue_clear : M qst unit :=
  let! q := get_state in
  match queue_new (cap_back (q_cap q)) (q_mem q) with
  | inl e => raise e
  | inr q' => put_state q'
  end.

(** deque.py:202. *)
Definition deque_append_left (v : pyval) : M qst bool := queue_enqueue v.
(** deque.py:245-254. *)
Definition deque_append_right (v : pyval) : M qst bool :=
  on_mem (check_item v) ;;
  let! full := queue_is_full in
  (if full then boxed remove_front else ret tt) ;;
  let! pos := cap_positive in
  (if pos then let! n := queue_len in boxed (fun o => insert_at o n v) ;; ret tt else ret tt) ;;
  ret full.
(** deque.py:285-289, 319. *)
Definition deque_get_left : M qst pyval :=
  let! e := queue_is_empty in if e then raise IndexError else boxed head_data.
Definition deque_get_right : M qst pyval := queue_top.
(** deque.py:354-360, 394. *)
Definition deque_pop_left : M qst (bool * pyval) :=
  let! e := queue_is_empty in
  if e then ret (true, PNone)
  else let! v := boxed head_data in boxed remove_front ;; ret (false, v).
Definition deque_pop_right : M qst (bool * pyval) := queue_dequeue.

(** The [priority] argument: omitted (then [random.randint(0, 100)] returned
    [r]), a number, or something else. *)
Inductive prio_arg := PrRandom (r : Z) | PrNum (n : num) | PrOther.

(** priority_queue.py:54-60 PriorityNode. *)
Definition new_prio_node (v : pyval) (p : num) : M st loc :=
  match validate_item v with
  | Some e => raise e
  | None => alloc_cell (Cell true (norm_item v) None None p None)
  end.
(** queue.py:260-269 _enqueue with a PriorityNode. *)
Definition queue_enqueue_node (l : loc) : M qst bool :=
  let! full := queue_is_full in
  (if full then boxed remove_end else ret tt) ;;
  let! pos := cap_positive in
  (if pos then boxed (fun o => insert_node_at o 0 l) ;; ret tt else ret tt) ;;
  ret full.
(** priority_queue.py:369-374. *)
Definition pq_enqueue (v : pyval) (p : prio_arg) : M qst bool :=
  on_mem (check_item v) ;;
  let! pr := match p with PrRandom r => ret (Fin r) | PrNum n => ret n | PrOther => raise TypeError end in
  let! l := on_mem (new_prio_node v pr) in
  let! q := get_state in
  put_state (QSt (q_cap q) (q_box q) (num_min (q_min q) pr) (num_max (q_max q) pr) (q_mem q)) ;;
  queue_enqueue_node l.

(** priority_queue.py:418-422, 433-437: fold over the priorities along [next]. *)
Fixpoint prio_fold (fuel : nat) (f : num -> num -> num) (acc : num) (curr : option loc) : M st num :=
  match curr with
  | None => ret acc
  | Some l =>
      match fuel with
      | 0 => diverge
      | S k => let! c := get_cell l in prio_fold k f (f (c_prio c) acc) (c_next c)
      end
  end.
Definition prio_scan (f : num -> num -> num) (start : num) (o : nat) : M st num :=
  let! e := ll_is_empty o in
  if e then ret start
  else let! b := get_obj o in
       let! s := get_state in
       prio_fold (S (length (s_nodes s))) f start (o_head b).
(** priority_queue.py:416-422, 431-437. *)
Definition update_min : M qst unit :=
  let! m := boxed (prio_scan num_min PosInf) in
  let! q := get_state in put_state (QSt (q_cap q) (q_box q) m (q_max q) (q_mem q)).
Definition update_max : M qst unit :=
  let! m := boxed (prio_scan num_max NegInf) in
  let! q := get_state in put_state (QSt (q_cap q) (q_box q) (q_min q) m (q_mem q)).

(** priority_queue.py:480-495: find the first node with the wanted priority. *)
Fixpoint prio_find (fuel : nat) (p : num) (curr : option loc) : M st (option loc) :=
  match curr with
  | None => ret None
  | Some l =>
      match fuel with
      | 0 => diverge
      | S k => let! c := get_cell l in
               if bool_decide (c_prio c = p) then ret (Some l) else prio_find k p (c_next c)
      end
  end.
(** priority_queue.py:473-496; when no node matches, [node_data] is unbound at
    the [return]. *)
Definition pq_dequeue (lowest : bool) : M qst (bool * pyval) :=
  let! e := queue_is_empty in
  if e then ret (true, PNone)
  else
    let! q := get_state in
    let! found := boxed (fun o =>
      let! b := get_obj o in let! s := get_state in
      prio_find (S (length (s_nodes s))) (if lowest then q_min q else q_max q) (o_head b)) in
    match found with
    | None => raise UnboundLocalError
    | Some l =>
        let! v := on_mem (get_data l) in
        let! pv := on_mem (get_prev l) in
        boxed (fun o => remove_node o pv l) ;;
        (if lowest then update_min else update_max) ;;
        ret (false, v)
    end.

(** ** Running a history of calls on one object *)

(** What the caller observes: the value returned (None included) and whether the
    call warned, a number, a boolean, or an exception. *)
Inductive bout := BRet (warned : bool) (v : pyval) | BNat (n : nat) | BBool (b : bool) | BExc (e : exn).

Inductive sop := SPush (v : pyval) | SPop | SPeek | SClear | SLen | SIsEmpty | SIsFull.
Inductive qop := QEnqueue (v : pyval) | QDequeue | QTop | QClear | QLen | QIsEmpty | QIsFull.
Inductive dop := DAppendLeft (v : pyval) | DAppendRight (v : pyval) | DPopLeft | DPopRight
  | DGetLeft | DGetRight | DClear | DLen | DIsEmpty | DIsFull.
Inductive pop := PEnqueue (v : pyval) (p : prio_arg) | PDequeue (lowest : bool) | PTop | PClear
  | PLen | PIsEmpty | PIsFull.

Definition as_unit {S} (m : M S unit) : M S bout := m ;; ret (BRet false PNone).
Definition as_warn {S} (m : M S bool) : M S bout := let! w := m in ret (BRet w PNone).
Definition as_val {S} (m : M S pyval) : M S bout := let! v := m in ret (BRet false v).
Definition as_pair {S} (m : M S (bool * pyval)) : M S bout := let! p := m in ret (BRet (fst p) (snd p)).
Definition as_nat {S} (m : M S nat) : M S bout := let! v := m in ret (BNat v).
Definition as_bool {S} (m : M S bool) : M S bout := let! v := m in ret (BBool v).

Definition stack_call (op : sop) : M stack bout :=
  match op with
  | SPush v => as_unit (stack_push v) | SPop => as_pair stack_pop | SPeek => as_val stack_peek
  | SClear => as_unit stack_clear | SLen => as_nat stack_len
  | SIsEmpty => as_bool stack_is_empty | SIsFull => as_bool stack_is_full
  end.
Definition queue_call (op : qop) : M qst bout :=
  match op with
  | QEnqueue v => as_warn (queue_enqueue v) | QDequeue => as_pair queue_dequeue | QTop => as_val queue_top
  | QClear => as_unit queue_clear | QLen => as_nat queue_len
  | QIsEmpty => as_bool queue_is_empty | QIsFull => as_bool queue_is_full
  end.
Definition deque_call (op : dop) : M qst bout :=
  match op with
  | DAppendLeft v => as_warn (deque_append_left v) | DAppendRight v => as_warn (deque_append_right v)
  | DPopLeft => as_pair deque_pop_left | DPopRight => as_pair deque_pop_right
  | DGetLeft => as_val deque_get_left | DGetRight => as_val deque_get_right
  | DClear => as_unit queue_clear | DLen => as_nat queue_len
  | DIsEmpty => as_bool queue_is_empty | DIsFull => as_bool queue_is_full
  end.
Definition pq_call (op : pop) : M qst bout :=
  match op with
  | PEnqueue v p => as_warn (pq_enqueue v p) | PDequeue b => as_pair (pq_dequeue b)
  | PTop => as_val queue_top
  | PClear => as_unit queue_clear | PLen => as_nat queue_len
  | PIsEmpty => as_bool queue_is_empty | PIsFull => as_bool queue_is_full
  end.

(** A caller that catches every exception and goes on; [None]: some call never returned. *)
Fixpoint calls {S O} (call : O -> M S bout) (s : S) (ops : list O) : option (list bout * S) :=
  match ops with
  | [] => Some ([], s)
  | op :: ops' =>
      match call op s with
      | Ok r s' => match calls call s' ops' with Some (rs, s'') => Some (r :: rs, s'') | None => None end
      | Exc e s' => match calls call s' ops' with Some (rs, s'') => Some (BExc e :: rs, s'') | None => None end
      | Diverge => None
      end
  end.

(** [x = X(max_capacity=a)] followed by the calls.  [inl e]: the constructor raised. *)
Definition stack_run (a : cap_arg) (ops : list sop) : exn + option (list bout) :=
  match stack_new a with inl e => inl e | inr s => inr (option_map fst (calls stack_call s ops)) end.
Definition queue_run (a : cap_arg) (ops : list qop) : exn + option (list bout) :=
  match queue_new a st0 with inl e => inl e | inr s => inr (option_map fst (calls queue_call s ops)) end.
Definition deque_run (a : cap_arg) (ops : list dop) : exn + option (list bout) :=
  match queue_new a st0 with inl e => inl e | inr s => inr (option_map fst (calls deque_call s ops)) end.
Definition pq_run (a : cap_arg) (ops : list pop) : exn + option (list bout) :=
  match queue_new a st0 with inl e => inl e | inr s => inr (option_map fst (calls pq_call s ops)) end.
