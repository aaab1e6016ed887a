(** * Linked lists and queues with the rounds of their loops counted (C74, C75)

    Functions of ListModel.v and QueueModel.v again, in a state that also holds a counter:
    [tick] at the beginning of a round of a loop, where the loops of the code go from node to
    node.  What contains no loop is lifted unchanged ([lf]).  C74_same and C75_same say that
    nothing but the counter differs. *)
From Verif Require Import Base ListModel QueueModel.
Local Open Scope py_scope.

Definition tick {S} : M (S * nat) unit := fun p => Ok tt (p.1, Datatypes.S p.2).
Definition lf {S A} (m : M S A) : M (S * nat) A := fun p =>
  match m p.1 with
  | Ok a s => Ok a (s, p.2)
  | Exc e s => Exc e (s, p.2)
  | Diverge => Diverge
  end.
Notation cst := (st * nat)%type.

(** linked_list.py:1003-1006. *)
Fixpoint get_node_loop_c (idx : nat) (prev curr : option loc) : M cst (option loc * option loc) :=
  match idx with
  | 0 => ret (prev, curr)
  | S i => tick ;;
           let! c := lf (deref curr) in
           let! nx := lf (get_next c) in
           get_node_loop_c i curr nx
  end.
(** linked_list.py:967-1007. *)
Definition ll_get_node_c (self : oid) (idx : nat) : M cst (option loc * option loc) :=
  let! o := lf (get_obj self) in get_node_loop_c idx None (o_head o).
(** doubly_linked_list.py:740-742. *)
Fixpoint back_loop_c (n : nat) (curr : option loc) : M cst (option loc) :=
  match n with
  | 0 => ret curr
  | S i => tick ;;
           let! c := lf (deref curr) in
           let! pv := lf (get_prev c) in
           back_loop_c i pv
  end.
(** doubly_linked_list.py:699-745. *)
Definition dll_get_node_c (self : oid) (idx : nat) : M cst (option loc * option loc) :=
  let! o := lf (get_obj self) in
  if Nat.leb idx (Nat.div (o_len o) 2) then ll_get_node_c self idx
  else
    let! prev_node := back_loop_c (o_len o - idx) (o_tail o) in
    let! p := lf (deref prev_node) in
    let! curr_node := lf (get_next p) in
    ret (prev_node, curr_node).
Definition get_node_c (self : oid) (idx : nat) : M cst (option loc * option loc) :=
  let! o := lf (get_obj self) in
  match o_cls o with CDLL => dll_get_node_c self idx | _ => ll_get_node_c self idx end.

(** linked_list.py:1226-1263 _insert, with a value and with a node. *)
Definition insert_at_c (self : oid) (idx : nat) (v : pyval) : M cst loc :=
  let! pc := get_node_c self idx in lf (insert_value self (fst pc) v).
Definition insert_node_at_c (self : oid) (idx : nat) (nw : loc) : M cst loc :=
  let! pc := get_node_c self idx in lf (insert_node self (fst pc) nw).
(** linked_list.py:1265-1321. *)
Definition add_front_c (self : oid) (v : pyval) : M cst unit :=
  lf (check_item v) ;; insert_at_c self 0 v ;; ret tt.
Definition add_end_c (self : oid) (v : pyval) : M cst unit :=
  lf (check_item v) ;; let! n := lf (ll_len self) in insert_at_c self n v ;; ret tt.
(** linked_list.py:1323-1366; circular_linked_list.py:771-823. *)
Definition insert_c (self : oid) (idx : pyidx) (v : pyval) : M cst unit :=
  let! o := lf (get_obj self) in
  lf (check_index self idx false false) ;;
  lf (check_item v) ;;
  match idx with
  | IInt z =>
      let z' := if is_cll (o_cls o) then Z.modulo z (Z.of_nat (o_len o) + 1) else z in
      insert_at_c self (Z.to_nat z') v ;; ret tt
  | _ => raise TypeError
  end.
(** linked_list.py:1417-1440. *)
Definition replace_value_c (self : oid) (idx : nat) (v : pyval) : M cst unit :=
  lf (py_assert (match v with PNone => false | _ => true end)) ;;
  let! pc := get_node_c self idx in
  let! n := lf (deref (snd pc)) in
  lf (set_data n v).
(** linked_list.py:1442-1490; circular_linked_list.py:883-936. *)
Definition setitem_c (self : oid) (idx : pyidx) (v : pyval) : M cst unit :=
  let! o := lf (get_obj self) in
  lf (check_index self idx false false) ;;
  match idx with
  | IInt z =>
      if is_cll (o_cls o) then
        replace_value_c self
          (Z.to_nat (if Nat.eqb (o_len o) 0 then 0%Z else Z.modulo z (Z.of_nat (o_len o)))) v
      else if Z.eqb z (Z.of_nat (o_len o)) then raise IndexError
      else lf (check_item v) ;; replace_value_c self (Z.to_nat z) v
  | _ => raise TypeError
  end.
(** linked_list.py:1541-1574. *)
Definition remove_idx_c (self : oid) (idx : nat) : M cst unit :=
  let! pc := get_node_c self idx in
  let! n := lf (match snd pc with Some n => ret n | None => raise AssertionError end) in
  lf (remove_node self (fst pc) n).
(** linked_list.py:1576-1613; circular_linked_list.py:990-1035. *)
Definition delitem_c (self : oid) (idx : pyidx) : M cst unit :=
  let! o := lf (get_obj self) in
  lf (check_index self idx false false) ;;
  match idx with
  | IInt z =>
      if is_cll (o_cls o) then
        if Nat.eqb (o_len o) 0 then ret tt
        else remove_idx_c self (Z.to_nat (Z.modulo z (Z.of_nat (o_len o))))
      else if Z.eqb z (Z.of_nat (o_len o)) then raise IndexError
      else remove_idx_c self (Z.to_nat z)
  | _ => raise TypeError
  end.
(** linked_list.py:1615-1658. *)
Definition remove_front_c (self : oid) : M cst unit :=
  let! e := lf (ll_is_empty self) in if e then ret tt else delitem_c self (IInt 0).
Definition remove_end_c (self : oid) : M cst unit :=
  let! e := lf (ll_is_empty self) in
  if e then ret tt
  else let! n := lf (ll_len self) in delitem_c self (IInt (Z.of_nat n - 1)).
(** linked_list.py:1118-1127. *)
Fixpoint slice_loop_c (out : oid) (indices : list Z) (n : nat) (counter : Z)
    (prev curr : option loc) : M cst unit :=
  match n with
  | 0 => ret tt
  | S n' =>
      tick ;;
      let! prev' := lf
        (if existsb (Z.eqb counter) indices then
           let! c := deref curr in
           let! d := get_data c in
           let! p := insert_value out prev d in ret (Some p)
         else ret prev) in
      let! c := lf (deref curr) in
      let! nx := lf (get_next c) in
      slice_loop_c out indices n' (counter + 1)%Z prev' nx
  end.
(** linked_list.py:1066-1137. *)
Definition ll_getitem_c (self : oid) (idx : pyidx) : M cst gres :=
  let! o := lf (get_obj self) in
  lf (check_index self idx true true) ;;
  match idx with
  | ISlice start stop step =>
      let st := default 1%Z step in
      if Z.eqb st 0 then raise ValueError
      else
        let ind := slice_indices (o_len o) start stop st in
        let max_idx := List.last ind (-1)%Z in
        let! out := lf (create_instance (o_cls o)) in
        slice_loop_c out ind (Z.to_nat (max_idx + 1)) 0 None (o_head o) ;;
        ret (GList out)
  | IInt z =>
      if Z.eqb z (Z.of_nat (o_len o)) then raise IndexError
      else
        let z' := if Z.leb z (-1) then (z + Z.of_nat (o_len o))%Z else z in
        let! pc := get_node_c self (Z.to_nat z') in
        let! n := lf (deref (snd pc)) in
        let! d := lf (get_data n) in
        ret (GVal d)
  | IOther => raise TypeError
  end.
(** circular_linked_list.py:607-657. *)
Definition cll_getitem_c (self : oid) (idx : pyidx) : M cst gres :=
  let! o := lf (get_obj self) in
  lf (check_index self idx false false) ;;
  if Nat.eqb (o_len o) 0 then raise IndexError
  else match idx with
       | IInt z => ll_getitem_c self (IInt (Z.modulo z (Z.of_nat (o_len o))))
       | _ => raise TypeError
       end.
Definition getitem_c (self : oid) (idx : pyidx) : M cst gres :=
  let! o := lf (get_obj self) in
  match o_cls o with CCLL => cll_getitem_c self idx | _ => ll_getitem_c self idx end.

(** linked_list.py:1785-1849. *)
Fixpoint split_loop_c (dst : oid) (n : nat) (prev curr : option loc)
    : M cst (option loc * option loc) :=
  match n with
  | 0 => ret (prev, curr)
  | S n' => tick ;;
            let! c := lf (deref curr) in
            let! d := lf (get_data c) in
            let! p := lf (insert_value dst prev d) in
            let! nx := lf (get_next c) in
            split_loop_c dst n' (Some p) nx
  end.
Definition split_at_c (self : oid) (idx : nat) : M cst (oid * oid) :=
  let! o := lf (get_obj self) in
  let! lft := lf (create_instance (o_cls o)) in
  let! rgt := lf (create_instance (o_cls o)) in
  if Nat.eqb (o_len o) 0 then ret (lft, rgt)
  else
    let! pc := split_loop_c lft idx None (o_head o) in
    split_loop_c rgt (o_len o - idx) (fst pc) (snd pc) ;;
    ret (lft, rgt).
(** linked_list.py:1851-1899; circular_linked_list.py:1162-1218. *)
Definition split_c (self : oid) (idx : pyidx) : M cst (oid * oid) :=
  let! o := lf (get_obj self) in
  lf (check_index self idx false false) ;;
  match idx with
  | IInt z =>
      let z' := if is_cll (o_cls o)
                then (if Nat.eqb (o_len o) 0 then 0%Z else Z.modulo z (Z.of_nat (o_len o)))
                else z in
      split_at_c self (Z.to_nat z')
  | _ => raise TypeError
  end.
(** linked_list.py:1368-1414. *)
Definition ll_extend_c (self other : oid) : M cst unit :=
  let! oo := lf (get_obj other) in
  if Nat.eqb (o_len oo) 0 then ret tt
  else
    let! o := lf (get_obj self) in
    if Nat.eqb (o_len o) 0 then
      lf (put_obj self (set_len (set_head o (o_head oo)) (o_len oo)))
    else
      let! pc := get_node_c self (o_len o) in
      let! last := lf (deref (fst pc)) in
      lf (set_next last (o_head oo)) ;;
      let! o' := lf (get_obj self) in
      let! oo' := lf (get_obj other) in
      lf (put_obj self (set_len o' (o_len o' + o_len oo'))).
(** circular_linked_list.py:877-880. *)
Fixpoint cll_extend_loop_c (fuel : nat) (self other : oid) (counter : nat)
    (curr : option loc) (prev : option loc) : M cst unit :=
  let! oo := lf (get_obj other) in
  if Nat.ltb counter (o_len oo) then
    match fuel with
    | 0 => diverge
    | S f =>
        tick ;;
        let! c := lf (deref curr) in
        let! d := lf (get_data c) in
        let! o := lf (get_obj self) in
        let! nw := lf (new_node (is_dll (o_cls o)) d) in
        lf (cll_insert_node self prev nw) ;;
        let! nx := lf (get_next c) in
        cll_extend_loop_c f self other (S counter) nx (Some nw)
    end
  else ret tt.
(** circular_linked_list.py:825-880. *)
Definition cll_extend_c (fuel : nat) (self other : oid) : M cst unit :=
  let! oo := lf (get_obj other) in
  if Nat.eqb (o_len oo) 0 then ret tt
  else
    let! o := lf (get_obj self) in
    let! pc := (if Nat.eqb (o_len o) 0 then ret (None, None)
                else get_node_loop_c (o_len o - 1) None (o_head o)) in
    let prev := if Nat.eqb (o_len o) 0 then None else snd pc in
    cll_extend_loop_c fuel self other 0 (o_head oo) prev.
(** doubly_linked_list.py:959-1001: no loop. *)
Definition extend_c (self other : oid) : M cst unit :=
  let! o := lf (get_obj self) in
  let! oo := lf (get_obj other) in
  if is_instance (o_cls oo) (o_cls o) then
    match o_cls o with
    | CLL => ll_extend_c self other
    | CDLL => lf (dll_extend self other)
    | CCLL => cll_extend_c (S (o_len oo)) self other
    end
  else raise TypeError.
(** linked_list.py:1969-2021, 2023-2117, doubly_linked_list.py:1312-1411. *)
Definition rotate_c (self : oid) (d : Z) (right : bool) : M cst oid :=
  let! o := lf (get_obj self) in
  let! lr := split_c self (IInt (calibrate (o_len o) d right)) in
  extend_c (snd lr) (fst lr) ;;
  ret (snd lr).
Definition rotate_new_c (self : oid) (d : option Z) (right : bool) : M cst oid :=
  let! z := lf (check_distance d) in rotate_c self z right.
Definition rotate_inplace_c (self : oid) (d : option Z) (right : bool) : M cst unit :=
  let! z := lf (check_distance d) in
  let! r := rotate_c self z right in
  let! ro := lf (get_obj r) in
  let! o := lf (get_obj self) in
  lf (put_obj self (if is_dll (o_cls o) then set_tail (set_head o (o_head ro)) (o_tail ro)
                else set_head o (o_head ro))).

(** ** Queue, Deque, PriorityQueue *)
Notation cqst := (qst * nat)%type.
Definition on_mem_c {A} (m : M cst A) : M cqst A := fun p =>
  let q := p.1 in
  match m (q_mem q, p.2) with
  | Ok a s => Ok a (QSt (q_cap q) (q_box q) (q_min q) (q_max q) s.1, s.2)
  | Exc e s => Exc e (QSt (q_cap q) (q_box q) (q_min q) (q_max q) s.1, s.2)
  | Diverge => Diverge
  end.
Definition boxed_c {A} (f : nat -> M cst A) : M cqst A := let! q := lf get_state in on_mem_c (f (q_box q)).
(** queue.py:260-269. *)
Definition queue_enqueue_item_c (v : pyval) : M cqst bool :=
  lf (py_assert (match v with PNone => false | _ => true end)) ;;
  let! full := lf queue_is_full in
  (if full then boxed_c remove_end_c else ret tt) ;;
  let! pos := lf cap_positive in
  (if pos then boxed_c (fun o => insert_at_c o 0 v) ;; ret tt else ret tt) ;;
  ret full.
(** queue.py:312-313. *)
Definition queue_enqueue_c (v : pyval) : M cqst bool :=
  lf (on_mem (check_item v)) ;; queue_enqueue_item_c v.
(** queue.py:384-392. *)
Definition queue_dequeue_c : M cqst (bool * pyval) :=
  let! e := lf queue_is_empty in
  if e then ret (true, PNone)
  else let! v := lf (boxed tail_data) in boxed_c remove_end_c ;; ret (false, v).
(** deque.py:245-254. *)
Definition deque_append_right_c (v : pyval) : M cqst bool :=
  lf (on_mem (check_item v)) ;;
  let! full := lf queue_is_full in
  (if full then boxed_c remove_front_c else ret tt) ;;
  let! pos := lf cap_positive in
  (if pos then let! n := lf queue_len in boxed_c (fun o => insert_at_c o n v) ;; ret tt else ret tt) ;;
  ret full.
(** deque.py:354-360. *)
Definition deque_pop_left_c : M cqst (bool * pyval) :=
  let! e := lf queue_is_empty in
  if e then ret (true, PNone)
  else let! v := lf (boxed head_data) in boxed_c remove_front_c ;; ret (false, v).
(** queue.py:260-269 with a PriorityNode; priority_queue.py:369-374. *)
Definition queue_enqueue_node_c (l : loc) : M cqst bool :=
  let! full := lf queue_is_full in
  (if full then boxed_c remove_end_c else ret tt) ;;
  let! pos := lf cap_positive in
  (if pos then boxed_c (fun o => insert_node_at_c o 0 l) ;; ret tt else ret tt) ;;
  ret full.
Definition pq_enqueue_c (v : pyval) (p : prio_arg) : M cqst bool :=
  lf (on_mem (check_item v)) ;;
  let! pr := lf (match p with PrRandom r => ret (Fin r) | PrNum n => ret n | PrOther => raise TypeError end) in
  let! l := lf (on_mem (new_prio_node v pr)) in
  let! q := lf get_state in
  lf (put_state (QSt (q_cap q) (q_box q) (num_min (q_min q) pr) (num_max (q_max q) pr) (q_mem q))) ;;
  queue_enqueue_node_c l.
(** priority_queue.py:419-422, 434-437. *)
Fixpoint prio_fold_c (fuel : nat) (f : num -> num -> num) (acc : num) (curr : option loc) : M cst num :=
  match curr with
  | None => ret acc
  | Some l =>
      match fuel with
      | 0 => diverge
      | S k => tick ;; let! c := lf (get_cell l) in prio_fold_c k f (f (c_prio c) acc) (c_next c)
      end
  end.
Definition prio_scan_c (f : num -> num -> num) (start : num) (o : nat) : M cst num :=
  let! e := lf (ll_is_empty o) in
  if e then ret start
  else let! b := lf (get_obj o) in
       let! s := lf get_state in
       prio_fold_c (S (length (s_nodes s))) f start (o_head b).
(** priority_queue.py:416-422, 431-437. *)
Definition update_min_c : M cqst unit :=
  let! m := boxed_c (prio_scan_c num_min PosInf) in
  let! q := lf get_state in lf (put_state (QSt (q_cap q) (q_box q) m (q_max q) (q_mem q))).
Definition update_max_c : M cqst unit :=
  let! m := boxed_c (prio_scan_c num_max NegInf) in
  let! q := lf get_state in lf (put_state (QSt (q_cap q) (q_box q) (q_min q) m (q_mem q))).
(** priority_queue.py:480-495. *)
Fixpoint prio_find_c (fuel : nat) (p : num) (curr : option loc) : M cst (option loc) :=
  match curr with
  | None => ret None
  | Some l =>
      match fuel with
      | 0 => diverge
      | S k => tick ;;
               let! c := lf (get_cell l) in
               if bool_decide (c_prio c = p) then ret (Some l) else prio_find_c k p (c_next c)
      end
  end.
(** priority_queue.py:473-496. *)
Definition pq_dequeue_c (lowest : bool) : M cqst (bool * pyval) :=
  let! e := lf queue_is_empty in
  if e then ret (true, PNone)
  else
    let! q := lf get_state in
    let! found := boxed_c (fun o =>
      let! b := lf (get_obj o) in let! s := lf get_state in
      prio_find_c (S (length (s_nodes s))) (if lowest then q_min q else q_max q) (o_head b)) in
    match found with
    | None => raise UnboundLocalError
    | Some l =>
        let! v := lf (on_mem (get_data l)) in
        let! pv := lf (on_mem (get_prev l)) in
        lf (boxed (fun o => remove_node o pv l)) ;;
        (if lowest then update_min_c else update_max_c) ;;
        ret (false, v)
    end.

(** The calls (QueueModel.v); those without a case here contain no loop. *)
Definition queue_call_c (op : qop) : M cqst bout :=
  match op with
  | QEnqueue v => as_warn (queue_enqueue_c v) | QDequeue => as_pair queue_dequeue_c
  | _ => lf (queue_call op)
  end.
Definition deque_call_c (op : dop) : M cqst bout :=
  match op with
  | DAppendLeft v => as_warn (queue_enqueue_c v) | DAppendRight v => as_warn (deque_append_right_c v)
  | DPopLeft => as_pair deque_pop_left_c | DPopRight => as_pair queue_dequeue_c
  | _ => lf (deque_call op)
  end.
Definition pq_call_c (op : pop) : M cqst bout :=
  match op with
  | PEnqueue v p => as_warn (pq_enqueue_c v p) | PDequeue b => as_pair (pq_dequeue_c b)
  | _ => lf (pq_call op)
  end.
