(** * Heap model of extra/lists/{linked_list,doubly_linked_list,circular_linked_list}.py

    Nodes live in [s_nodes], list objects in [s_objs]; a reference is an index.
    Virtual dispatch on the class of a list object is a [match] on [o_cls].
    Python ints used as lengths/counters are [nat]; user supplied indices are [Z].
    Not modelled here: __repr__ and the printing helpers. *)
From Verif Require Import Base.
Local Open Scope py_scope.

Notation loc := nat (only parsing).
Notation oid := nat (only parsing).

(** linked_list.py:36-40 Node, doubly_linked_list.py:38-39 DoublyNode,
    priority_queue.py:54-60 PriorityNode, skip_list.py:130-134 SkipNode.
    One record for the four node classes: [c_dbl] tells whether the node is a
    [DoublyNode]; [c_prev] is only meaningful then; [c_prio] only for
    [PriorityNode]; [c_down] only for [SkipNode]. *)
Record cell := Cell {
  c_dbl : bool; c_data : pyval; c_next : option loc; c_prev : option loc;
  c_prio : num; c_down : option loc }.

Inductive lcls := CLL | CDLL | CCLL.
Global Instance lcls_eq_dec : EqDecision lcls.
Proof. solve_decision. Defined.

(** linked_list.py:220-222, doubly_linked_list.py:204-207 ([o_tail] is only
    meaningful for DoublyLinkedList). *)
Record lobj := LObj { o_cls : lcls; o_head : option loc; o_tail : option loc; o_len : nat }.

Record st := St { s_nodes : list cell; s_objs : list lobj }.
Definition st0 : st := St [] [].

Definition upd_data (c : cell) v := Cell (c_dbl c) v (c_next c) (c_prev c) (c_prio c) (c_down c).
Definition upd_next (c : cell) n := Cell (c_dbl c) (c_data c) n (c_prev c) (c_prio c) (c_down c).
Definition upd_prev (c : cell) p := Cell (c_dbl c) (c_data c) (c_next c) p (c_prio c) (c_down c).
Definition upd_down (c : cell) d := Cell (c_dbl c) (c_data c) (c_next c) (c_prev c) (c_prio c) d.

Definition set_head (o : lobj) h := LObj (o_cls o) h (o_tail o) (o_len o).
Definition set_tail (o : lobj) t := LObj (o_cls o) (o_head o) t (o_len o).
Definition set_len (o : lobj) n := LObj (o_cls o) (o_head o) (o_tail o) n.

(** Memory primitives.  A dangling index cannot occur; it is given an
    AttributeError so that no normal-looking value is ever made up. *)
Definition get_cell (l : loc) : M st cell := fun s =>
  match s_nodes s !! l with Some c => Ok c s | None => Exc AttributeError s end.
Definition put_cell (l : loc) (c : cell) : M st unit := fun s =>
  Ok tt (St (<[l := c]> (s_nodes s)) (s_objs s)).
Definition alloc_cell (c : cell) : M st loc := fun s =>
  Ok (length (s_nodes s)) (St (s_nodes s ++ [c]) (s_objs s)).
Definition get_obj (o : oid) : M st lobj := fun s =>
  match s_objs s !! o with Some c => Ok c s | None => Exc AttributeError s end.
Definition put_obj (o : oid) (c : lobj) : M st unit := fun s =>
  Ok tt (St (s_nodes s) (<[o := c]> (s_objs s))).
Definition alloc_obj (c : lobj) : M st oid := fun s =>
  Ok (length (s_objs s)) (St (s_nodes s) (s_objs s ++ [c])).

(** linked_list.py:60-69, 90-99 get_data/get_next; doubly_linked_list.py:60-70 get_prev. *)
Definition get_data (l : loc) : M st pyval := let! c := get_cell l in ret (c_data c).
Definition get_next (l : loc) : M st (option loc) := let! c := get_cell l in ret (c_next c).
Definition get_prev (l : loc) : M st (option loc) := let! c := get_cell l in ret (c_prev c).

(** linked_list.py:71-88 Node.set_data. *)
Definition set_data (l : loc) (v : pyval) : M st unit :=
  match validate_item v with
  | Some e => raise e
  | None => let! c := get_cell l in put_cell l (upd_data c (norm_item v))
  end.
(** Direct assignment [node._data = v]. *)
Definition set_data_raw (l : loc) (v : pyval) : M st unit :=
  let! c := get_cell l in put_cell l (upd_data c v).

(** linked_list.py:101-121 Node.set_next; doubly_linked_list.py:96-118
    DoublyNode.set_next (which also sets the other node's [_prev] and rejects
    nodes that are not DoublyNodes). *)
Definition set_next (l : loc) (n : option loc) : M st unit :=
  let! c := get_cell l in
  match n with
  | None => put_cell l (upd_next c None)
  | Some x =>
      if c_dbl c then
        let! cx := get_cell x in
        if c_dbl cx then
          put_cell l (upd_next c (Some x)) ;;
          let! cx' := get_cell x in
          put_cell x (upd_prev cx' (Some l))
        else raise TypeError
      else put_cell l (upd_next c (Some x))
  end.

(** doubly_linked_list.py:72-94 DoublyNode.set_prev. *)
Definition set_prev (l : loc) (p : option loc) : M st unit :=
  let! c := get_cell l in
  match p with
  | None => put_cell l (upd_prev c None)
  | Some x =>
      let! cx := get_cell x in
      if c_dbl cx then
        put_cell l (upd_prev c (Some x)) ;;
        let! cx' := get_cell x in
        put_cell x (upd_next cx' (Some l))
      else raise TypeError
  end.

(** The [_basic_node] of the class: linked_list.py:154, doubly_linked_list.py:130
    (CircularLinkedList inherits Node). *)
Definition is_dll (k : lcls) : bool := match k with CDLL => true | _ => false end.
Definition is_cll (k : lcls) : bool := match k with CCLL => true | _ => false end.

(** [self._basic_node(item)]: linked_list.py:22-40, doubly_linked_list.py:21-39. *)
Definition new_node (dbl : bool) (item : pyval) : M st loc :=
  match validate_item item with
  | Some e => raise e
  | None => alloc_cell (Cell dbl (norm_item item) None None (Fin 0) None)
  end.

(** linked_list.py:239-248, doubly_linked_list.py:226-235,
    circular_linked_list.py:94-103 [_create_instance]; also [X()]. *)
Definition create_instance (k : lcls) : M st oid := alloc_obj (LObj k None None 0).

(** linked_list.py:404-445 __len__ / is_empty. *)
Definition ll_len (self : oid) : M st nat := let! o := get_obj self in ret (o_len o).
Definition ll_is_empty (self : oid) : M st bool :=
  let! o := get_obj self in ret (Nat.eqb (o_len o) 0).

(** linked_list.py:967-1007 LinkedList._get_node: [idx] steps from the head. *)
Fixpoint get_node_loop (idx : nat) (prev curr : option loc) : M st (option loc * option loc) :=
  match idx with
  | 0 => ret (prev, curr)
  | S i => let! c := deref curr in
           let! nx := get_next c in
           get_node_loop i curr nx
  end.
Definition ll_get_node (self : oid) (idx : nat) : M st (option loc * option loc) :=
  let! o := get_obj self in get_node_loop idx None (o_head o).

(** doubly_linked_list.py:738-742: [n] steps backwards. *)
Fixpoint back_loop (n : nat) (curr : option loc) : M st (option loc) :=
  match n with
  | 0 => ret curr
  | S i => let! c := deref curr in
           let! pv := get_prev c in
           back_loop i pv
  end.
(** doubly_linked_list.py:699-745 DoublyLinkedList._get_node. *)
Definition dll_get_node (self : oid) (idx : nat) : M st (option loc * option loc) :=
  let! o := get_obj self in
  if Nat.leb idx (Nat.div (o_len o) 2) then ll_get_node self idx
  else
    let! prev_node := back_loop (o_len o - idx) (o_tail o) in
    let! p := deref prev_node in
    let! curr_node := get_next p in
    ret (prev_node, curr_node).
Definition get_node (self : oid) (idx : nat) : M st (option loc * option loc) :=
  let! o := get_obj self in
  match o_cls o with CDLL => dll_get_node self idx | _ => ll_get_node self idx end.

(** User supplied index arguments. *)
Inductive pyidx :=
| IInt (z : Z)
| ISlice (start stop step : option Z)
| IOther.

(** linked_list.py:1009-1064 and circular_linked_list.py:553-605 _validate_index. *)
Definition validate_index (k : lcls) (len : nat) (idx : pyidx) (neg slice : bool) : option exn :=
  match idx with
  | ISlice _ _ _ => if slice then None else Some IndexError
  | IOther => Some TypeError
  | IInt z =>
      if (Z.leb z (-1)) && negb neg then Some IndexError
      else if is_cll k then None
      else if (Z.ltb z (- Z.of_nat len)) || (Z.ltb (Z.of_nat len) z) then Some IndexError
      else None
  end.
Definition check_index (self : oid) (idx : pyidx) (neg slice : bool) : M st unit :=
  let! o := get_obj self in
  match validate_index (o_cls o) (o_len o) idx neg slice with
  | Some e => raise e
  | None => ret tt
  end.

(** linked_list.py:1140-1187 LinkedList._insert_node. *)
Definition ll_insert_node (self : oid) (prev_node : option loc) (new_node : loc) : M st loc :=
  let! o := get_obj self in
  (if Nat.eqb (o_len o) 0 then
     set_next new_node None ;;
     put_obj self (set_head o (Some new_node))
   else match prev_node with
        | None =>
            set_next new_node (o_head o) ;;
            put_obj self (set_head o (Some new_node))
        | Some p =>
            let! pn := get_next p in
            set_next new_node pn ;;
            set_next p (Some new_node)
        end) ;;
  let! o' := get_obj self in
  put_obj self (set_len o' (S (o_len o'))) ;;
  ret new_node.

(** doubly_linked_list.py:795-856 DoublyLinkedList._insert_node (called with a node). *)
Definition dll_insert_node (self : oid) (prev_node : option loc) (new_node : loc) : M st loc :=
  let! o := get_obj self in
  (if Nat.eqb (o_len o) 0 then
     put_obj self (set_tail (set_head o (Some new_node)) (Some new_node))
   else if Nat.eqb (o_len o) 1 then
     match prev_node with
     | None =>
         set_next new_node (o_tail o) ;;
         put_obj self (set_head o (Some new_node))
     | Some _ =>
         put_obj self (set_tail o (Some new_node)) ;;
         let! hd := deref (o_head o) in
         set_next hd (Some new_node)
     end
   else
     match prev_node with
     | None =>
         set_next new_node (o_head o) ;;
         put_obj self (set_head o (Some new_node))
     | Some p =>
         let! pn := get_next p in
         match pn with
         | None =>
             let! tl := deref (o_tail o) in
             set_next tl (Some new_node) ;;
             put_obj self (set_tail o (Some new_node))
         | Some x =>
             set_next new_node (Some x) ;;
             set_next p (Some new_node)
         end
     end) ;;
  let! o' := get_obj self in
  put_obj self (set_len o' (S (o_len o'))) ;;
  ret new_node.

(** circular_linked_list.py:660-708 CircularLinkedList._insert_node. *)
Definition cll_insert_node (self : oid) (prev_node : option loc) (new_node : loc) : M st loc :=
  let! o := get_obj self in
  let! r :=
    (if Nat.eqb (o_len o) 0 then
       set_next new_node (Some new_node) ;;
       put_obj self (set_head o (Some new_node)) ;;
       ret new_node
     else match prev_node with
          | None =>
              let! hd := deref (o_head o) in
              let! hn := get_next hd in
              set_next new_node hn ;;
              set_next hd (Some new_node) ;;
              let! nd := get_data new_node in
              let! hdd := get_data hd in
              set_data_raw new_node hdd ;;
              set_data_raw hd nd ;;
              ret hd
          | Some p =>
              let! pn := get_next p in
              set_next new_node pn ;;
              set_next p (Some new_node) ;;
              ret new_node
          end) in
  let! o' := get_obj self in
  put_obj self (set_len o' (S (o_len o'))) ;;
  ret r.

Definition insert_node (self : oid) (prev_node : option loc) (nw : loc) : M st loc :=
  let! o := get_obj self in
  match o_cls o with
  | CLL => ll_insert_node self prev_node nw
  | CDLL => dll_insert_node self prev_node nw
  | CCLL => cll_insert_node self prev_node nw
  end.

(** linked_list.py:1189-1224 _insert_value (the [assert value is not None ...] of
    line 1221 precedes the node construction). *)
Definition insert_value (self : oid) (prev_node : option loc) (v : pyval) : M st loc :=
  let! o := get_obj self in
  py_assert (match v with PNone => false | PNodeObj _ _ => false | _ => true end) ;;
  let! nw := new_node (is_dll (o_cls o)) v in
  insert_node self prev_node nw.

(** linked_list.py:1226-1263 _insert with a plain value (list users never get to
    pass a Node: [_validate_item] rejects it) and with a ready-made node
    (priority_queue.py:374 through queue.py:269). *)
Definition insert_at (self : oid) (idx : nat) (v : pyval) : M st loc :=
  let! pc := get_node self idx in
  insert_value self (fst pc) v.
Definition insert_node_at (self : oid) (idx : nat) (nw : loc) : M st loc :=
  let! pc := get_node self idx in
  insert_node self (fst pc) nw.

Definition check_item (v : pyval) : M st unit :=
  match validate_item v with Some e => raise e | None => ret tt end.

(** linked_list.py:1265-1321, doubly_linked_list.py:858-912,
    circular_linked_list.py:710-769 add_front / add_end. *)
Definition add_front (self : oid) (v : pyval) : M st unit :=
  check_item v ;; insert_at self 0 v ;; ret tt.
Definition add_end (self : oid) (v : pyval) : M st unit :=
  check_item v ;; let! n := ll_len self in insert_at self n v ;; ret tt.

(** linked_list.py:1323-1366 insert; circular_linked_list.py:771-823. *)
Definition insert (self : oid) (idx : pyidx) (v : pyval) : M st unit :=
  let! o := get_obj self in
  check_index self idx false false ;;
  check_item v ;;
  match idx with
  | IInt z =>
      let z' := if is_cll (o_cls o) then Z.modulo z (Z.of_nat (o_len o) + 1) else z in
      insert_at self (Z.to_nat z') v ;; ret tt
  | _ => raise TypeError (* unreachable: rejected by check_index *)
  end.

(** linked_list.py:1417-1440 _replace_value. *)
Definition replace_value (self : oid) (idx : nat) (v : pyval) : M st unit :=
  py_assert (match v with PNone => false | _ => true end) ;;
  let! pc := get_node self idx in
  let! n := deref (snd pc) in
  set_data n v.

(** linked_list.py:1442-1490 __setitem__; circular_linked_list.py:883-936. *)
Definition setitem (self : oid) (idx : pyidx) (v : pyval) : M st unit :=
  let! o := get_obj self in
  check_index self idx false false ;;
  match idx with
  | IInt z =>
      if is_cll (o_cls o) then
        replace_value self
          (Z.to_nat (if Nat.eqb (o_len o) 0 then 0%Z else Z.modulo z (Z.of_nat (o_len o)))) v
      else if Z.eqb z (Z.of_nat (o_len o)) then raise IndexError
      else check_item v ;; replace_value self (Z.to_nat z) v
  | _ => raise TypeError
  end.

(** linked_list.py:1493-1539 LinkedList._remove_node. *)
Definition ll_remove_node (self : oid) (prev_node : option loc) (node : loc) : M st unit :=
  let! o := get_obj self in
  let! next_node := get_next node in
  match prev_node with
  | None =>
      let! hd := deref (o_head o) in
      if Nat.eqb (o_len o) 1 then set_data_raw hd PNone
      else
        let! nx := deref next_node in
        let! nn := get_next nx in
        set_next hd nn ;;
        let! d := get_data nx in
        set_data hd d
  | Some p => set_next p next_node
  end ;;
  let! o' := get_obj self in
  put_obj self (set_len o' (o_len o' - 1)).

(** doubly_linked_list.py:1055-1110 DoublyLinkedList._remove_node.  Line 1094
    assigns the attribute [data] (not [_data]) of head and tail: no effect on the
    modelled fields, only a dereference of both. *)
Definition dll_remove_node (self : oid) (prev_node : option loc) (node : loc) : M st unit :=
  let! o := get_obj self in
  let! next_node := get_next node in
  let dec := let! o' := get_obj self in put_obj self (set_len o' (o_len o' - 1)) in
  if Nat.eqb (o_len o) 1 then
    let! _ := deref (o_tail o) in let! _ := deref (o_head o) in dec
  else if Nat.eqb (o_len o) 2 then
    match prev_node, next_node with
    | None, nx =>
        let! n := deref nx in
        set_prev n None ;;
        put_obj self (set_head o (Some n))
    | Some p, None =>
        set_next p None ;;
        put_obj self (set_tail o (Some p))
    | Some _, Some _ => ret tt
    end ;;
    dec
  else
    match next_node with
    | None =>
        let! p := deref prev_node in
        set_next p None ;;
        put_obj self (set_tail o (Some p)) ;;
        dec
    | Some _ => ll_remove_node self prev_node node
    end.

(** circular_linked_list.py:939-988 CircularLinkedList._remove_node. *)
Definition cll_remove_node (self : oid) (prev_node : option loc) (node : loc) : M st unit :=
  let! o := get_obj self in
  match prev_node with
  | None =>
      let! hd := deref (o_head o) in
      if Nat.eqb (o_len o) 1 then set_data_raw hd PNone
      else
        let! nth := get_next hd in
        let! n := deref nth in
        let! d := get_data n in
        set_data hd d ;;
        let! nn := get_next n in
        set_next hd nn
  | Some p => let! nx := get_next node in set_next p nx
  end ;;
  let! o' := get_obj self in
  put_obj self (set_len o' (o_len o' - 1)).

Definition remove_node (self : oid) (prev_node : option loc) (node : loc) : M st unit :=
  let! o := get_obj self in
  match o_cls o with
  | CLL => ll_remove_node self prev_node node
  | CDLL => dll_remove_node self prev_node node
  | CCLL => cll_remove_node self prev_node node
  end.

(** linked_list.py:1541-1574 _remove_idx. *)
Definition remove_idx (self : oid) (idx : nat) : M st unit :=
  let! pc := get_node self idx in
  let! n := (match snd pc with Some n => ret n | None => raise AssertionError end) in
  remove_node self (fst pc) n.

(** linked_list.py:1576-1613 __delitem__; circular_linked_list.py:990-1035. *)
Definition delitem (self : oid) (idx : pyidx) : M st unit :=
  let! o := get_obj self in
  check_index self idx false false ;;
  match idx with
  | IInt z =>
      if is_cll (o_cls o) then
        if Nat.eqb (o_len o) 0 then ret tt
        else remove_idx self (Z.to_nat (Z.modulo z (Z.of_nat (o_len o))))
      else if Z.eqb z (Z.of_nat (o_len o)) then raise IndexError
      else remove_idx self (Z.to_nat z)
  | _ => raise TypeError
  end.

(** linked_list.py:1615-1658 remove_front / remove_end. *)
Definition remove_front (self : oid) : M st unit :=
  let! e := ll_is_empty self in if e then ret tt else delitem self (IInt 0).
Definition remove_end (self : oid) : M st unit :=
  let! e := ll_is_empty self in
  if e then ret tt
  else let! n := ll_len self in delitem self (IInt (Z.of_nat n - 1)).

(** linked_list.py:1660-1715 _remove_value: [n] = iterations left,
    [total_length - counter]. *)
Fixpoint remove_value_loop (self : oid) (v : pyval) (all : bool)
    (n : nat) (found : bool) (prev curr : option loc) : M st unit :=
  match n with
  | 0 => ret tt
  | S n' =>
      if negb all && found then ret tt
      else
        let! c := deref curr in
        let! d := get_data c in
        if py_eq d v then
          remove_node self prev c ;;
          let! o := get_obj self in
          let! curr' := (match prev with
                         | Some p => get_next p
                         | None => ret (o_head o)
                         end) in
          remove_value_loop self v all n' true prev curr'
        else
          let! nx := get_next c in
          remove_value_loop self v all n' found (Some c) nx
  end.

(** linked_list.py:1717-1761 remove; [all = None] stands for a non-bool argument. *)
Definition remove (self : oid) (v : pyval) (all : option bool) : M st unit :=
  match all with
  | None => raise TypeError
  | Some b =>
      check_item v ;;
      let! o := get_obj self in
      remove_value_loop self v b (o_len o) false None (o_head o)
  end.

(** linked_list.py:1763-1782 clear ([self.__init__()]: lines 220-222, and
    doubly_linked_list.py:204-207 which also resets the tail). *)
Definition clear (self : oid) : M st unit :=
  let! o := get_obj self in
  put_obj self (LObj (o_cls o) None (if is_dll (o_cls o) then None else o_tail o) 0).

(** linked_list.py:448-473 __iter__ consumed to the end without interleaved
    mutation, as in to_list (2151-2175): [n] items starting at [curr]. *)
Fixpoint iter_from (n : nat) (curr : option loc) : M st (list pyval) :=
  match n with
  | 0 => ret []
  | S n' => let! c := deref curr in
            let! d := get_data c in
            let! nx := get_next c in
            let! r := iter_from n' nx in
            ret (d :: r)
  end.
Definition to_list (self : oid) : M st (list pyval) :=
  let! o := get_obj self in iter_from (o_len o) (o_head o).

(** linked_list.py:2177-2209 count. *)
Definition count (self : oid) (v : pyval) : M st nat :=
  let! o := get_obj self in
  let v' := match v with
            | PNodeObj d x => if implb (is_dll (o_cls o)) d then x else v
            | _ => v end in
  let! vs := to_list self in
  ret (length (List.filter (fun x => py_eq x v') vs)).

(** linked_list.py:884-931 _search. *)
Fixpoint search_loop (fuel : nat) (v : pyval) (curr : loc) : M st loc :=
  match fuel with
  | 0 => diverge
  | S f => let! nx := get_next curr in
           match nx with
           | None => ret curr
           | Some x => let! d := get_data curr in
                       if py_eq d v then ret curr else search_loop f v x
           end
  end.
(** linked_list.py:933-965 __contains__. The fuel exceeds the number of cells, so
    exhausting it means the chain revisits a node. *)
Definition ll_contains (self : oid) (v : pyval) : M st bool :=
  let! o := get_obj self in
  match v with
  | PNone => ret false
  | _ =>
    if Nat.eqb (o_len o) 0 then ret false
    else
      py_assert (match v with PNodeObj _ _ => false | _ => true end) ;;
      let! hd := (match o_head o with Some h => ret h | None => raise AssertionError end) in
      let! s := get_state in
      let! f := search_loop (S (length (s_nodes s))) v hd in
      let! d := get_data f in
      ret (py_eq d v)
  end.
(** circular_linked_list.py:520-551 __contains__. *)
Definition cll_contains (self : oid) (v : pyval) : M st bool :=
  let! vs := to_list self in
  ret (existsb (fun x => py_eq x v) vs).
Definition contains (self : oid) (v : pyval) : M st bool :=
  let! o := get_obj self in
  match o_cls o with CCLL => cll_contains self v | _ => ll_contains self v end.

(** Copying loop shared by [copy] (2211-2239), [__getitem__] slices and [_split]:
    insert the values one after the other behind [prev]. *)
Fixpoint insert_all (self : oid) (prev : option loc) (vs : list pyval) : M st (option loc) :=
  match vs with
  | [] => ret prev
  | v :: r => let! p := insert_value self prev v in insert_all self (Some p) r
  end.

(** linked_list.py:2211-2239 copy. *)
Definition copy (self : oid) : M st oid :=
  let! o := get_obj self in
  let! c := create_instance (o_cls o) in
  if Nat.eqb (o_len o) 0 then ret c
  else let! vs := to_list self in insert_all c None vs ;; ret c.

(** linked_list.py:2120-2149 reverse. *)
Fixpoint reverse_loop (rev : oid) (n : nat) (curr : option loc) : M st unit :=
  match n with
  | 0 => ret tt
  | S n' => let! c := deref curr in
            let! d := get_data c in
            add_front rev d ;;
            let! nx := get_next c in
            reverse_loop rev n' nx
  end.
Definition reverse (self : oid) : M st oid :=
  let! o := get_obj self in
  let! rev := create_instance (o_cls o) in
  reverse_loop rev (o_len o) (o_head o) ;;
  ret rev.

(** linked_list.py:233-237: the constructor's loop over a plain iterable. *)
Fixpoint init_loop (self : oid) (prev : option loc) (items : list pyval) : M st unit :=
  match items with
  | [] => ret tt
  | v :: r => check_item v ;;
              let! p := insert_value self prev v in
              init_loop self (Some p) r
  end.
(** linked_list.py:157-237, doubly_linked_list.py:133-224, circular_linked_list.py:26-92:
    [X(iterable)] for an iterable of items that is not an [X]. *)
Definition construct (k : lcls) (items : list pyval) : M st oid :=
  let! self := create_instance k in
  init_loop self None items ;;
  ret self.

(** [isinstance(x, k)] for the three list classes. *)
Definition is_instance (c k : lcls) : bool :=
  match k with CLL => true | _ => bool_decide (c = k) end.

(** [X(other)] where [other] is a list object of the package (lines 225-228,
    doubly_linked_list.py:210-214): an instance of X is *shared*, anything else
    is iterated. *)
Definition construct_from (k : lcls) (other : oid) : M st oid :=
  let! oo := get_obj other in
  if is_instance (o_cls oo) k then
    alloc_obj (LObj k (o_head oo) (if is_dll k then o_tail oo else None) (o_len oo))
  else
    let! vs := to_list other in
    construct k vs.

(** linked_list.py:1785-1849 _split; the two while loops. *)
Fixpoint split_loop (dst : oid) (n : nat) (prev curr : option loc)
    : M st (option loc * option loc) :=
  match n with
  | 0 => ret (prev, curr)
  | S n' => let! c := deref curr in
            let! d := get_data c in
            let! p := insert_value dst prev d in
            let! nx := get_next c in
            split_loop dst n' (Some p) nx
  end.
Definition split_at (self : oid) (idx : nat) : M st (oid * oid) :=
  let! o := get_obj self in
  let! lft := create_instance (o_cls o) in
  let! rgt := create_instance (o_cls o) in
  if Nat.eqb (o_len o) 0 then ret (lft, rgt)
  else
    let! pc := split_loop lft idx None (o_head o) in
    split_loop rgt (o_len o - idx) (fst pc) (snd pc) ;;
    ret (lft, rgt).

(** linked_list.py:1851-1899 split; circular_linked_list.py:1162-1218. *)
Definition split (self : oid) (idx : pyidx) : M st (oid * oid) :=
  let! o := get_obj self in
  check_index self idx false false ;;
  match idx with
  | IInt z =>
      let z' := if is_cll (o_cls o)
                then (if Nat.eqb (o_len o) 0 then 0%Z else Z.modulo z (Z.of_nat (o_len o)))
                else z in
      split_at self (Z.to_nat z')
  | _ => raise TypeError
  end.

(** linked_list.py:1368-1414 LinkedList.extend. *)
Definition ll_extend (self other : oid) : M st unit :=
  let! oo := get_obj other in
  if Nat.eqb (o_len oo) 0 then ret tt
  else
    let! o := get_obj self in
    if Nat.eqb (o_len o) 0 then
      put_obj self (set_len (set_head o (o_head oo)) (o_len oo))
    else
      let! pc := get_node self (o_len o) in
      let! last := deref (fst pc) in
      set_next last (o_head oo) ;;
      let! o' := get_obj self in
      let! oo' := get_obj other in
      put_obj self (set_len o' (o_len o' + o_len oo')).

(** doubly_linked_list.py:959-1001 DoublyLinkedList.extend. *)
Definition dll_extend (self other : oid) : M st unit :=
  let! oo := get_obj other in
  if Nat.eqb (o_len oo) 0 then ret tt
  else
    let! o := get_obj self in
    if Nat.eqb (o_len o) 0 then
      put_obj self (LObj (o_cls o) (o_head oo) (o_tail oo) (o_len o + o_len oo))
    else
      let! tl := deref (o_tail o) in
      set_next tl (o_head oo) ;;
      let! o' := get_obj self in
      let! oo' := get_obj other in
      put_obj self (LObj (o_cls o') (o_head o') (o_tail oo') (o_len o' + o_len oo')).

(** circular_linked_list.py:877-880: the generator [for item in other] reads
    [other._length] (linked_list.py:470) before every element, so with
    [other is self] the bound moves.  Fuel = maximal number of iterations. *)
Fixpoint cll_extend_loop (fuel : nat) (self other : oid) (counter : nat)
    (curr : option loc) (prev : option loc) : M st unit :=
  let! oo := get_obj other in
  if Nat.ltb counter (o_len oo) then
    match fuel with
    | 0 => diverge
    | S f =>
        let! c := deref curr in
        let! d := get_data c in
        let! o := get_obj self in
        let! nw := new_node (is_dll (o_cls o)) d in
        cll_insert_node self prev nw ;;
        let! nx := get_next c in
        cll_extend_loop f self other (S counter) nx (Some nw)
    end
  else ret tt.
(** circular_linked_list.py:825-880 CircularLinkedList.extend. *)
Definition cll_extend (fuel : nat) (self other : oid) : M st unit :=
  let! oo := get_obj other in
  if Nat.eqb (o_len oo) 0 then ret tt
  else
    let! o := get_obj self in
    let! pc := (if Nat.eqb (o_len o) 0 then ret (None, None)
                else get_node_loop (o_len o - 1) None (o_head o)) in
    let prev := if Nat.eqb (o_len o) 0 then None else snd pc in
    cll_extend_loop fuel self other 0 (o_head oo) prev.

(** extend with the type check; the fuel only matters for CircularLinkedList and
    is the number of elements of [other], more than which it can only need when
    the list grows under the iteration. *)
Definition extend (self other : oid) : M st unit :=
  let! o := get_obj self in
  let! oo := get_obj other in
  if is_instance (o_cls oo) (o_cls o) then
    match o_cls o with
    | CLL => ll_extend self other
    | CDLL => dll_extend self other
    | CCLL => cll_extend (S (o_len oo)) self other
    end
  else raise TypeError.

(** linked_list.py:1936-1967 __calibrate_rotation_distance. *)
Definition calibrate (len : nat) (d : Z) (right : bool) : Z :=
  let d' := if Nat.ltb 0 len then Z.modulo d (Z.of_nat len) else 0%Z in
  if right then (Z.of_nat len - d')%Z else d'.
(** linked_list.py:1969-2021 _rotate. *)
Definition rotate (self : oid) (d : Z) (right : bool) : M st oid :=
  let! o := get_obj self in
  let! lr := split self (IInt (calibrate (o_len o) d right)) in
  extend (snd lr) (fst lr) ;;
  ret (snd lr).
(** linked_list.py:1902-1934 _validate_rotation_distance ([None]: not an int). *)
Definition check_distance (d : option Z) : M st Z :=
  match d with
  | None => raise TypeError
  | Some z => if Z.ltb z 0 then raise ValueError else ret z
  end.
(** linked_list.py:2023-2117, doubly_linked_list.py:1312-1411 rotate_left /
    rotate_right.  The type check of the flag [inplace] is not modelled. *)
Definition rotate_new (self : oid) (d : option Z) (right : bool) : M st oid :=
  let! z := check_distance d in rotate self z right.
Definition rotate_inplace (self : oid) (d : option Z) (right : bool) : M st unit :=
  let! z := check_distance d in
  let! r := rotate self z right in
  let! ro := get_obj r in
  let! o := get_obj self in
  put_obj self (if is_dll (o_cls o) then set_tail (set_head o (o_head ro)) (o_tail ro)
                else set_head o (o_head ro)).

(** Python's [slice.indices(n)] and [range]: CPython's PySlice_AdjustIndices. *)
Definition clamp_start (n step : Z) (x : option Z) : Z :=
  match x with
  | None => if Z.ltb step 0 then (n - 1)%Z else 0%Z
  | Some s =>
      if Z.ltb s 0 then
        if Z.ltb (s + n) 0 then (if Z.ltb step 0 then -1 else 0)%Z else (s + n)%Z
      else if Z.leb n s then (if Z.ltb step 0 then n - 1 else n)%Z else s
  end.
Definition clamp_stop (n step : Z) (x : option Z) : Z :=
  match x with
  | None => if Z.ltb step 0 then (-1)%Z else n
  | Some s =>
      if Z.ltb s 0 then
        if Z.ltb (s + n) 0 then (if Z.ltb step 0 then -1 else 0)%Z else (s + n)%Z
      else if Z.leb n s then (if Z.ltb step 0 then n - 1 else n)%Z else s
  end.
Definition range_len (a b step : Z) : nat :=
  if Z.ltb 0 step then (if Z.ltb a b then Z.to_nat ((b - a - 1) / step + 1) else 0)
  else (if Z.ltb b a then Z.to_nat ((a - b - 1) / (- step) + 1) else 0).
Definition range_list (a b step : Z) : list Z :=
  map (fun i => a + Z.of_nat i * step)%Z (seq 0 (range_len a b step)).
Definition slice_indices (n : nat) (start stop : option Z) (step : Z) : list Z :=
  range_list (clamp_start (Z.of_nat n) step start) (clamp_stop (Z.of_nat n) step stop) step.

(** linked_list.py:1118-1127: [n] iterations left, current [counter]. *)
Fixpoint slice_loop (out : oid) (indices : list Z) (n : nat) (counter : Z)
    (prev curr : option loc) : M st unit :=
  match n with
  | 0 => ret tt
  | S n' =>
      let! prev' :=
        (if existsb (Z.eqb counter) indices then
           let! c := deref curr in
           let! d := get_data c in
           let! p := insert_value out prev d in ret (Some p)
         else ret prev) in
      let! c := deref curr in
      let! nx := get_next c in
      slice_loop out indices n' (counter + 1)%Z prev' nx
  end.

Inductive gres := GVal (v : pyval) | GList (o : oid).

(** linked_list.py:1066-1137 LinkedList.__getitem__. *)
Definition ll_getitem (self : oid) (idx : pyidx) : M st gres :=
  let! o := get_obj self in
  check_index self idx true true ;;
  match idx with
  | ISlice start stop step =>
      let st := default 1%Z step in
      if Z.eqb st 0 then raise ValueError
      else
        let ind := slice_indices (o_len o) start stop st in
        let max_idx := List.last ind (-1)%Z in
        let! out := create_instance (o_cls o) in
        slice_loop out ind (Z.to_nat (max_idx + 1)) 0 None (o_head o) ;;
        ret (GList out)
  | IInt z =>
      if Z.eqb z (Z.of_nat (o_len o)) then raise IndexError
      else
        let z' := if Z.leb z (-1) then (z + Z.of_nat (o_len o))%Z else z in
        let! pc := get_node self (Z.to_nat z') in
        let! n := deref (snd pc) in
        let! d := get_data n in
        ret (GVal d)
  | IOther => raise TypeError
  end.
(** circular_linked_list.py:607-657 __getitem__. *)
Definition cll_getitem (self : oid) (idx : pyidx) : M st gres :=
  let! o := get_obj self in
  check_index self idx false false ;;
  if Nat.eqb (o_len o) 0 then raise IndexError
  else match idx with
       | IInt z => ll_getitem self (IInt (Z.modulo z (Z.of_nat (o_len o))))
       | _ => raise TypeError
       end.
Definition getitem (self : oid) (idx : pyidx) : M st gres :=
  let! o := get_obj self in
  match o_cls o with CCLL => cll_getitem self idx | _ => ll_getitem self idx end.

(** Comparison operators (module [operator]). *)
Inductive cmpop := OpEq | OpLt | OpLe | OpGt | OpGe.
Definition py_op (op : cmpop) (a b : pyval) : option bool :=
  match op with
  | OpEq => Some (py_eq a b)
  | OpLt => py_lt a b
  | OpLe => match py_lt b a with Some r => Some (negb r) | None => None end
  | OpGt => py_lt b a
  | OpGe => match py_lt a b with Some r => Some (negb r) | None => None end
  end.

(** linked_list.py:475-539 _compare: [n] iterations left. *)
Fixpoint compare_loop (op : cmpop) (n : nat) (counter : nat) (all_equal : bool)
    (p1 p2 : option loc) : M st (nat * bool) :=
  match n with
  | 0 => ret (counter, all_equal)
  | S n' =>
      let! a := deref p1 in
      let! b := deref p2 in
      let! da := get_data a in
      let! db := get_data b in
      let next eq :=
        let! na := get_next a in
        let! nb := get_next b in
        compare_loop op n' (S counter) eq na nb in
      if py_eq da db then next all_equal
      else match py_op op da db with
           | None => raise TypeError
           | Some true => next false
           | Some false => ret (counter, false)
           end
  end.
Definition compare (op : cmpop) (self other : oid) : M st (nat * bool) :=
  let! o := get_obj self in
  let! oo := get_obj other in
  compare_loop op (Nat.min (o_len o) (o_len oo)) 0 true (o_head o) (o_head oo).

Definition check_cmp (self other : oid) : M st unit :=
  let! o := get_obj self in
  let! oo := get_obj other in
  if is_instance (o_cls oo) (o_cls o) then ret tt else raise TypeError.

(** linked_list.py:541-587 __eq__, 589-635 __ne__. *)
Definition list_eq (self other : oid) : M st bool :=
  check_cmp self other ;;
  let! o := get_obj self in let! oo := get_obj other in
  if negb (Nat.eqb (o_len o) (o_len oo)) then ret false
  else let! r := compare OpEq self other in
       ret (Nat.eqb (fst r) (o_len o) && Nat.eqb (o_len o) (o_len oo)).
Definition list_ne (self other : oid) : M st bool :=
  check_cmp self other ;;
  let! o := get_obj self in let! oo := get_obj other in
  if negb (Nat.eqb (o_len o) (o_len oo)) then ret true
  else let! r := compare OpEq self other in
       ret (negb (Nat.eqb (fst r) (o_len o) && Nat.eqb (o_len o) (o_len oo))).
(** linked_list.py:637-698 __lt__. *)
Definition list_lt (self other : oid) : M st bool :=
  check_cmp self other ;;
  let! o := get_obj self in let! oo := get_obj other in
  let! r := compare OpLt self other in
  ret (if snd r then Nat.ltb (o_len o) (o_len oo) else Nat.eqb (fst r) (o_len o)).
(** linked_list.py:700-758 __le__. *)
Definition list_le (self other : oid) : M st bool :=
  check_cmp self other ;;
  let! o := get_obj self in
  let! r := compare OpLe self other in
  ret (Nat.eqb (fst r) (o_len o)).
(** linked_list.py:760-821 __gt__. *)
Definition list_gt (self other : oid) : M st bool :=
  check_cmp self other ;;
  let! o := get_obj self in let! oo := get_obj other in
  let! r := compare OpGt self other in
  ret (if snd r then Nat.ltb (o_len oo) (o_len o) else Nat.eqb (fst r) (o_len o)).
(** linked_list.py:823-881 __ge__. *)
Definition list_ge (self other : oid) : M st bool :=
  check_cmp self other ;;
  let! oo := get_obj other in
  let! r := compare OpGe self other in
  ret (Nat.eqb (fst r) (o_len oo)).
