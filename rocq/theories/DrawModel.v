(** * Model of the printed form of the linear containers

    extra/lists/linked_list.py:251-401, doubly_linked_list.py:238-300,
    circular_linked_list.py:106-144, stack.py:75-107, queue.py:78-147, deque.py:63-83,
    priority_queue.py:107-135, 198-226.

    [text d p] is [node._represent()] of a node with data [d] and priority [p]
    (linked_list.py:123-143: [str(data)]; priority_queue.py:107-135: the same, or the data,
    "|P:" and the priority when SHOW_PRIORITY is set).  [str] of the stored objects is a
    parameter.  A Python string is the list of its code points.  The lists of string pieces
    that the code joins at the end are modelled by the joined strings. *)
From Verif Require Import Base ListModel QueueModel.
Local Open Scope py_scope.

(** The characters: space, newline, "─", "│", "┌", "┐", "└", "┘", "┬", "┴", "⟶", "⟷", "↑". *)
Definition c_sp : N := 32%N.
Definition c_nl : N := 10%N.
Definition c_hor : N := 9472%N.
Definition c_ver : N := 9474%N.
Definition c_tl : N := 9484%N.
Definition c_tr : N := 9488%N.
Definition c_bl : N := 9492%N.
Definition c_br : N := 9496%N.
Definition c_dn : N := 9516%N.
Definition c_up : N := 9524%N.
Definition c_right : N := 10230%N.
Definition c_both : N := 10231%N.
Definition c_arrow : N := 8593%N.

(** Three lines of text, and appending to each of them ([top += ...] etc.). *)
Definition lines3 : Type := pystr * pystr * pystr.
Definition add3 (a b : lines3) : lines3 :=
  let '(a1, a2, a3) := a in let '(b1, b2, b3) := b in (a1 ++ b1, a2 ++ b2, a3 ++ b3).
(** ["{}\n{}\n{}".format(top, middle, lower)] *)
Definition show3 (a : lines3) : pystr := let '(a1, a2, a3) := a in a1 ++ c_nl :: a2 ++ c_nl :: a3.
(** ["─" * width] *)
Definition hors (width : nat) : pystr := repeat c_hor width.

(** linked_list.py:251-292 LinkedList._print_node (CircularLinkedList inherits it); the
    assertion is the class of the node. *)
Definition ll_print_node (text : pyval -> num -> pystr) (node : loc) : M st lines3 :=
  let! c := get_cell node in
  let item := text (c_data c) (c_prio c) in
  let width := length item + 2 in
  ret ([c_tl] ++ hors width ++ [c_tr; c_sp],
       [c_ver] ++ [c_sp] ++ item ++ [c_sp; c_ver; c_right],
       [c_bl] ++ hors width ++ [c_br; c_sp]).
(** doubly_linked_list.py:238-280 DoublyLinkedList._print_node. *)
Definition dll_print_node (text : pyval -> num -> pystr) (node : loc) : M st lines3 :=
  let! c := get_cell node in
  let item := text (c_data c) (c_prio c) in
  let width := length item + 2 in
  let l := ([c_sp; c_tl] ++ hors width ++ [c_tr],
            [c_both; c_ver] ++ [c_sp] ++ item ++ [c_sp; c_ver],
            [c_sp; c_bl] ++ hors width ++ [c_br]) in
  let! nx := get_next node in
  ret (match nx with None => add3 l ([c_sp], [c_both], [c_sp]) | Some _ => l end).
(** Virtual call of [self._print_node]. *)
Definition print_node (k : lcls) (text : pyval -> num -> pystr) (node : loc) : M st lines3 :=
  match k with CDLL => dll_print_node text node | _ => ll_print_node text node end.

(** linked_list.py:371-382, the loop of _print_linked_list: [n] iterations left. *)
Fixpoint print_loop (k : lcls) (text : pyval -> num -> pystr) (n : nat) (curr : option loc) (acc : lines3) : M st lines3 :=
  match n with
  | 0 => ret acc
  | S n' => let! node := deref curr in
            let! part := print_node k text node in
            let! nx := get_next node in
            print_loop k text n' nx (add3 acc part)
  end.
(** linked_list.py:330-383 _print_linked_list(self._head); [start_node] None fails the
    assertion. *)
Definition print_linked_list (text : pyval -> num -> pystr) (self : oid) : M st lines3 :=
  let! o := get_obj self in
  match o_head o with
  | None => raise AssertionError
  | Some _ => print_loop (o_cls o) text (o_len o) (o_head o) ([], [], [])
  end.
(** linked_list.py:294-328 _print_empty_linked_list. *)
Definition print_empty : pystr := show3 ([c_tl; c_hor], [c_ver], [c_bl; c_hor]).

(** linked_list.py:384-401 LinkedList.__repr__, inherited by DoublyLinkedList
    (doubly_linked_list.py:282-300), and circular_linked_list.py:106-144.  [str(head data)]
    of a CircularLinkedList is [text] too. *)
Definition list_repr (text : pyval -> num -> pystr) (self : oid) : M st pystr :=
  let! e := ll_is_empty self in
  if e then ret print_empty
  else
    let! o := get_obj self in
    let! l := print_linked_list text self in
    match o_cls o with
    | CCLL =>
        let '(first_line, sec, thrd) := l in
        let second_line := sec ++ [c_sp; c_tr] in
        let third_line := thrd ++ [c_sp; c_ver] in
        let! h := deref (o_head o) in
        let! c := get_cell h in
        let left_offset := Nat.div (length (text (c_data c) (c_prio c)) + 4) 2 in
        let remaining := length second_line - 2 - left_offset in
        let fourth_line := repeat c_sp left_offset ++ [c_arrow] ++ repeat c_sp remaining ++ [c_ver] in
        let fifth_line := repeat c_sp left_offset ++ [c_bl] ++ repeat c_hor remaining ++ [c_br] in
        ret (first_line ++ c_nl :: second_line ++ c_nl :: third_line ++ c_nl :: fourth_line ++ c_nl :: fifth_line)
    | _ => ret (show3 l)
    end.

(** stack.py:75-107 Stack.__repr__: the items in the order in which they were pushed. *)
Fixpoint stack_print (show : pyval -> pystr) (items : list pyval) (acc : lines3) : lines3 :=
  match items with
  | [] => acc
  | item :: items' =>
      let width := length (show item) + 2 in
      stack_print show items' (add3 acc (hors width ++ [c_dn], [c_sp] ++ show item ++ [c_sp; c_ver], hors width ++ [c_up]))
  end.
Definition stack_repr (show : pyval -> pystr) : M stack pystr :=
  let! s := get_state in
  ret (show3 (add3 (stack_print show (sk_items s) ([c_tl], [c_ver], [c_bl])) ([c_hor], [c_sp], [c_hor]))).

(** queue.py:113-120: the loop of _print_queue along [next]. *)
Fixpoint queue_print (fuel : nat) (text : pyval -> num -> pystr) (curr : option loc) (acc : lines3) : M st lines3 :=
  match curr with
  | None => ret acc
  | Some l =>
      match fuel with
      | 0 => diverge
      | S k => let! c := get_cell l in
               let item := text (c_data c) (c_prio c) in
               let width := length item + 2 in
               queue_print k text (c_next c)
                 (add3 acc (hors width ++ [c_dn], [c_sp] ++ item ++ [c_sp; c_ver], hors width ++ [c_up]))
      end
  end.
(** queue.py:78-127 _print_queue with the given direction character. *)
Definition print_queue (direction : N) (text : pyval -> num -> pystr) : M qst pystr :=
  let! l := boxed (fun o => let! b := get_obj o in let! s := get_state in
                            queue_print (S (length (s_nodes s))) text (o_head b)
                              ([c_hor; c_dn], [direction; c_ver], [c_hor; c_up])) in
  let! e := queue_is_empty in
  ret (show3 (if e then l else add3 l ([c_hor], [direction], [c_hor]))).
(** queue.py:129-147 Queue.__repr__, inherited by PriorityQueue (priority_queue.py:198-226). *)
Definition queue_repr (text : pyval -> num -> pystr) : M qst pystr := print_queue c_right text.
(** deque.py:63-83 Deque.__repr__. *)
Definition deque_repr (text : pyval -> num -> pystr) : M qst pystr := print_queue c_both text.
