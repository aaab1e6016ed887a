(** * The comparison operators between lists of any classes (C84)

    Python's [a < b] calls a method of [a] or of [b]: when the class of [b] is a proper
    subclass of that of [a], the mirrored method of [b] comes first (language reference,
    3.3.1); DoublyLinkedList and CircularLinkedList are subclasses of LinkedList
    (doubly_linked_list.py:121, circular_linked_list.py:15).  A method that raises ends the
    comparison.  The methods are those of ListModel.v; the subclasses only pass them on
    (doubly_linked_list.py:369-667, circular_linked_list.py:214-517). *)
From Verif Require Import Base ListModel.
Local Open Scope py_scope.

Inductive relop := REq | RNe | RLt | RLe | RGt | RGe.
Definition mirrored (r : relop) : relop :=
  match r with REq => REq | RNe => RNe | RLt => RGt | RLe => RGe | RGt => RLt | RGe => RLe end.
(** linked_list.py:541-881. *)
Definition method (r : relop) : oid -> oid -> M st bool :=
  match r with REq => list_eq | RNe => list_ne | RLt => list_lt | RLe => list_le | RGt => list_gt | RGe => list_ge end.
(** [a r b]. *)
Definition operator (r : relop) (a b : oid) : M st bool :=
  let! o := get_obj a in
  let! oo := get_obj b in
  if is_instance (o_cls oo) (o_cls o) && negb (bool_decide (o_cls oo = o_cls o))
  then method (mirrored r) b a
  else method r a b.
