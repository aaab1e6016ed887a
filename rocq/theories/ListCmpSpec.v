(** * Comparing lists (C84): specification *)
From Verif Require Import Base ListModel ListSpec.

(** The elements at some place differ and have no order (a number and a string, say), and at
    every earlier place the elements are equal or in the order [op]. *)
Definition clash (op : cmpop) (xs ys : list pyval) : Prop :=
  exists i x y, xs !! i = Some x /\ ys !! i = Some y /\ x <> y /\ py_lt x y = None
    /\ forall j x' y', j < i -> xs !! j = Some x' -> ys !! j = Some y' -> x' = y' \/ py_op op x' y' = Some true.
