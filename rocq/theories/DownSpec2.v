(** * How far the calls on a Treap and a RedBlackTree walk (C85): specification *)
From Verif Require Import Base TreeModel TreeSpec BstModel BstSpec DepthSpec.

(** A removal from a treap walks to the value.  If it is there, the value sinks to the
    bottom: past the right branch of what is on its left and the left branch of what is on
    its right, one node at a time. *)
Definition sinking (x : num) (t : bin num) : nat :=
  match subtree_at x t with Nil => 0 | Bin l _ r => right_branch l + left_branch r end.
(** The priority that [x] has in the tree. *)
Fixpoint priority_of (x : num) (t : bin pay) : option num :=
  match t with
  | Nil => None
  | Bin l y r => if decide (x = p_val y) then Some (p_prio y) else if num_ltb x (p_val y) then priority_of x l else priority_of x r
  end.
(** The priorities of the nodes above [x], or above the place where it would be; the nearest
    one first. *)
Fixpoint above (x : num) (t : bin pay) : list num :=
  match t with
  | Nil => []
  | Bin l y r => if decide (x = p_val y) then [] else (if num_ltb x (p_val y) then above x l else above x r) ++ [p_prio y]
  end.
(** A node with priority [q] rises above the nodes that do not have a greater one; the node that
    stops it is looked at too. *)
Fixpoint rising (q : num) (l : list num) : nat :=
  match l with [] => 0 | p :: l' => S (if num_ltb q p then 0 else rising q l') end.
