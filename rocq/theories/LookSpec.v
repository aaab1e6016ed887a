(** * Vocabulary for C80 *)
From Verif Require Import Base TreeModel.

(** How many edges each node is away from the root, which is itself [k] away. *)
Fixpoint distances {A} (k : nat) (t : bin A) : list nat :=
  match t with Nil => [] | Bin l _ r => k :: distances (S k) l ++ distances (S k) r end.
(** The tree of [n] nodes in which every node is the right child of the one before. *)
Fixpoint right_chain (n : nat) : bin nat := match n with 0 => Nil | S m => Bin Nil n (right_chain m) end.
