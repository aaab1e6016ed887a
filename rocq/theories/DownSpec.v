(** * How far the calls on a search tree walk (C83): specification

    [path], [left_branch], [right_branch], [replacement], [replacement_branch] and
    [exchanges] are in DepthSpec.v, [takes] and [at_most] in WalkSpec.v. *)
From Verif Require Import Base TreeModel TreeSpec BstModel BstSpec DepthSpec.

(** A removal walks to the value, then, if it is there, to its replacement; then it exchanges
    the value with the replacement and so on downwards, and one more round cuts it off. *)
Definition removal_steps (x : num) (t : bin num) : nat :=
  path x t + match subtree_at x t with Nil => 0 | u => replacement_branch u + S (exchanges (replacement u)) end.
(** The number of nodes above [x], or above the place where it would be. *)
Definition nodes_above (x : num) (t : bin num) : nat := match subtree_at x t with Nil => path x t | _ => path x t - 1 end.
(** After an insertion an AVL tree walks up from there to the root; after a removal, from the
    place of the replacement. *)
Definition way_back (x : num) (t : bin num) : nat :=
  match subtree_at x t with Nil => 0 | u => nodes_above x t + replacement_branch u end.
