(** * Specification for C28: values that an AVL tree can let go *)
From Verif Require Import Base TreeModel TreeSpec BstModel BalModel BstSpec.

(** At most one node. *)
Definition small {A} (t : bin A) : Prop := match t with Nil | Bin Nil _ Nil => True | _ => False end.
(** At most one node below the in-order neighbour that replaces the root of [t]. *)
Definition near {A} (t : bin A) : Prop :=
  match t with
  | Nil => True
  | Bin l _ Nil => small (below_rightmost l)
  | Bin _ _ r => small (below_leftmost r)
  end.
(** Before every removal of the history there is at most one node below the neighbour that
    will replace the removed value. *)
Definition removals_near (c : tcls) (os : list top) : Prop :=
  forall pre x post rs s t, os = pre ++ TRemove (PNum x) :: post ->
    history c pre = Some (rs, s) -> shape s = Some t -> near (subtree_at x (bin_map p_val t)).
