(** * Treap: which values can be removed (specification for C29)

    Treap.remove takes a missing child to have the priority -1 (treap.py:562-567), so nodes
    with priorities of -1 and below can get in the way of a removed node. *)
From Verif Require Import Base TreeModel TreeSpec BstModel BalModel BstSpec.

(** The values next to [x] among those below it: the next smaller one has a priority above
    -1 and the next larger one a priority of at least -1 (if there are any). *)
Definition sinkable (x : num) (t : bin pay) : Prop :=
  match node_at x t with
  | Nil => True
  | Bin l _ r =>
      (forall p, last (inorder l) = Some p -> num_lt (Fin (-1)) (p_prio p)) /\
      (forall p, head (inorder r) = Some p -> num_leb (Fin (-1)) (p_prio p) = true)
  end.
(** Every value removed in a history is sinkable at the time. *)
Definition removals_sinkable (os : list top) : Prop :=
  forall pre x post rs s t, os = pre ++ TRemove (PNum x) :: post ->
    history CTreap pre = Some (rs, s) -> shape s = Some t -> sinkable x t.
