(** * How far the calls on a SplayTree walk (C86): specification

    [path] is in DepthSpec.v, [nodes_above] in DownSpec.v, [takes] in WalkSpec.v, [total] in
    SplayCostSpec.v. *)
From Verif Require Import Base TreeModel TreeSpec BstModel BalModel BstSpec DepthSpec DownSpec.

(** Splaying moves a node with [d] nodes above it up by two in every call; there is at least
    one call. *)
Definition splay_calls (d : nat) : nat := Nat.max 1 (Nat.div (d + 1) 2).
(** The calls of recursive functions made by a search and by an insertion: down to the last
    node on the way to [x], then back to the root.  A removal takes [removal_steps] (DownSpec.v)
    and moves the node above the place that it emptied to the root, or, if [x] is not there,
    the last node on the way.  Nothing is walked in an empty tree. *)
Definition splay_steps (o : top) (t : bin num) : nat :=
  match t, o with
  | Nil, _ => 0
  | _, TContains (PNum x) => path x t + splay_calls (path x t - 1)
  | _, TInsert (PNum x) _ => path x t + splay_calls (nodes_above x t)
  | _, TRemove (PNum x) =>
      if only_value x t then 0
      else removal_steps x t + splay_calls (match subtree_at x t with Nil => path x t | _ => way_back x t end - 1)
  | _, _ => 0
  end.
(** The searches and insertions only. *)
Definition finding_steps (o : top) (t : bin num) : nat := match o with TRemove _ => 0 | _ => splay_steps o t end.
