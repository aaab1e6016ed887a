(** * Which removals from a valid red-black tree keep it valid: specification

    Used for C34.  All predicates are on the tree of stored values and colours, as [shape]
    (BstSpec.v) reads it from the object. *)
From Verif Require Import Base TreeModel TreeSpec BstModel BalModel BstSpec.

(** [t] has a red child; its right child is red. *)
Definition has_red_child (t : bin pay) : Prop :=
  match t with Nil => False | Bin l _ r => root_color l = Red \/ root_color r = Red end.
Definition has_red_right_child (t : bin pay) : Prop :=
  match t with Nil => False | Bin _ _ r => root_color r = Red end.
(** [s] stands to the right of a place that has lost a black node, and lends it a red one:
    [s], or if [s] is red its child next to that place, has a red child. *)
Definition lends_to_left (s : bin pay) : Prop :=
  match s with Nil => False | Bin a x _ => has_red_child (match p_color x with Red => a | Black => s end) end.
(** The same on the other side, except that only a right child is lent. *)
Definition lends_to_right (s : bin pay) : Prop :=
  match s with Nil => False | Bin _ x b => has_red_right_child (match p_color x with Red => b | Black => s end) end.
(** The leaf of [t] that holds [v]: its sibling lends it a red node, or its parent is the
    root of the tree ([top]) and its sibling a leaf too. *)
Fixpoint leaf_helped (top : bool) (v : num) (t : bin pay) : Prop :=
  match t with
  | Nil => False
  | Bin l x r =>
      if num_ltb v (p_val x)
      then match l with
           | Bin Nil _ Nil => lends_to_left r \/ (top = true /\ is_leaf_tree r)
           | _ => leaf_helped false v l
           end
      else match r with
           | Bin Nil _ Nil => lends_to_right l \/ (top = true /\ is_leaf_tree l)
           | _ => leaf_helped false v r
           end
  end.
(** The leftmost node of [t] is a leaf below the root of [t], and its sibling lends it a red
    node. *)
Fixpoint leftmost_helped (t : bin pay) : Prop :=
  match t with
  | Nil => False
  | Bin l _ r => match l with Bin Nil _ Nil => lends_to_left r | _ => leftmost_helped l end
  end.
(** The removals after which the tree is still valid. *)
Definition removable (v : num) (t : bin pay) : Prop :=
  is_leaf_tree t \/ red_spare (node_at v t) \/
  match node_at v t with
  | Nil => True
  | Bin Nil _ Nil => leaf_helped true v t
  | Bin _ x r => p_color x = Black /\ leftmost_helped r
  end.
Definition removals_allowed (o : top) (t : bin pay) : Prop :=
  match o with
  | TInsert (PNum x) _ => straight x None t
  | TRemove (PNum x) => removable x t
  | _ => True
  end.
Definition removals_allowed_throughout (os : list top) : Prop :=
  forall pre o post rs s t, os = pre ++ o :: post -> history CRB pre = Some (rs, s) -> shape s = Some t -> removals_allowed o t.
(** The removals of a history are made on valid trees, and from a place that allows them;
    nothing is asked of the other calls. *)
Definition removals_fit (o : top) (t : bin pay) : Prop :=
  match o with TRemove (PNum x) => red_black t /\ removable x t | _ => True end.
Definition removals_fit_throughout (os : list top) : Prop :=
  forall pre o post rs s t, os = pre ++ o :: post -> history CRB pre = Some (rs, s) -> shape s = Some t -> removals_fit o t.
