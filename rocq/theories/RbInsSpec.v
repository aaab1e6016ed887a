(** * Which insertions into a valid red-black tree keep it valid: specification

    Used for C33 and C34.  All predicates are on the tree of stored values and colours, as
    [shape] (BstSpec.v) reads it from the object. *)
From Verif Require Import Base TreeModel TreeSpec BstModel BalModel BstSpec RbSpec.

(** The nodes passed on the way from the root to [v]: the side taken ([true] for left), the
    colour of the node, and the colour of its child on the other side. *)
Fixpoint way (v : num) (t : bin pay) : list (bool * color * color) :=
  match t with
  | Nil => []
  | Bin l x r =>
      if decide (v = p_val x) then []
      else if num_ltb v (p_val x) then (true, p_color x, root_color r) :: way v l
      else (false, p_color x, root_color l) :: way v r
  end.
(** The colour of the node for [v]: of the stored one, or red for a new one. *)
Definition arrival (v : num) (t : bin pay) : color :=
  match node_at v t with Nil => Red | Bin _ x _ => p_color x end.
(** The way back up from a node of colour [c], passing the nodes of the way in reverse.  Under
    a black node all is done.  Under a red one whose sibling (the uncle) is red, the colours
    are exchanged and the repair goes on from the grandparent, now red; if the uncle is black,
    the repair rotates, and then (needlessly) goes on from the new top, which is black.  It
    goes wrong when a black node is treated like that at a turn. *)
Fixpoint mends (c : color) (up : list (bool * color * color)) : Prop :=
  match up with
  | (side, Red, _) :: (side', _, uncle) :: up' =>
      match uncle with
      | Red => mends Red up'
      | Black => (c = Red \/ side = side') /\ mends Black up'
      end
  | _ => True
  end.
Definition mended (v : num) (t : bin pay) : Prop := mends (arrival v t) (rev (way v t)).
(** The calls that the code gets right on a valid tree. *)
Definition keeps_valid (o : top) (t : bin pay) : Prop :=
  match o with
  | TInsert (PNum x) _ => mended x t
  | TRemove (PNum x) => removable x t
  | _ => True
  end.
Definition keeps_valid_throughout (os : list top) : Prop :=
  forall pre o post rs s t, os = pre ++ o :: post -> history CRB pre = Some (rs, s) -> shape s = Some t -> keeps_valid o t.
(** After every call the answers are those of a set, and the tree is a red-black tree. *)
Definition valid_throughout (os : list top) : Prop :=
  forall pre post, os = pre ++ post ->
    exists rs s t, history CRB pre = Some (rs, s) /\ shape s = Some t /\ answers CRB pre [] rs /\
      map p_val (inorder t) = set_after CRB pre [] /\ red_black t.
