(** * Which removals from a balanced AVL tree keep it balanced: specification (C27)

    All predicates are on the tree of stored values, as [shape] (BstSpec.v) reads it from the
    object. *)
From Verif Require Import Base NumOrd TreeModel TreeSpec BstModel BalModel BstSpec.

(** A place in a tree is given by the turns on the way from the root: [true] for right. *)
Fixpoint to_leftmost {A} (t : bin A) : list bool :=
  match t with Bin (Bin _ _ _ as l) _ _ => false :: to_leftmost l | _ => [] end.
Fixpoint to_rightmost {A} (t : bin A) : list bool :=
  match t with Bin _ _ (Bin _ _ _ as r) => true :: to_rightmost r | _ => [] end.
Fixpoint turns (x : num) (t : bin num) : list bool :=
  match t with
  | Nil => []
  | Bin l y r => if decide (x = y) then [] else if num_ltb x y then false :: turns x l else true :: turns x r
  end.
(** Where a node disappears when [x] is removed: at the next larger value if [x] has a right
    child, at the next smaller value if it only has a left child, at [x] itself otherwise. *)
Definition gap (x : num) (t : bin num) : list bool :=
  turns x t ++
  match subtree_at x t with
  | Bin _ _ (Bin _ _ _ as r) => true :: to_leftmost r
  | Bin (Bin _ _ _ as l) _ Nil => false :: to_rightmost l
  | _ => []
  end.
Definition even_root {A} (t : bin A) : bool := match t with Nil => true | Bin l _ r => Nat.eqb (nlevels l) (nlevels r) end.
(** Does the subtree lose a level when a node disappears at [p], and the nodes on the way back
    to the root are rebalanced?  It does if the place is in its higher side; if the place is in
    its lower side, the rotation saves a level unless the root of the higher side is even. *)
Fixpoint shrinks {A} (t : bin A) (p : list bool) : bool :=
  match t, p with
  | Bin l _ r, true :: p' => shrinks r p' && (Nat.ltb (nlevels l) (nlevels r) || (Nat.ltb (nlevels r) (nlevels l) && negb (even_root l)))
  | Bin l _ r, false :: p' => shrinks l p' && (Nat.ltb (nlevels r) (nlevels l) || (Nat.ltb (nlevels l) (nlevels r) && negb (even_root r)))
  | _, _ => true
  end.
(** The left sides for which the rotation that is chosen is wrong: even at the root, and the
    right subtree heavier on its right. *)
Definition wrong_side {A} (l : bin A) : Prop :=
  match l with
  | Bin a _ (Bin b1 _ b2 as b) => nlevels a = nlevels b /\ nlevels b1 < nlevels b2
  | _ => False
  end.
(** A node may disappear at [p]: nowhere on the way back does a right side shrink that was
    already lower than a left side of the wrong kind. *)
Fixpoint steady {A} (t : bin A) (p : list bool) : Prop :=
  match t, p with
  | Bin l _ r, true :: p' => steady r p' /\ ~ (shrinks r p' = true /\ nlevels r < nlevels l /\ wrong_side l)
  | Bin l _ r, false :: p' => steady l p'
  | _, _ => True
  end.
Definition keeps_balance (o : top) (t : bin pay) : Prop :=
  match o with
  | TRemove (PNum x) => x ∈ map p_val (inorder t) -> steady (bin_map p_val t) (gap x (bin_map p_val t))
  | _ => True
  end.
(** Every removal of the history is of that kind. *)
Definition keeps_balance_throughout (os : list top) : Prop :=
  forall pre o post rs s t, os = pre ++ o :: post -> history CAVL pre = Some (rs, s) -> shape s = Some t -> keeps_balance o t.
(** After every call, the answers are those of a set and the tree is height-balanced, with
    the right heights stored in its nodes. *)
Definition avl_throughout (os : list top) : Prop :=
  forall pre post, os = pre ++ post ->
    exists rs s t, history CAVL pre = Some (rs, s) /\ shape s = Some t /\ answers CAVL pre [] rs /\
      map p_val (inorder t) = set_after CAVL pre [] /\ height_balanced t /\ heights_exact t.
