(** * Specification of the five search trees: a set of numbers

    Read this file to know what the theorems of the BstProps files say.  It uses the types
    of calls and results ([top], [tout], [prio]) of BalModel.v and the tree types, not the
    functions of the model. *)
From Coq Require Import Sorted.
From Verif Require Import Base TreeModel TreeSpec BstModel BalModel.

(** ** Sets, as the lists of their elements in increasing order *)
Definition num_lt (a b : num) : Prop := num_ltb a b = true.
Definition increasing (l : list num) : Prop := StronglySorted num_lt l.
Fixpoint set_add (v : num) (l : list num) : list num :=
  match l with
  | [] => [v]
  | x :: l' => if decide (v = x) then l else if num_ltb v x then v :: l else x :: set_add v l'
  end.
Definition set_del (v : num) (l : list num) : list num := filter (fun x => x <> v) l.

(** The contents of a tree, from left to right. *)
Fixpoint inorder {A} (t : bin A) : list A :=
  match t with Nil => [] | Bin l x r => inorder l ++ x :: inorder r end.

(** ** Calls *)
(** The set after a call. *)
Definition prio_ok (c : tcls) (p : prio) : bool :=
  match c, p with
  | CTreap, Given (PNum _) | CTreap, Given PNone => true
  | CTreap, Given _ => false
  | _, _ => true
  end.
Definition next (c : tcls) (o : top) (l : list num) : list num :=
  match o with
  | TInsert (PNum x) p => if prio_ok c p then set_add x l else l
  | TRemove (PNum x) => set_del x l
  | TClear => []
  | _ => l
  end.
(** [r] is a correct result of a call when the set is [l].  Methods whose result depends on
    the shape of the tree are only required to answer; which answer they give is the
    subject of C19 - C22. *)
Definition answer (c : tcls) (o : top) (l : list num) (r : tout) : Prop :=
  match o with
  | TInsert (PNum x) p => r = if prio_ok c p then OUnit (bool_decide (x ∈ l)) else ORaise TypeError
  | TInsert PNone _ => r = ORaise ValueError
  | TInsert _ _ => r = ORaise TypeError
  | TRemove (PNum x) => r = OUnit (bool_decide (x ∉ l))
  | TRemove _ => r = OUnit true
  | TContains v =>
      match c, v with
      | CSplay, PNone => r = ORaise ValueError
      | CSplay, PNum x => r = if decide (l = []) then ORaise AssertionError else OBool (bool_decide (x ∈ l))
      | CSplay, _ => r = ORaise TypeError
      | _, PNum x => r = OBool (bool_decide (x ∈ l))
      | _, _ => r = OBool false
      end
  | TLen => r = OInt (Z.of_nat (length l))
  | TIsEmpty => r = OBool (bool_decide (l = []))
  | TGetMin => r = match head l with Some x => OVal x | None => ORaise IndexError end
  | TGetMax => r = match last l with Some x => OVal x | None => ORaise IndexError end
  | TTraverse (PStr m) =>
      if decide (lower m = s_inorder) then r = OVals l
      else if decide (lower m ∈ [s_postorder; s_preorder; s_depth_first; s_breadth_first])
      then exists vs, r = OVals vs /\ vs ≡ₚ l
      else r = ORaise ValueError
  | TTraverse _ => r = ORaise TypeError
  | TLevels => exists ls, r = OLevels ls /\ concat ls ≡ₚ l
  | THeight | TLeaves => exists n : nat, r = OInt (Z.of_nat n)
  | TIsBalanced | TIsPerfect | TIsStrict => exists b, r = OWarnBool (bool_decide (l = [])) b
  | TClear => r = OUnit false
  end.
Fixpoint answers (c : tcls) (os : list top) (l : list num) (rs : list tout) : Prop :=
  match os, rs with
  | [], [] => True
  | o :: os', r :: rs' => answer c o l r /\ answers c os' (next c o l) rs'
  | _, _ => False
  end.
Fixpoint set_after (c : tcls) (os : list top) (l : list num) : list num :=
  match os with [] => l | o :: os' => set_after c os' (next c o l) end.
(** Every call of the history [os] on a new tree of class [c] answers like the set, and the
    tree ends with exactly the elements of the set, in search order. *)
Definition behaves_as_set (c : tcls) (os : list top) : Prop :=
  exists rs s t, history c os = Some (rs, s) /\ answers c os [] rs /\
    shape s = Some t /\ map p_val (inorder t) = set_after c os [].
(** The condition [P] holds of every call and the set at the time of the call. *)
Fixpoint along (c : tcls) (P : top -> list num -> Prop) (os : list top) (l : list num) : Prop :=
  match os with [] => True | o :: os' => P o l /\ along c P os' (next c o l) end.

(** A weaker behaviour, that of a bag [l]: a call adds or takes out exactly the given value,
    or warns; a value is only reported when it is there; nothing else changes.  Calls that
    only read see the whole contents. *)
Definition bag_step (o : top) (l : list num) (r : tout) (l' : list num) : Prop :=
  match o with
  | TInsert (PNum x) _ => (r = OUnit false /\ l' ≡ₚ x :: l) \/ (r = OUnit true /\ l' = l /\ x ∈ l)
  | TRemove (PNum x) => (r = OUnit false /\ l ≡ₚ x :: l') \/ (r = OUnit true /\ l' = l)
  | TContains (PNum x) => l' = l /\ exists b, r = OBool b /\ (b = true -> x ∈ l)
  | _ => answer CBST o l r /\ l' = next CBST o l
  end.
Fixpoint bag_steps (os : list top) (l : list num) (rs : list tout) (l' : list num) : Prop :=
  match os, rs with
  | [], [] => l' = l
  | o :: os', r :: rs' => exists l1, bag_step o l r l1 /\ bag_steps os' l1 rs' l'
  | _, _ => False
  end.

Definition is_removal (o : top) : bool := match o with TRemove _ => true | _ => false end.
Definition no_removals (os : list top) : Prop := Forall (fun o => is_removal o = false) os.
Definition inserts (vs : list num) : list top := map (fun v => TInsert (PNum v) (Drawn 0)) vs.

(** What the caller sees after inserting [vs], in this order, into a new tree of class [c]:
    each insertion warns iff the value is already there; then the inorder traversal, [len],
    [get_min], [get_max] and a membership test. *)
Definition after_inserting (c : tcls) (vs : list num) : Prop :=
  vs <> [] -> forall x, exists rs l m M s,
    history c (inserts vs ++ [TTraverse (PStr s_inorder); TLen; TGetMin; TGetMax; TContains (PNum x)]) =
      Some (rs ++ [OVals l; OInt (Z.of_nat (length l)); OVal m; OVal M; OBool (bool_decide (x ∈ vs))], s) /\
    length rs = length vs /\
    (forall i v, vs !! i = Some v -> rs !! i = Some (OUnit (bool_decide (v ∈ take i vs)))) /\
    increasing l /\ (forall y, y ∈ l <-> y ∈ vs) /\
    m ∈ vs /\ M ∈ vs /\ (forall y, y ∈ vs -> num_leb m y = true /\ num_leb y M = true).

(** ** Shapes *)
(** A tree without left (right) children. *)
Fixpoint only_right {A} (t : bin A) : Prop :=
  match t with Nil => True | Bin Nil _ r => only_right r | _ => False end.
Fixpoint only_left {A} (t : bin A) : Prop :=
  match t with Nil => True | Bin l _ Nil => only_left l | _ => False end.
(** What hangs below the leftmost (rightmost) node. *)
Fixpoint below_leftmost {A} (t : bin A) : bin A :=
  match t with Nil => Nil | Bin Nil _ r => r | Bin l _ _ => below_leftmost l end.
Fixpoint below_rightmost {A} (t : bin A) : bin A :=
  match t with Nil => Nil | Bin l _ Nil => l | Bin _ _ r => below_rightmost r end.
(** Below the in-order neighbour that replaces the root of [t] on removal, the tree is
    a single branch going away from the root. *)
Definition replaceable {A} (t : bin A) : Prop :=
  match t with
  | Nil => True
  | Bin l _ Nil => only_left (below_rightmost l)
  | Bin _ _ r => only_right (below_leftmost r)
  end.
(** The subtree whose root holds [v], in search order. *)
Fixpoint subtree_at (v : num) (t : bin num) : bin num :=
  match t with
  | Nil => Nil
  | Bin l x r => if decide (v = x) then t else if num_ltb v x then subtree_at v l else subtree_at v r
  end.
(** Heights of the two subtrees of every node differ by at most one. *)
Fixpoint height_balanced {A} (t : bin A) : Prop :=
  match t with
  | Nil => True
  | Bin l _ r => height_balanced l /\ height_balanced r /\ nlevels l <= nlevels r + 1 /\ nlevels r <= nlevels l + 1
  end.
(** The height stored in every node is that of its subtree (a leaf has height 0). *)
Fixpoint heights_exact (t : bin pay) : Prop :=
  match t with
  | Nil => True
  | Bin l x r => heights_exact l /\ heights_exact r /\ p_height x = Nat.max (nlevels l) (nlevels r)
  end.
(** Before every call of the history the tree is height-balanced. *)
Definition balanced_throughout (c : tcls) (os : list top) : Prop :=
  forall pre post rs s t, os = pre ++ post -> post <> [] ->
    history c pre = Some (rs, s) -> shape s = Some t -> height_balanced t.
(** Removals only of the smallest element, or of absent ones. *)
Definition removes_minimum (o : top) (l : list num) : Prop :=
  forall x, o = TRemove (PNum x) -> head l = Some x \/ x ∉ l.

(** ** Treap: priorities *)
(** Every node's priority is at most its parent's. *)
Definition root_prio_le (t : bin pay) (p : num) : Prop :=
  match t with Nil => True | Bin _ x _ => num_ltb p (p_prio x) = false end.
Fixpoint heap_ordered (t : bin pay) : Prop :=
  match t with
  | Nil => True
  | Bin l x r => root_prio_le l (p_prio x) /\ root_prio_le r (p_prio x) /\ heap_ordered l /\ heap_ordered r
  end.
(** The values with their priorities: a value keeps the priority of the insertion that
    added it. *)
Definition prio_val (p : prio) : option num :=
  match p with Drawn d => Some (Fin d) | Given PNone => Some (Fin 0) | Given (PNum q) => Some q | Given _ => None end.
Definition pairs_next (o : top) (l : list (num * num)) : list (num * num) :=
  match o with
  | TInsert (PNum x) p =>
      match prio_val p with
      | Some q => if decide (x ∈ map fst l) then l else (x, q) :: l
      | None => l
      end
  | TRemove (PNum x) => filter (fun y => fst y <> x) l
  | TClear => []
  | _ => l
  end.
Fixpoint pairs_after (os : list top) (l : list (num * num)) : list (num * num) :=
  match os with [] => l | o :: os' => pairs_after os' (pairs_next o l) end.
Definition pairs_of (t : bin pay) : list (num * num) := map (fun x => (p_val x, p_prio x)) (inorder t).
(** Only priorities above -1 are given. *)
Definition prio_above (o : top) : Prop :=
  match o with
  | TInsert _ p => match prio_val p with Some q => num_lt (Fin (-1)) q | None => True end
  | _ => True
  end.

(** ** SplayTree: what a call brings to the root *)
(** The last node visited on the way to [v]. *)
Fixpoint last_visited (v : num) (t : bin num) : option num :=
  match t with
  | Nil => None
  | Bin l x r =>
      if decide (v = x) then Some x
      else match last_visited v (if num_ltb v x then l else r) with Some y => Some y | None => Some x end
  end.
Definition root_value {A} (t : bin A) : option A := match t with Nil => None | Bin _ x _ => Some x end.
(** Before every removal of the history the value to remove is replaceable. *)
Definition removals_replaceable (c : tcls) (os : list top) : Prop :=
  forall pre x post rs s t, os = pre ++ TRemove (PNum x) :: post ->
    history c pre = Some (rs, s) -> shape s = Some t -> replaceable (subtree_at x (bin_map p_val t)).

(** ** RedBlackTree: colours *)
(** A missing child counts as black. *)
Definition root_color (t : bin pay) : color := match t with Nil => Black | Bin _ x _ => p_color x end.
Fixpoint no_red_red (t : bin pay) : Prop :=
  match t with
  | Nil => True
  | Bin l x r => no_red_red l /\ no_red_red r /\ (p_color x = Red -> root_color l = Black /\ root_color r = Black)
  end.
(** Every path from the root to a missing child goes through [n] black nodes. *)
Fixpoint has_blacks (t : bin pay) (n : nat) : Prop :=
  match t with
  | Nil => n = 0
  | Bin l x r => exists m, n = (match p_color x with Red => m | Black => S m end) /\ has_blacks l m /\ has_blacks r m
  end.
Definition red_black (t : bin pay) : Prop :=
  root_color t = Black /\ no_red_red t /\ exists n, has_blacks t n.
Definition is_leaf_tree {A} (t : bin A) : Prop := match t with Bin Nil _ Nil => True | _ => False end.
(** On the way to [v], the search goes through every red node that has children without
    turning: it leaves it on the side ([true] for left) on which it came in. *)
Fixpoint straight (v : num) (side : option bool) (t : bin pay) : Prop :=
  match t with
  | Nil => True
  | Bin l x r =>
      v <> p_val x ->
      (p_color x = Red -> is_leaf_tree t \/ side = Some (num_ltb v (p_val x))) /\
      straight v (Some (num_ltb v (p_val x))) (if num_ltb v (p_val x) then l else r)
  end.
Fixpoint leftmost {A} (t : bin A) : option A :=
  match t with Nil => None | Bin Nil x _ => Some x | Bin l _ _ => leftmost l end.
Fixpoint rightmost {A} (t : bin A) : option A :=
  match t with Nil => None | Bin _ x Nil => Some x | Bin _ _ r => rightmost r end.
(** The subtree whose root holds [v], in search order. *)
Fixpoint node_at (v : num) (t : bin pay) : bin pay :=
  match t with
  | Nil => Nil
  | Bin l x r => if decide (v = p_val x) then t else if num_ltb v (p_val x) then node_at v l else node_at v r
  end.
(** The root of [t] is a red leaf, or a neighbour in order of the root, in its subtrees, is
    red. *)
Definition red_spare (t : bin pay) : Prop :=
  match t with
  | Nil => True
  | Bin Nil x Nil => p_color x = Red
  | Bin l _ r => option_map p_color (leftmost r) = Some Red \/ option_map p_color (rightmost l) = Some Red
  end.
(** Before every call of the history: an inserted value is reached without turning at an
    inner red node, and a red node can be spared to remove a value, unless it is the only
    one. *)
Definition colors_allow (o : top) (t : bin pay) : Prop :=
  match o with
  | TInsert (PNum x) _ => straight x None t
  | TRemove (PNum x) => red_spare (node_at x t) \/ is_leaf_tree t
  | _ => True
  end.
Definition colors_allow_throughout (os : list top) : Prop :=
  forall pre o post rs s t, os = pre ++ o :: post -> history CRB pre = Some (rs, s) -> shape s = Some t -> colors_allow o t.
(** Insertions only of values outside the range of the set, or at its ends. *)
Definition inserts_at_ends (o : top) (l : list num) : Prop :=
  forall x p, o = TInsert (PNum x) p -> (forall y, y ∈ l -> num_leb x y = true) \/ (forall y, y ∈ l -> num_leb y x = true).
(** The number of black nodes met on the way down [p] (true = right) in [t], counting the
    missing child at its end. *)
Fixpoint blacks_to_nil (t : bin pay) (p : list bool) : option nat :=
  match t, p with
  | Nil, [] => Some 1
  | Bin l x r, b :: p' =>
      option_map (fun n => match p_color x with Red => n | Black => S n end) (blacks_to_nil (if b : bool then r else l) p')
  | _, _ => None
  end.
