(** * What the calls of a search tree need of the stack *)
From Verif Require Import Base TreeModel BstModel BalModel TreeSpec BstSpec.

(** The number of nodes met on the way from the root to [x], or to the place where [x]
    would be. *)
Fixpoint path (x : num) (t : bin num) : nat :=
  match t with
  | Nil => 0
  | Bin l y r => S (if decide (x = y) then 0 else if num_ltb x y then path x l else path x r)
  end.
(** The number of nodes on the left-most and right-most branches. *)
Fixpoint left_branch {A} (t : bin A) : nat := match t with Nil => 0 | Bin l _ _ => S (left_branch l) end.
Fixpoint right_branch {A} (t : bin A) : nat := match t with Nil => 0 | Bin _ _ r => S (right_branch r) end.
(** The methods of [traverse] that go down the tree. *)
Definition descends (m : pyval) : bool :=
  match m with
  | PStr w => bool_decide (lower w ∈ [s_inorder; s_postorder; s_preorder; s_depth_first])
  | _ => false
  end.
(** How many activations a call nests on a tree of class [c] that holds [t]. *)
Definition needs (c : tcls) (o : top) (t : bin num) : nat :=
  match o with
  | TInsert (PNum x) p => if prio_ok c p then path x t else 0
  | TContains (PNum x) => path x t
  | TGetMin => left_branch t
  | TGetMax => right_branch t
  | TTraverse m => if descends m then nlevels t else 0
  | _ => 0
  end.
Definition values (t : bin pay) : bin num := bin_map p_val t.

(** The calls of a history that did not run out of stack, and their results. *)
Definition out_of_stack (r : tout) : bool := match r with ORaise RecursionError => true | _ => false end.
Fixpoint done_calls (os : list (nat * top)) (rs : list tout) : list top :=
  match os, rs with
  | (_, o) :: os', r :: rs' => if out_of_stack r then done_calls os' rs' else o :: done_calls os' rs'
  | _, _ => []
  end.
Definition done_results (rs : list tout) : list tout := filter (fun r => out_of_stack r = false) rs.
Definition calls_of (os : list (nat * top)) : list top := map snd os.

(** ** Removal from a BST, AVL or SplayTree *)
(** The subtree at the left-most or right-most node. *)
Fixpoint at_leftmost {A} (t : bin A) : bin A :=
  match t with
  | Nil => Nil
  | Bin l _ r => match l with Nil => t | _ => at_leftmost l end
  end.
Fixpoint at_rightmost {A} (t : bin A) : bin A :=
  match t with
  | Nil => Nil
  | Bin l _ r => match r with Nil => t | _ => at_rightmost r end
  end.
(** The replacement of the root of [t]: the next larger value, or the next smaller one when
    there is none below the root; and the nodes met when looking for it. *)
Definition replacement {A} (t : bin A) : bin A :=
  match t with
  | Nil => Nil
  | Bin l _ r => match r with Nil => at_rightmost l | _ => at_leftmost r end
  end.
Definition replacement_branch {A} (t : bin A) : nat :=
  match t with
  | Nil => 0
  | Bin l _ r => match r with Nil => right_branch l | _ => left_branch r end
  end.
(** The value to remove is exchanged with the replacement, then with its left child if it
    has one and its right child otherwise, and so on: the number of exchanges. *)
Fixpoint exchanges {A} (t : bin A) : nat :=
  match t with
  | Nil => 0
  | Bin l _ r => S (match l with Nil => exchanges r | _ => exchanges l end)
  end.
(** Looking for [x] and its replacement, and exchanging. *)
Definition only_value (x : num) (t : bin num) : bool := match t with Bin Nil y Nil => bool_decide (x = y) | _ => false end.
Definition removal_looks (x : num) (t : bin num) : nat :=
  if only_value x t then 0 else Nat.max (path x t) (replacement_branch (subtree_at x t)).
Definition removal_exchanges (x : num) (t : bin num) : nat := exchanges (replacement (subtree_at x t)).
