(** * What the calls on a SplayTree cost: specification for C68

    A call looks at the nodes on the way from the root to the place of its value.  These
    are counted on the shape of the tree at the time of the call, which is what
    [get_nodes_per_level] shows. *)
From Verif Require Import Base TreeModel TreeSpec BstModel BalModel BstSpec.

(** The number of nodes on the way to [x] (to its place, if it is not there). *)
Fixpoint visits (x : num) (t : bin num) : nat :=
  match t with
  | Nil => 0
  | Bin l y r => S (if decide (x = y) then 0 else visits x (if num_ltb x y then l else r))
  end.
(** The number of nodes on the way to the leftmost (rightmost) one. *)
Fixpoint left_arm {A} (t : bin A) : nat := match t with Nil => 0 | Bin l _ _ => S (left_arm l) end.
Fixpoint right_arm {A} (t : bin A) : nat := match t with Nil => 0 | Bin _ _ r => S (right_arm r) end.
(** From the root of [t] on to the node whose value replaces it. *)
Definition to_replacement {A} (t : bin A) : nat :=
  match t with
  | Nil => 0
  | Bin l _ Nil => right_arm l
  | Bin _ _ r => left_arm r
  end.
(** The nodes a call looks at to find the place where it works. *)
Definition looks (o : top) (t : bin num) : nat :=
  match o with
  | TInsert (PNum x) _ | TContains (PNum x) => visits x t
  | TRemove (PNum x) => visits x t + to_replacement (subtree_at x t)
  | _ => 0
  end.
(** A removal then moves the value of every node below the replacing one up by one node,
    left children first. *)
Fixpoint branch {A} (t : bin A) : nat :=
  match t with
  | Nil => 0
  | Bin l _ r => S (match l with Nil => branch r | _ => branch l end)
  end.
Definition below_replacement {A} (t : bin A) : bin A :=
  match t with
  | Nil => Nil
  | Bin l _ Nil => below_rightmost l
  | Bin _ _ r => below_leftmost r
  end.
Definition moves (o : top) (t : bin num) : nat :=
  match o with TRemove (PNum x) => branch (below_replacement (subtree_at x t)) | _ => 0 end.

(** The sum of [cost] over the calls of the history [os] of a tree of class [c], on the
    shapes before each call. *)
Fixpoint total_from (c : tcls) (cost : top -> bin num -> nat) (os : list top) (s : tst) : option nat :=
  match os with
  | [] => Some 0
  | o :: os' =>
      match shape s, call c o s with
      | Some t, Some (_, s') => option_map (Nat.add (cost o (bin_map p_val t))) (total_from c cost os' s')
      | _, _ => None
      end
  end.
Definition total (c : tcls) (cost : top -> bin num -> nat) (os : list top) : option nat := total_from c cost os tst0.
(** At no time more than [n] elements. *)
Definition at_most (n : nat) (c : tcls) (os : list top) : Prop :=
  forall pre post, os = pre ++ post -> length (set_after c pre []) <= n.
