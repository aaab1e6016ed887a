(** * Model of extra/trees/{tree,binary_tree}.py

    A node is a value of an inductive type: its data and its children.  Simplification:
    object identity of nodes is not represented, so structures in which one node object is
    reached twice (shared children, cycles) are outside the model.  [A] is the type of
    node data.  A tree with [_root = None] is [None] / [Nil].
    Not modelled here: from_path (file system), __repr__ (TreePrint.v). *)
From Verif Require Import Base.
Local Open Scope py_scope.

(** TreeNode (tree.py:53-308): [_data], [_children]. *)
Inductive tree (A : Type) := TNode (d : A) (children : list (tree A)).
Arguments TNode {A} _ _.
(** tree.py:113, 134. *)
Definition get_data {A} (t : tree A) : A := match t with TNode d _ => d end.
Definition get_children {A} (t : tree A) : list (tree A) := match t with TNode _ cs => cs end.
(** tree.py:230. *)
Definition is_leaf {A} (t : tree A) : bool := match get_children t with [] => true | _ => false end.

(** tree.py:438-441. *)
Fixpoint count_nodes {A} (t : tree A) : nat :=
  match t with TNode _ cs => fold_left (fun total_nodes c => total_nodes + count_nodes c) cs 1 end.
(** tree.py:471-473. *)
Definition tree_len {A} (t : option (tree A)) : nat :=
  match t with None => 0 | Some r => count_nodes r end.
(** tree.py:495. *)
Definition tree_is_empty {A} (t : option (tree A)) : bool := match t with None => true | Some _ => false end.
(** tree.py:672-675 [_get_height]. *)
Fixpoint node_height {A} (t : tree A) : nat :=
  match t with TNode _ cs => fold_left (fun height c => Nat.max height (1 + node_height c)) cs 0 end.
(** tree.py:709-711. *)
Definition tree_height {A} (t : option (tree A)) : nat :=
  match t with None => 0 | Some r => node_height r end.
(** tree.py:755 [_get_depth] (Python integers). *)
Definition node_depth {A} (root start : tree A) : Z :=
  (Z.of_nat (node_height root) - Z.of_nat (node_height start))%Z.
(** tree.py:788-790. *)
Definition tree_depth {A} (t : option (tree A)) : Z :=
  match t with None => 0%Z | Some r => node_depth r r end.
(** tree.py:844-849. *)
Fixpoint count_leaves {A} (t : tree A) : nat :=
  match t with TNode _ cs =>
    match cs with
    | [] => 1
    | _ => fold_left (fun total_nodes c => total_nodes + count_leaves c) cs 0
    end
  end.
(** tree.py:884-886. *)
Definition tree_leaves {A} (t : option (tree A)) : nat :=
  match t with None => 0 | Some r => count_leaves r end.

(** tree.py:931-936: the data yielded from [current_nodes] on; [None] = out of fuel. *)
Fixpoint iter_loop {A} (fuel : nat) (current_nodes : list (tree A)) : option (list A) :=
  match fuel with
  | 0 => None
  | S k =>
      match current_nodes with
      | [] => Some []
      | _ => match iter_loop k (flat_map get_children current_nodes) with
             | Some rest => Some (map get_data current_nodes ++ rest)
             | None => None
             end
      end
  end.
(** tree.py:929-936, 971-973. *)
Definition tree_to_list {A} (t : option (tree A)) : option (list A) :=
  match t with None => Some [] | Some r => iter_loop (S (count_nodes r)) [r] end.

(** tree.py:1017-1022.  The Python list [queue] is kept reversed here: its last element,
    which [pop()] takes, is the head. *)
Fixpoint search_loop (fuel : nat) (queue : list (tree pyval)) (value : pyval) : option (option (tree pyval)) :=
  match fuel with
  | 0 => None
  | S k =>
      match queue with
      | [] => Some None
      | curr :: queue' =>
          if py_eq (get_data curr) value then Some (Some curr)
          else search_loop k (rev (get_children curr) ++ queue') value
      end
  end.
(** tree.py:1016, 1064-1065: [inl] is the exception ([None.get_data()] on an empty tree). *)
Definition tree_contains (t : option (tree pyval)) (value : pyval) : option (exn + bool) :=
  match t with
  | None => Some (inl AttributeError)
  | Some r =>
      match search_loop (S (count_nodes r)) [r] value with
      | None => None
      | Some None => Some (inr false)
      | Some (Some _) => Some (inr true)
      end
  end.

(** [for x in l: f(x)] *)
Definition mfor {S A} (f : A -> M S unit) : list A -> M S unit :=
  fix go l := match l with [] => ret tt | x :: l' => f x ;; go l' end.
(** [nodes[level].append(x)] *)
Definition append_at {A} (level : nat) (x : A) : M (list (list A)) unit := fun nodes =>
  match nodes !! level with
  | Some l => Ok tt (<[level := l ++ [x]]> nodes)
  | None => Exc IndexError nodes
  end.
(** tree.py:1097-1108. *)
Fixpoint nodes_per_level {A} (t : tree A) (level : nat) : M (list (list A)) unit :=
  match t with
  | TNode d cs =>
      (let! nodes := get_state in
       if Nat.eqb level (length nodes) then put_state (nodes ++ [[]]) else ret tt) ;;
      append_at level d ;;
      mfor (fun c => nodes_per_level c (S level)) cs
  end.
(** tree.py:1145-1147. *)
Definition tree_levels {A} (t : option (tree A)) : res (list (list A)) (list (list A)) :=
  match t with
  | None => Ok [] []
  | Some r => (nodes_per_level r 0 ;; get_state) []
  end.

(** ** Binary trees: BinaryTreeNode (binary_tree.py:91-360) with [_left], [_data],
    [_right]; [Nil] is [None]. *)
Inductive bin (A : Type) := Nil | Bin (l : bin A) (d : A) (r : bin A).
Arguments Nil {A}.
Arguments Bin {A} _ _ _.
(** binary_tree.py:211-216 get_children: what the methods inherited from Tree (len,
    height, depth, leaves, iteration, membership, levels; binary_tree.py:490, 658, 681,
    707, 902, 927, 955, 1130, 1325) see of a binary tree. *)
Fixpoint view {A} (t : bin A) : option (tree A) :=
  match t with
  | Nil => None
  | Bin l d r => Some (TNode d (option_list (view l) ++ option_list (view r)))
  end.

Definition is_nil {A} (t : bin A) : bool := match t with Nil => true | _ => false end.
(** [_get_height] of a node that is not [None]. *)
Definition bin_node_height {A} (t : bin A) : nat :=
  match view t with Some n => node_height n | None => 0 end.
(** binary_tree.py:739-755; the first component: warned. *)
Definition bin_is_balanced {A} (t : bin A) : bool * bool :=
  match t with
  | Nil => (true, true)
  | Bin l _ r =>
      let depth n := (Z.of_nat (bin_node_height t) - Z.of_nat (bin_node_height n))%Z in
      let left_depth := if is_nil l then 0%Z else (1 + depth l)%Z in
      let right_depth := if is_nil r then 0%Z else (1 + depth r)%Z in
      (false, Z.leb (Z.abs (left_depth - right_depth)) 1)
  end.
(** binary_tree.py:801-804. *)
Fixpoint perfect_levels {A} (level : nat) (levels : list (list A)) : bool :=
  match levels with
  | [] => true
  | nodes :: levels' =>
      if Nat.eqb (2 ^ level) (length nodes) then perfect_levels (S level) levels' else false
  end.
(** binary_tree.py:795-804 ([None]: get_nodes_per_level failed). *)
Definition bin_is_perfect {A} (t : bin A) : option (bool * bool) :=
  match t with
  | Nil => Some (true, true)
  | _ => match tree_levels (view t) with
         | Ok levels _ => Some (false, perfect_levels 0 levels)
         | _ => None
         end
  end.
(** binary_tree.py:827-839. *)
Fixpoint subtree_strict {A} (t : bin A) : bool :=
  match t with
  | Nil => true
  | Bin Nil _ Nil => true
  | Bin (Bin _ _ _) _ Nil => false
  | Bin Nil _ (Bin _ _ _) => false
  | Bin l _ r => subtree_strict l && subtree_strict r
  end.
(** binary_tree.py:870-876. *)
Definition bin_is_strict {A} (t : bin A) : bool * bool :=
  match t with Nil => (true, true) | _ => (false, subtree_strict t) end.

(** binary_tree.py:962-969, 1034-1041, 1073-1080. *)
Fixpoint preorder_traverse {A} (t : bin A) : list A :=
  match t with Nil => [] | Bin l d r => [d] ++ preorder_traverse l ++ preorder_traverse r end.
Fixpoint postorder_traverse {A} (t : bin A) : list A :=
  match t with Nil => [] | Bin l d r => postorder_traverse l ++ postorder_traverse r ++ [d] end.
Fixpoint inorder_traverse {A} (t : bin A) : list A :=
  match t with Nil => [] | Bin l d r => inorder_traverse l ++ [d] ++ inorder_traverse r end.
(** binary_tree.py:1130. *)
Definition breadth_first_traverse {A} (t : bin A) : option (list A) := tree_to_list (view t).

(** [str.lower()]: exact for ASCII.  Simplification: other characters are kept; none of
    them lower-cases to a letter of the five method names. *)
Definition lower (s : pystr) : pystr :=
  map (fun c => if N.leb 65 c && N.leb c 90 then (c + 32)%N else c) s.
Definition s_inorder : pystr := [105; 110; 111; 114; 100; 101; 114]%N.
Definition s_postorder : pystr := [112; 111; 115; 116; 111; 114; 100; 101; 114]%N.
Definition s_preorder : pystr := [112; 114; 101; 111; 114; 100; 101; 114]%N.
Definition s_depth_first : pystr := [100; 101; 112; 116; 104; 45; 102; 105; 114; 115; 116]%N.
Definition s_breadth_first : pystr := [98; 114; 101; 97; 100; 116; 104; 45; 102; 105; 114; 115; 116]%N.
(** binary_tree.py:1190-1209. *)
Definition traverse {A} (t : bin A) (method : pyval) : exn + option (list A) :=
  match method with
  | PStr m =>
      let m := lower m in
      if bool_decide (m = s_inorder) then inr (Some (inorder_traverse t))
      else if bool_decide (m = s_postorder) then inr (Some (postorder_traverse t))
      else if bool_decide (m = s_preorder) || bool_decide (m = s_depth_first) then inr (Some (preorder_traverse t))
      else if bool_decide (m = s_breadth_first) then inr (breadth_first_traverse t)
      else inl ValueError
  | _ => inl TypeError
  end.

(** A Python dict with integer keys, in insertion order; [levels[depth] = x]. *)
Fixpoint dict_set {A} (k : nat) (x : A) (d : list (nat * A)) : list (nat * A) :=
  match d with
  | [] => [(k, x)]
  | (j, y) :: d' => if Nat.eqb j k then (j, x) :: d' else (j, y) :: dict_set k x d'
  end.
Definition push_node {A} (t : bin A) (depth : nat) (stack : list (bin A * nat)) : list (bin A * nat) :=
  match t with Nil => stack | _ => (t, depth) :: stack end.
(** binary_tree.py:1244-1251 ([left] = true) and 1285-1292; the head of [stack] is the
    end of the Python list. *)
Fixpoint side_loop {A} (left : bool) (fuel : nat) (stack : list (bin A * nat)) (levels : list (nat * A)) : option (list A) :=
  match fuel with
  | 0 => None
  | S k =>
      match stack with
      | [] => Some (map snd levels)
      | (Nil, _) :: _ => None
      | (Bin l d r, depth) :: stack' =>
          let levels := dict_set depth d levels in
          if left then side_loop left k (push_node r (depth + 1) (push_node l (depth + 1) stack')) levels
          else side_loop left k (push_node l (depth + 1) (push_node r (depth + 1) stack')) levels
      end
  end.
(** binary_tree.py:1240-1243, 1281-1284. *)
Definition side_view {A} (left : bool) (t : bin A) : option (list A) :=
  match t with
  | Nil => Some []
  | Bin _ d _ => side_loop left (S (tree_len (view t))) [(t, 0)] [(0, d)]
  end.
Definition leftside_view {A} : bin A -> option (list A) := side_view true.
Definition rightside_view {A} : bin A -> option (list A) := side_view false.

(** binary_tree.py:1330-1335, 1359. *)
Fixpoint invert {A} (t : bin A) : bin A :=
  match t with Nil => Nil | Bin l d r => Bin (invert r) d (invert l) end.

(** ** BinaryTree.parse *)
(** A nested list/tuple literal; [PAtom] is any other object. *)
Inductive lit := PAtom (v : pyval) | PSeq (l : list lit).
(** [BinaryTreeNode(v)] (tree.py:92-95): validation and newline replacement; a list is
    accepted as data. *)
Definition node_data (v : lit) : exn + lit :=
  match v with
  | PAtom a => match validate_item a with Some e => inl e | None => inr (PAtom (norm_item a)) end
  | PSeq l => inr (PSeq l)
  end.
(** binary_tree.py:410-420; IndexError from [lst[1]] / [lst[2]] ends the try block. *)
Fixpoint create_subtree (x : lit) : exn + bin lit :=
  match x with
  | PAtom a =>
      match node_data (PAtom a) with inl e => inl e | inr d => inr (Bin Nil d Nil) end
  | PSeq [v] =>
      match node_data v with inl e => inl e | inr d => inr (Bin Nil d Nil) end
  | PSeq [v; a] =>
      match node_data v with
      | inl e => inl e
      | inr d => match create_subtree a with inl e => inl e | inr l => inr (Bin l d Nil) end
      end
  | PSeq [v; a; b] =>
      match node_data v with
      | inl e => inl e
      | inr d =>
          match create_subtree a with
          | inl e => inl e
          | inr l => match create_subtree b with inl e => inl e | inr r => inr (Bin l d r) end
          end
      end
  | PSeq _ => inl ValueError
  end.
(** binary_tree.py:459-463. *)
Definition parse (x : lit) : exn + bin lit :=
  match x with PAtom _ => inl TypeError | PSeq _ => create_subtree x end.
