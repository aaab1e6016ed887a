(** * The functions of TreeModel.v with the nodes they visit counted

    Every function returns its result and the number of calls of the recursive helper (of nodes
    taken from the queue, for the loops).  The constant work around them is not counted. *)
From Verif Require Import Base TreeModel.

(** tree.py:438-441. *)
Fixpoint count_nodes_c {A} (t : tree A) : nat * nat :=
  match t with TNode _ cs =>
    fold_left (fun '(total_nodes, k) c => let '(n, k') := count_nodes_c c in (total_nodes + n, k + k')) cs (1, 1) end.
(** tree.py:672-675 [_get_height]. *)
Fixpoint node_height_c {A} (t : tree A) : nat * nat :=
  match t with TNode _ cs =>
    fold_left (fun '(height, k) c => let '(h, k') := node_height_c c in (Nat.max height (1 + h), k + k')) cs (0, 1) end.
(** tree.py:755 [_get_depth]. *)
Definition node_depth_c {A} (root start : tree A) : Z * nat :=
  let '(a, k) := node_height_c root in let '(b, k') := node_height_c start in ((Z.of_nat a - Z.of_nat b)%Z, k + k').
(** tree.py:844-849. *)
Fixpoint count_leaves_c {A} (t : tree A) : nat * nat :=
  match t with TNode _ cs =>
    match cs with
    | [] => (1, 1)
    | _ => fold_left (fun '(total_nodes, k) c => let '(n, k') := count_leaves_c c in (total_nodes + n, k + k')) cs (0, 1)
    end
  end.
(** tree.py:471-473, 709-711, 788-790, 884-886 __len__, get_height, get_depth, count_leaf_nodes. *)
Definition tree_len_c {A} (t : option (tree A)) : nat * nat := match t with None => (0, 0) | Some r => count_nodes_c r end.
Definition tree_height_c {A} (t : option (tree A)) : nat * nat := match t with None => (0, 0) | Some r => node_height_c r end.
Definition tree_depth_c {A} (t : option (tree A)) : Z * nat := match t with None => (0%Z, 0) | Some r => node_depth_c r r end.
Definition tree_leaves_c {A} (t : option (tree A)) : nat * nat := match t with None => (0, 0) | Some r => count_leaves_c r end.

(** tree.py:1017-1022: the nodes popped. *)
Fixpoint search_loop_c (fuel : nat) (queue : list (tree pyval)) (value : pyval) : option (option (tree pyval) * nat) :=
  match fuel with
  | 0 => None
  | S k =>
      match queue with
      | [] => Some (None, 0)
      | curr :: queue' =>
          if py_eq (get_data curr) value then Some (Some curr, 1)
          else match search_loop_c k (rev (get_children curr) ++ queue') value with
               | Some (r, n) => Some (r, S n)
               | None => None
               end
      end
  end.
(** tree.py:1016, 1064-1065 __contains__. *)
Definition tree_contains_c (t : option (tree pyval)) (value : pyval) : option ((exn + bool) * nat) :=
  match t with
  | None => Some (inl AttributeError, 0)
  | Some r =>
      match search_loop_c (S (count_nodes r)) [r] value with
      | None => None
      | Some (None, n) => Some (inr false, n)
      | Some (Some _, n) => Some (inr true, n)
      end
  end.

(** binary_tree.py:739-755 is_balanced: two calls of [_get_depth]. *)
Definition bin_is_balanced_c {A} (t : bin A) : (bool * bool) * nat :=
  match t with
  | Nil => ((true, true), 0)
  | Bin l _ r =>
      let height n := match view n with Some x => node_height_c x | None => (0, 0) end in
      let depth n := let '(a, k) := height t in let '(b, k') := height n in ((Z.of_nat a - Z.of_nat b)%Z, k + k') in
      let '(left_depth, k1) := if is_nil l then (0%Z, 0) else let '(d, k) := depth l in ((1 + d)%Z, k) in
      let '(right_depth, k2) := if is_nil r then (0%Z, 0) else let '(d, k) := depth r in ((1 + d)%Z, k) in
      ((false, Z.leb (Z.abs (left_depth - right_depth)) 1), k1 + k2)
  end.
(** binary_tree.py:827-839: [and] stops at the first [False]. *)
Fixpoint subtree_strict_c {A} (t : bin A) : bool * nat :=
  match t with
  | Nil => (true, 1)
  | Bin Nil _ Nil => (true, 1)
  | Bin (Bin _ _ _) _ Nil => (false, 1)
  | Bin Nil _ (Bin _ _ _) => (false, 1)
  | Bin l _ r =>
      let '(a, k) := subtree_strict_c l in
      if a then let '(b, k') := subtree_strict_c r in (b, 1 + k + k') else (false, 1 + k)
  end.
(** binary_tree.py:1330-1335, 1359 invert. *)
Fixpoint invert_c {A} (t : bin A) : bin A * nat :=
  match t with
  | Nil => (Nil, 1)
  | Bin l d r => let '(r', k) := invert_c r in let '(l', k') := invert_c l in (Bin r' d l', 1 + k + k')
  end.
(** binary_tree.py:962-969, 1034-1041, 1073-1080: the three recursive traversals call
    themselves for the children that exist; [o] is the order.  The counters: the calls, and
    the items written into the lists [nodes] ([append] writes one, [extend] as many as the
    list it is given holds). *)
Inductive order3 := OPre | OIn | OPost.
Fixpoint traverse_c {A} (o : order3) (t : bin A) : list A * (nat * nat) :=
  match t with
  | Nil => ([], (0, 0))
  | Bin l d r =>
      let '(a, (k, m)) := traverse_c o l in let '(b, (k', m')) := traverse_c o r in
      (match o with OPre => [d] ++ a ++ b | OIn => a ++ [d] ++ b | OPost => a ++ b ++ [d] end,
       (1 + k + k', 1 + (m + length a) + (m' + length b)))
  end.
