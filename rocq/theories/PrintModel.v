(** * Model of Tree.__repr__ (extra/trees/tree.py:498-634)

    [show] is [str(node.get_data())], which is also what [_represent] returns for a
    TreeNode (tree.py:270).  Strings are lists of code points. *)
From Verif Require Import Base TreeModel.
Local Open Scope N_scope.

(** [sep.join(l)] *)
Fixpoint join (sep : pystr) (l : list pystr) : pystr :=
  match l with
  | [] => []
  | [x] => x
  | x :: l' => x ++ sep ++ join sep l'
  end.
(** The strings of tree.py:541-549, 585, 632. *)
Definition s_blank : pystr := [32; 32].        (* "  " *)
Definition s_bar : pystr := [9474; 32].        (* "│ " *)
Definition s_last : pystr := [9492; 9472].     (* "└─" *)
Definition s_mid : pystr := [9500; 9472].      (* "├─" *)
Definition s_inner : pystr := [9516; 32].      (* "┬ " *)
Definition s_end : pystr := [9472; 32].        (* "─ " *)
Definition s_dashes : pystr := [45; 45].       (* "--" *)
Definition s_newline : pystr := [10].

(** TreeNode.__init__ (tree.py:92-94) for a string: [value.replace("\n", "\\n")]. *)
Definition node_text (value : pystr) : pystr :=
  flat_map (fun ch => if N.eqb ch 10 then [92; 110] else [ch]) value.

(** tree.py:537-551: the line of [start_node]. *)
Definition node_line {A} (show : A -> pystr) (d : A) (cs : list (tree A)) (is_last_child : bool) (seq : list bool) : pystr :=
  (match seq with
   | [] => []
   | _ :: rest =>
       flat_map (fun b : bool => if b then s_blank else s_bar) rest ++
       (if is_last_child then s_last else s_mid) ++
       (match cs with [] => s_end | _ => s_inner end)
   end) ++ show d.
(** tree.py:537-562: [lines] after printing the subtree of [t].  The inner loop is the
    [for idx in range(num_children)] of lines 558-561. *)
Fixpoint print_subtree {A} (show : A -> pystr) (t : tree A) (lines : list pystr) (is_last_child : bool) (seq : list bool)
  : list pystr :=
  match t with
  | TNode d cs =>
      let lines := lines ++ [node_line show d cs is_last_child seq] in
      let my_seq := seq ++ [is_last_child] in
      (fix go (idx : nat) (rest : list (tree A)) (lines : list pystr) : list pystr :=
         match rest with
         | [] => lines
         | child :: rest' =>
             go (S idx) rest' (print_subtree show child lines (Nat.eqb idx (length cs - 1)) my_seq)
         end) 0%nat cs lines
  end.
(** tree.py:629-634, 584-585. *)
Definition tree_repr {A} (show : A -> pystr) (t : option (tree A)) : pystr :=
  match t with
  | None => s_dashes
  | Some (TNode d []) => show d
  | Some r => join s_newline (print_subtree show r [] false [])
  end.
