(** * Model of BinaryTree.__repr__ (extra/trees/binary_tree.py:515-633), Heap.__repr__
      (extra/trees/_heap.py:173-185) and the printing of the search trees

    [show] is [node._represent()]: [str(data)] (tree.py:270), with the colour for a
    RedBlackNode (red_black_tree.py:164-167) and, under SHOW_PRIORITY, with the priority for
    a TreapNode (treap.py:153-156).  Strings are lists of code points. *)
From Verif Require Import Base TreeModel PrintModel BstModel BalModel HeapModel.
Local Open Scope py_scope.

Definition c_space : N := 32%N.      (* " " *)
Definition c_under : N := 95%N.      (* "_" *)
Definition c_slash : N := 47%N.      (* "/" *)
Definition c_back : N := 92%N.       (* "\" *)
(** [ch * n]: nothing when [n] is negative. *)
Definition times (c : N) (n : Z) : pystr := repeat c (Z.to_nat n).

(** A box: its lines, its width, and the first and last column of the text of its root. *)
Definition box : Type := list pystr * Z * Z * Z.

(** binary_tree.py:519-573 _print_subtree ([curr_index] is not used). *)
Fixpoint print_box {A} (show : A -> pystr) (t : bin A) : box :=
  match t with
  | Nil => ([], 0, 0, 0)%Z
  | Bin l d r =>
      let node_repr := show d in
      let new_root_width := Z.of_nat (length node_repr) in
      let '(l_box, l_box_width, l_root_start, l_root_end) := print_box show l in
      let '(r_box, r_box_width, r_root_start, r_root_end) := print_box show r in
      let l_root := ((l_root_start + l_root_end) / 2 + 1)%Z in
      let has_l := Z.ltb 0 l_box_width in
      let line1_l := if has_l then times c_space (l_root + 1) ++ times c_under (l_box_width - l_root) else [] in
      let line2_l := if has_l then times c_space l_root ++ [c_slash] ++ times c_space (l_box_width - l_root) else [] in
      let new_root_start := (if has_l then l_box_width + 1 else 0)%Z in
      let r_root := ((r_root_start + r_root_end) / 2)%Z in
      let has_r := Z.ltb 0 r_box_width in
      let line1_r := if has_r then times c_under r_root ++ times c_space (r_box_width - r_root + 1) else [] in
      let line2_r := if has_r then times c_space r_root ++ [c_back] ++ times c_space (r_box_width - r_root) else [] in
      let gap_size := (new_root_width + (if has_l then 1 else 0) + (if has_r then 1 else 0))%Z in
      let new_root_end := (new_root_start + new_root_width - 1)%Z in
      let gap := times c_space gap_size in
      let line1 := line1_l ++ node_repr ++ line1_r in
      let line2 := line2_l ++ times c_space new_root_width ++ line2_r in
      let below := map (fun i =>
          match l_box !! i with Some x => x | None => times c_space l_box_width end ++ gap ++
          match r_box !! i with Some x => x | None => times c_space r_box_width end)
        (seq 0 (Nat.max (length l_box) (length r_box))) in
      (line1 :: line2 :: below, Z.of_nat (length line1), new_root_start, new_root_end)
  end.

(** [str.isspace] of one character. *)
Definition is_space (c : N) : bool :=
  (N.leb 9 c && N.leb c 13) || (N.leb 28 c && N.leb c 32) || N.eqb c 133 || N.eqb c 160 || N.eqb c 5760
  || (N.leb 8192 c && N.leb c 8202) || N.eqb c 8232 || N.eqb c 8233 || N.eqb c 8239 || N.eqb c 8287 || N.eqb c 12288.
(** [line.rstrip()] *)
Fixpoint rstrip (s : pystr) : pystr :=
  match s with
  | [] => []
  | c :: s' => match rstrip s' with
               | [] => if is_space c then [] else [c]
               | s'' => c :: s''
               end
  end.
(** ["/ \\"], binary_tree.py:595 and _heap.py:183. *)
Definition empty_picture : pystr := [c_slash; c_space; c_back].
(** binary_tree.py:630-633 BinaryTree.__repr__. *)
Definition bin_repr {A} (show : A -> pystr) (t : bin A) : pystr :=
  match t with
  | Nil => empty_picture
  | _ => let '(lines, _, _, _) := print_box show t in
         join s_newline (map rstrip (removelast lines))
  end.

(** node._represent(): tree.py:270, red_black_tree.py:164-167 (["|R"], ["|B"]) and
    treap.py:153-156 (["|P:"]); [text] is [str] of a number, [show_priority] is
    Treap.SHOW_PRIORITY. *)
Definition pay_text (c : tcls) (show_priority : bool) (text : num -> pystr) (p : pay) : pystr :=
  match c with
  | CRB => text (p_val p) ++ (match p_color p with Red => [124; 82] | Black => [124; 66] end)%N
  | CTreap => if show_priority then text (p_val p) ++ [124; 80; 58]%N ++ text (p_prio p) else text (p_val p)
  | _ => text (p_val p)
  end.
(** The search trees inherit BinaryTree.__repr__. *)
Definition search_tree_repr (show : pay -> pystr) : M tst pystr :=
  let! t := tree_pays in ret (bin_repr show t).

(** The tree of HeapNodes reached from node [i]. *)
Fixpoint heap_snapshot (fuel : nat) (p : option nat) : M tmem (bin num) :=
  match p with
  | None => ret Nil
  | Some i =>
      match fuel with
      | 0 => diverge
      | S k =>
          let! n := hnode_get i in
          let! l := heap_snapshot k (hn_left n) in
          let! r := heap_snapshot k (hn_right n) in
          ret (Bin l (hn_data n) r)
      end
  end.
(** _heap.py:182-185 Heap.__repr__. *)
Definition heap_repr (show : num -> pystr) (h : list num) : res tmem pystr :=
  if Nat.eqb (length h) 0 then Ok empty_picture []
  else (let! root := transform h in
        let! t := heap_snapshot (S (length h)) (Some root) in
        ret (bin_repr show t)) [].
