(** * SuffixTrie with its work counted (C81)

    The functions of SuffixModel.v that loop or recurse again, in a state that also holds a
    counter (see TrieWorkModel.v): [tick] at the beginning of a round of a loop that goes from
    node to node and of a call of _count_leaf_nodes.  C81_same says that nothing but the
    counter differs.  Not counted: the sorting of to_suffix_array and
    get_longest_repeated_substring. *)
From Verif Require Import Base TrieModel TrieSpec SuffixModel WalkModel TrieWorkModel.
Local Open Scope py_scope.

(** tree.py:844-849 _count_leaf_nodes. *)
Fixpoint leaves_from_c (fuel : nat) (start_node : nat) : M ct nat :=
  match fuel with
  | 0 => diverge
  | S k =>
      tick ;;
      let! n := lf (rd start_node) in
      match n_children n with
      | [] => ret 1
      | cs =>
          (fix go l := match l with
                       | [] => ret 0
                       | c :: l' => let! x := leaves_from_c k c in let! r := go l' in ret (x + r)
                       end) (map snd cs)
      end
  end.
Definition count_leaves_below_c (i : nat) : M ct nat :=
  let! s := lf get_state in leaves_from_c (S (length (t_nodes s))) i.
(** suffix_trie.py:690-702 count_pattern_occurrences, run on [_rt]. *)
Definition count_occurrences_c (v : pyval) : M ct nat :=
  match v with
  | PStr pattern =>
      let! (last_node, remaining) := follow_path_c pattern in
      let! last :=
        (match remaining with
         | [] => ret (Some last_node)
         | ch :: _ =>
             let! i := lf (deref last_node) in
             let! child := lf (get_child i ch) in
             let! child_data := lf (data_or child []) in
             if bool_decide (take (length remaining) child_data = remaining)
             then ret (Some child) else ret None
         end) in
      match last with
      | None => ret 0
      | Some o =>
          let! s := lf get_state in
          if bool_decide (o = Some (t_root s)) then ret 0
          else match o with
               | Some i => count_leaves_below_c i
               | None => raise AssertionError
               end
      end
  | _ => ret 0
  end.
(** suffix_trie.py:388 has_substring, run on [_rt]. *)
Definition has_substring_c (v : pyval) : M ct bool := has_prefix_c v.
(** suffix_trie.py:118-120, 124-126. *)
Definition suffix_add_c (word : pystr) (idx : nat) : M ct nat :=
  let! node := radix_insert_node_c (drop idx word ++ MARK ++ py_str_nat idx) in
  lf (set_word node false) ;;
  ret node.
(** suffix_trie.py:117-127. *)
Fixpoint suffix_loop_c (word : pystr) (idx cnt : nat) : M ct (list nat) :=
  match cnt with
  | 0 => ret []
  | S k =>
      let! node := suffix_add_c word idx in
      let! rest := suffix_loop_c word (S idx) k in
      ret (node :: rest)
  end.
(** suffix_trie.py:99-127 __init__. *)
Definition suffix_init_c (v : pyval) : M ct (pystr * list nat * list (nat * pystr)) :=
  let! w := lf (suffix_validate v) in
  let word := strip_dollar w in
  let! leaves := suffix_loop_c word 0 (S (length word)) in
  ret (word, leaves, suffix_pairs word).
(** suffix_trie.py:497-500. *)
Fixpoint ancestors_loop_c (fuel : nat) (parent : option nat) : M ct (list pystr) :=
  match fuel with
  | 0 => diverge
  | S k =>
      let! s := lf get_state in
      if bool_decide (parent = Some (t_root s)) then ret []
      else
        tick ;;
        let! p := lf (deref parent) in
        let! n := lf (rd p) in
        let! rest := ancestors_loop_c k (n_parent n) in
        ret (n_data n :: rest)
  end.
(** suffix_trie.py:492-501 _get_ancestors_data. *)
Definition ancestors_data_c (node : nat) : M ct pystr :=
  let! s := lf get_state in
  if bool_decide (node = t_root s) then ret []
  else
    let! n := lf (rd node) in
    let! l := ancestors_loop_c (S (length (t_nodes s))) (n_parent n) in
    ret (mjoin (rev l)).
(** suffix_trie.py:622-633 get_lowest_common_ancestor. *)
Definition lowest_common_ancestor_c (f : sfx) (i j : pyval) : M ct pystr :=
  match i, j with
  | PInt i, PInt j =>
      if (i <? 0)%Z || (j <? 0)%Z then raise ValueError
      else if (Z.of_nat (length (f_word f)) <=? i)%Z || (Z.of_nat (length (f_word f)) <? j)%Z then raise ValueError
      else
        let! a := lf (leaf_node f i) in
        let! ith := ancestors_data_c a in
        let! b := lf (leaf_node f j) in
        let! jth := ancestors_data_c b in
        ret (get_lcp ith jth)
  | _, _ => raise TypeError
  end.
