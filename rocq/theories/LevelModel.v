(** * Model of get_depth and get_nodes_per_level of Trie and RadixTrie *)
From Verif Require Import Base TrieModel SuffixModel.
Local Open Scope py_scope.

(** trie.py:378-380 (also radix_trie.py:240), tree.py:755: the height of the trie minus the
    height of the start node, which is the root. *)
Definition trie_depth : M ts Z :=
  let! e := trie_is_empty in
  if e then ret 0%Z
  else
    let! s := get_state in
    let! h := height_from (S (length (t_nodes s))) (t_root s) in
    let! h' := height_from (S (length (t_nodes s))) (t_root s) in
    ret (Z.of_nat h - Z.of_nat h')%Z.
(** The data of the nodes of each level (tree.py:1098-1099). *)
Fixpoint data_levels (nodes : list (list nat)) : M ts (list (list pystr)) :=
  match nodes with
  | [] => ret []
  | l :: nodes' =>
      let! here := extend_map (fun i => let! n := rd i in ret [n_data n]) l in
      let! rest := data_levels nodes' in
      ret (here :: rest)
  end.
(** trie.py:857, tree.py:1144-1146, 1093-1109 get_nodes_per_level (also radix_trie.py:646):
    the data of the nodes, without the root's level.  Simplified: the nodes are collected
    first and their data read afterwards. *)
Definition trie_levels : M ts (list (list pystr)) :=
  let! e := trie_is_empty in
  if e then ret []
  else
    let! s := get_state in
    let! nodes := nodes_per_level (S (S (length (t_nodes s)))) (t_root s) 0 [] in
    let! data := data_levels nodes in
    ret (drop 1 data).
