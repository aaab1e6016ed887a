(** * Model of the printing of Trie, RadixTrie and SuffixTrie, and of SuffixTrie.to_list *)
From Verif Require Import Base TreeModel PrintModel TrieModel SuffixModel.
Local Open Scope py_scope.

(** The nodes below node [i] as a tree of ([_data], [_is_word]); children in the order of the
    dictionary (trie.py:66 get_children).  Fuel: depth. *)
Fixpoint trie_snapshot (fuel : nat) (i : nat) : M ts (tree (pystr * bool)) :=
  match fuel with
  | 0 => diverge
  | S k =>
      let! n := rd i in
      let! cs := extend_map (fun c => let! t := trie_snapshot k c in ret [t]) (map snd (n_children n)) in
      ret (TNode (n_data n, n_word n) cs)
  end.
(** [" ✓"] *)
Definition CHECK : pystr := [32; 10003]%N.
(** trie.py:173-176 _represent. *)
Definition trie_text (d : pystr * bool) : pystr := if snd d then fst d ++ CHECK else fst d.
(** trie.py:320, radix_trie.py:184, tree.py:629-634 __repr__, with the recursion of
    PrintModel.v on the nodes (printing does not change them). *)
Definition trie_repr : M ts pystr :=
  let! e := trie_is_empty in
  if e then ret s_dashes
  else
    let! s := get_state in
    let! t := trie_snapshot (S (length (t_nodes s))) (t_root s) in
    ret (tree_repr trie_text (Some t)).
(** suffix_trie.py:191 SuffixTrie.__repr__. *)
Definition suffix_repr (f : sfx) : res ts pystr := trie_repr (f_rt f).

(** [" ⟶ "] *)
Definition ARROW : pystr := [32; 10230; 32]%N.
(** [s.split(sep)[0]]: what comes before the first occurrence of [sep]. *)
Fixpoint split_first (sep s : pystr) : pystr :=
  if bool_decide (take (length sep) s = sep) then []
  else match s with [] => [] | c :: s' => c :: split_first sep s' end.
(** suffix_trie.py:317-318, 349 __iter__, to_list. *)
Definition suffix_to_list (f : sfx) : res ts (list pystr) :=
  (let! l := trie_to_list in ret (map (split_first ARROW) l)) (f_rt f).
