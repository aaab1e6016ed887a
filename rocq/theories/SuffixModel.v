(** * Model of extra/trees/suffix_trie.py

    A SuffixTrie wraps a RadixTrie; its queries run on that trie.  Not modelled: __repr__
    (printing) and the private __get_longest_palindrome, which nothing calls. *)
From Verif Require Import Base TrieModel.
Local Open Scope py_scope.

(** ["$"] *)
Definition DOLLAR : N := 36%N.
(** ["$ ⟶ "] *)
Definition MARK : pystr := [36; 32; 10230; 32]%N.
(** [str(idx)] *)
Fixpoint digits (u : Decimal.uint) : pystr :=
  match u with
  | Decimal.Nil => []
  | Decimal.D0 u => 48%N :: digits u
  | Decimal.D1 u => 49%N :: digits u
  | Decimal.D2 u => 50%N :: digits u
  | Decimal.D3 u => 51%N :: digits u
  | Decimal.D4 u => 52%N :: digits u
  | Decimal.D5 u => 53%N :: digits u
  | Decimal.D6 u => 54%N :: digits u
  | Decimal.D7 u => 55%N :: digits u
  | Decimal.D8 u => 56%N :: digits u
  | Decimal.D9 u => 57%N :: digits u
  end.
Definition py_str_nat (n : nat) : pystr := digits (Nat.to_uint n).

(** The attributes of a SuffixTrie (suffix_trie.py:110-116): [_word], [_leaf_nodes] (the
    keys are inserted in the order 0, 1, ...), [_rt], [_suffix_array]. *)
Record sfx := SFX {
  f_word : pystr;
  f_leaves : list nat;
  f_rt : ts;
  f_array : list (nat * pystr);
}.

(** suffix_trie.py:100-108 and interface.py:26-33: the checks of __init__. *)
Definition suffix_validate (v : pyval) : M ts pystr :=
  match v with
  | PNone => raise ValueError
  | PStr [] => raise ValueError
  | PStr word => ret word
  | _ => raise TypeError
  end.
(** [word.replace("$", "")] (suffix_trie.py:110). *)
Definition strip_dollar (w : pystr) : pystr := filter (fun c => c <> DOLLAR) w.
(** suffix_trie.py:118-120, 124-126: insert one label, clear its flag, keep the node. *)
Definition suffix_add (word : pystr) (idx : nat) : M ts nat :=
  let! node := radix_insert_node (drop idx word ++ MARK ++ py_str_nat idx) in
  set_word node false ;;
  ret node.
(** suffix_trie.py:117-127: [cnt] labels from [idx] on, the last one being the edge case
    of lines 124-127, whose label is ["$ ⟶ n"] (the suffix at [n] is empty). *)
Fixpoint suffix_loop (word : pystr) (idx cnt : nat) : M ts (list nat) :=
  match cnt with
  | 0 => ret []
  | S k =>
      let! node := suffix_add word idx in
      let! rest := suffix_loop word (S idx) k in
      ret (node :: rest)
  end.
(** suffix_trie.py:121, 127: the pairs stored in [_suffix_array]. *)
Definition suffix_pairs (word : pystr) : list (nat * pystr) :=
  map (fun idx => (idx, drop idx word)) (seq 0 (length word)) ++ [(length word, [DOLLAR])].
(** suffix_trie.py:99-127 __init__; the trie is the state. *)
Definition suffix_init (v : pyval) : M ts (pystr * list nat * list (nat * pystr)) :=
  let! w := suffix_validate v in
  let word := strip_dollar w in
  let! leaves := suffix_loop word 0 (S (length word)) in
  ret (word, leaves, suffix_pairs word).
(** SuffixTrie(v): a new object, or an exception. *)
Definition suffix_new (v : pyval) : res unit sfx :=
  match suffix_init v trie_new with
  | Ok (word, leaves, pairs) rt => Ok (SFX word leaves rt pairs) tt
  | Exc e _ => Exc e tt
  | Diverge => Diverge
  end.

(** suffix_trie.py:163, 222, 284 __len__, get_height, count_leaf_nodes: those of [_rt]. *)
Definition suffix_len (f : sfx) : res ts Z := trie_len (f_rt f).
Definition suffix_height (f : sfx) : res ts nat := trie_height (f_rt f).
Definition suffix_leaves (f : sfx) : res ts nat := trie_leaves (f_rt f).

(** suffix_trie.py:388 has_substring. *)
Definition has_substring (f : sfx) (v : pyval) : res ts bool := trie_has_prefix v (f_rt f).

(** suffix_trie.py:422: [sorted] is a stable sort by [<] on the second components. *)
Fixpoint insert_sorted (x : nat * pystr) (l : list (nat * pystr)) : list (nat * pystr) :=
  match l with
  | [] => [x]
  | y :: l' => if str_ltb (snd x) (snd y) then x :: y :: l' else y :: insert_sorted x l'
  end.
Definition py_sorted (l : list (nat * pystr)) : list (nat * pystr) :=
  fold_left (fun acc x => insert_sorted x acc) l [].
(** suffix_trie.py:422 to_suffix_array. *)
Definition to_suffix_array (f : sfx) : list nat := map fst (py_sorted (f_array f)).

(** tree.py:1093-1109 _get_nodes_per_level(start_node, level, nodes, False).
    Fuel: recursion depth. *)
Fixpoint nodes_per_level (fuel : nat) (start_node : nat) (level : nat) (nodes : list (list nat))
  : M ts (list (list nat)) :=
  match fuel with
  | 0 => diverge
  | S k =>
      let! n := rd start_node in
      let nodes1 := if Nat.eqb level (length nodes) then nodes ++ [[]] else nodes in
      match nodes1 !! level with
      | None => raise IndexError
      | Some l =>
          (fix go cs acc := match cs with
                            | [] => ret acc
                            | c :: cs' => let! acc' := nodes_per_level k c (S level) acc in go cs' acc'
                            end) (map snd (n_children n)) (<[level := l ++ [start_node]]> nodes1)
      end
  end.
(** suffix_trie.py:438-445 __get_deepest_nodes (not called on an empty trie). *)
Definition deepest_nodes : M ts (list nat) :=
  let! s := get_state in
  let! level_nodes := nodes_per_level (S (length (t_nodes s))) (t_root s) 0 [] in
  match rev level_nodes with
  | [] => raise IndexError
  | last :: l => ret (if 2 <? length level_nodes then last ++ default [] (head l) else last)
  end.
(** suffix_trie.py:497-500: the data of the ancestors, nearest first.
    Fuel: a walk towards the root. *)
Fixpoint ancestors_loop (fuel : nat) (parent : option nat) : M ts (list pystr) :=
  match fuel with
  | 0 => diverge
  | S k =>
      let! s := get_state in
      if bool_decide (parent = Some (t_root s)) then ret []
      else
        let! p := deref parent in
        let! n := rd p in
        let! rest := ancestors_loop k (n_parent n) in
        ret (n_data n :: rest)
  end.
(** suffix_trie.py:492-501 _get_ancestors_data. *)
Definition ancestors_data (node : nat) : M ts pystr :=
  let! s := get_state in
  if bool_decide (node = t_root s) then ret []
  else
    let! n := rd node in
    let! l := ancestors_loop (S (length (t_nodes s))) (n_parent n) in
    ret (mjoin (rev l)).
(** [for x in l: ...f(x)...], collecting the results. *)
Definition map_each {S A B} (f : A -> M S B) : list A -> M S (list B) :=
  fix go l := match l with
              | [] => ret []
              | x :: l' => let! y := f x in let! r := go l' in ret (y :: r)
              end.
(** suffix_trie.py:531-540, 572 get_longest_common_substring and
    get_longest_repeated_substring.  A Python set yields its elements in an unspecified
    order: here in the order of [remove_dups]. *)
Definition longest_repeated (f : sfx) : res ts (list pystr) :=
  (let! e := trie_is_empty in
   if e then ret []
   else
     let! nodes := deepest_nodes in
     let! lcs := map_each ancestors_data nodes in
     let longest_length := foldr Nat.max 0 (map length lcs) in
     ret (filter (fun substr => length substr = longest_length) (remove_dups lcs))) (f_rt f).

(** [_leaf_nodes[i]] *)
Definition leaf_node (f : sfx) (i : Z) : M ts nat :=
  match f_leaves f !! Z.to_nat i with Some x => ret x | None => raise KeyError end.
(** suffix_trie.py:622-633 get_lowest_common_ancestor. *)
Definition lowest_common_ancestor (f : sfx) (i j : pyval) : res ts pystr :=
  (match i, j with
   | PInt i, PInt j =>
       if (i <? 0)%Z || (j <? 0)%Z then raise ValueError
       else if (Z.of_nat (length (f_word f)) <=? i)%Z || (Z.of_nat (length (f_word f)) <? j)%Z then raise ValueError
       else
         let! a := leaf_node f i in
         let! ith := ancestors_data a in
         let! b := leaf_node f j in
         let! jth := ancestors_data b in
         ret (get_lcp ith jth)
   | _, _ => raise TypeError
   end) (f_rt f).

(** suffix_trie.py:690-702 count_pattern_occurrences; the [assert] of tree.py:842 fails
    when the descent fell off the trie. *)
Definition count_occurrences (f : sfx) (v : pyval) : res ts nat :=
  (match v with
   | PStr pattern =>
       let! (last_node, remaining) := follow_path pattern in
       let! last :=
         (match remaining with
          | [] => ret (Some last_node)
          | ch :: _ =>
              let! i := deref last_node in
              let! child := get_child i ch in
              let! child_data := data_or child [] in
              if bool_decide (take (length remaining) child_data = remaining)
              then ret (Some child) else ret None
          end) in
       match last with
       | None => ret 0
       | Some o =>
           let! s := get_state in
           if bool_decide (o = Some (t_root s)) then ret 0
           else match o with
                | Some i => count_leaves_below i
                | None => raise AssertionError
                end
       end
   | _ => ret 0
   end) (f_rt f).
