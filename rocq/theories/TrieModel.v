(** * Model of extra/trees/trie.py and extra/trees/radix_trie.py

    Nodes live in a store indexed by identity, because _insert splits nodes in place and
    remove walks parent pointers.  A Python dict is an association list in insertion
    order; the keys of [_children] are one-character strings everywhere in the two files
    (trie.py:667, radix_trie.py:437, 445, 447), so a key is a code point.
    Not modelled: TrieNode.__repr__, _represent, Trie.__repr__ (printing), and callers
    building nodes by hand. *)
From Verif Require Import Base.
Local Open Scope py_scope.

(** TrieNode (trie.py:36-42): [_data], [_parent], [_children], [_is_word]. *)
Record tnode := TN {
  n_data : list N;
  n_parent : option nat;
  n_children : list (N * nat);
  n_word : bool;
}.
(** A trie and the nodes allocated so far: [_root], [_nodes_count]. *)
Record ts := TS { t_nodes : list tnode; t_root : nat; t_count : Z }.

(** Reading and writing a node (a dangling identity is unreachable). *)
Definition rd (i : nat) : M ts tnode := fun s =>
  match t_nodes s !! i with Some n => Ok n s | None => Diverge end.
Definition wr (i : nat) (n : tnode) : M ts unit := fun s =>
  Ok tt (TS (<[i := n]> (t_nodes s)) (t_root s) (t_count s)).
(** trie.py:36-42 TrieNode(value) for a [str] value. *)
Definition new_node (d : pystr) : M ts nat := fun s =>
  Ok (length (t_nodes s)) (TS (t_nodes s ++ [TN d None [] false]) (t_root s) (t_count s)).
(** [self._nodes_count += z] *)
Definition add_count (z : Z) : M ts unit := fun s =>
  Ok tt (TS (t_nodes s) (t_root s) (t_count s + z)).
(** ["ROOT"] *)
Definition ROOT : pystr := [82; 79; 79; 84]%N.
(** trie.py:201-202 __init__ (on an object whose nodes so far are those of [s]). *)
Definition trie_init : M ts unit := fun s =>
  Ok tt (TS (t_nodes s ++ [TN ROOT None [] false]) (length (t_nodes s)) 1).
Definition trie_new : ts := TS [TN ROOT None [] false] 0 1.

(** dict lookup, assignment (keeps the position of an existing key) and deletion. *)
Fixpoint dget (ch : N) (d : list (N * nat)) : option nat :=
  match d with
  | [] => None
  | (k, v) :: d' => if N.eqb k ch then Some v else dget ch d'
  end.
Fixpoint dset (ch : N) (x : nat) (d : list (N * nat)) : list (N * nat) :=
  match d with
  | [] => [(ch, x)]
  | (k, v) :: d' => if N.eqb k ch then (k, x) :: d' else (k, v) :: dset ch x d'
  end.
Fixpoint ddel (ch : N) (d : list (N * nat)) : list (N * nat) :=
  match d with
  | [] => []
  | (k, v) :: d' => if N.eqb k ch then d' else (k, v) :: ddel ch d'
  end.

(** trie.py:83-86 get_child. *)
Definition get_child (i : nat) (ch : N) : M ts (option nat) :=
  let! n := rd i in ret (dget ch (n_children n)).
(** [child.get_data() if child else dflt] (trie.py:533, 626; radix_trie.py:432, 599). *)
Definition data_or (child : option nat) (dflt : pystr) : M ts pystr :=
  match child with
  | Some c => let! n := rd c in ret (n_data n)
  | None => ret dflt
  end.
(** trie.py:130-131 set_child (the type checks of 121-129 hold at every call). *)
Definition set_child (i : nat) (ch : N) (c : nat) : M ts unit :=
  let! n := rd i in
  wr i (TN (n_data n) (n_parent n) (dset ch c (n_children n)) (n_word n)) ;;
  let! m := rd c in
  wr c (TN (n_data m) (Some i) (n_children m) (n_word m)).
(** [node._is_word = b] *)
Definition set_word (i : nat) (b : bool) : M ts unit :=
  let! n := rd i in wr i (TN (n_data n) (n_parent n) (n_children n) b).
(** [node._data = d] *)
Definition set_data (i : nat) (d : pystr) : M ts unit :=
  let! n := rd i in wr i (TN d (n_parent n) (n_children n) (n_word n)).

(** str.isspace (what str.strip removes): the code points Python calls white space. *)
Definition is_space (c : N) : bool :=
  ((9 <=? c) && (c <=? 13) || (28 <=? c) && (c <=? 32) || (c =? 133) || (c =? 160)
   || (c =? 5760) || (8192 <=? c) && (c <=? 8202) || (c =? 8232) || (c =? 8233)
   || (c =? 8239) || (c =? 8287) || (c =? 12288))%N.
(** [len(word.strip()) == 0] *)
Definition blank (w : pystr) : bool := forallb is_space w.
(** trie.py:226-235 _validate_item. *)
Definition trie_validate (v : pyval) (accept_empty_string : bool) : M ts pystr :=
  match v with
  | PNone => raise ValueError
  | PStr w => if negb accept_empty_string && blank w then raise ValueError else ret w
  | _ => raise TypeError
  end.

(** ["}"] *)
Definition RBRACE : N := 125%N.
(** trie.py:530-540: the loop of _follow_path; [curr] is [curr_node], which may become
    [None].  Fuel: at most one iteration per character. *)
Fixpoint follow_loop (fuel : nat) (curr : option nat) (word : pystr) : M ts (option nat * pystr) :=
  match fuel with
  | 0 => diverge
  | S k =>
      match word with
      | [] => ret (curr, word)
      | ch :: _ =>
          let! i := deref curr in
          let! child := get_child i ch in
          let! child_data := data_or child [RBRACE] in
          if bool_decide (child_data = take (length child_data) word)
          then follow_loop k child (drop (length child_data) word)
          else ret (curr, word)
      end
  end.
(** trie.py:529-540 _follow_path. *)
Definition follow_path (word : pystr) : M ts (option nat * pystr) :=
  let! s := get_state in follow_loop (S (length word)) (Some (t_root s)) word.

(** [last_node._is_word] *)
Definition is_word (o : option nat) : M ts bool :=
  let! i := deref o in let! n := rd i in ret (n_word n).

(** trie.py:579-582 __contains__ (also radix_trie.py:365). *)
Definition trie_contains (v : pyval) : M ts bool :=
  match v with
  | PStr word =>
      let! (last_node, remaining_word) := follow_path word in
      match remaining_word with
      | [] => is_word last_node
      | _ => ret false
      end
  | _ => ret false
  end.
(** trie.py:621-628 has_prefix (also radix_trie.py:402). *)
Definition trie_has_prefix (v : pyval) : M ts bool :=
  match v with
  | PStr prefix =>
      let! (last_node, remaining) := follow_path prefix in
      match remaining with
      | [] => ret true
      | ch :: _ =>
          let! i := deref last_node in
          let! child := get_child i ch in
          let! child_data := data_or child [] in
          ret (bool_decide (take (length remaining) child_data = remaining))
      end
  | _ => ret false
  end.

(** trie.py:665-669: the loop of insert; returns the last [curr_node]. *)
Fixpoint insert_loop (curr : option nat) (rest : pystr) : M ts (option nat) :=
  match rest with
  | [] => ret curr
  | ch :: rest' =>
      let! child := new_node [ch] in
      let! i := deref curr in
      set_child i ch child ;;
      add_count 1 ;;
      insert_loop (Some child) rest'
  end.
(** trie.py:662-670 insert. *)
Definition trie_insert (v : pyval) : M ts unit :=
  let! word := trie_validate v false in
  let! (last_node, remaining_word) := follow_path word in
  let! curr := insert_loop last_node remaining_word in
  let! i := deref curr in
  set_word i true.

(** trie.py:722-727: the loop of remove.  Fuel: a walk towards the root. *)
Fixpoint remove_loop (fuel : nat) (curr : nat) : M ts unit :=
  match fuel with
  | 0 => diverge
  | S k =>
      let! n := rd curr in
      if negb (n_word n) && bool_decide (n_children n = []) then
        let! ch := (match n_data n with ch :: _ => ret ch | [] => raise IndexError end) in
        let! p := deref (n_parent n) in
        let! pn := rd p in
        match dget ch (n_children pn) with
        | None => raise KeyError
        | Some _ =>
            wr p (TN (n_data pn) (n_parent pn) (ddel ch (n_children pn)) (n_word pn)) ;;
            add_count (-1) ;;
            remove_loop k p
        end
      else ret tt
  end.
(** trie.py:710-727 remove (also radix_trie.py:522); the result: warned. *)
Definition trie_remove (v : pyval) : M ts bool :=
  match v with
  | PStr [] => ret false
  | PStr word =>
      let! (last_node, remaining_word) := follow_path word in
      match remaining_word with
      | [] =>
          let! i := deref last_node in
          set_word i false ;;
          let! s := get_state in
          remove_loop (S (length (t_nodes s))) i ;;
          ret false
      | _ => ret false
      end
  | _ => ret true
  end.
(** trie.py:753, tree.py:1179 clear (also radix_trie.py:546). *)
Definition trie_clear : M ts unit := trie_init.
(** trie.py:269, 291 __len__, is_empty (also radix_trie.py:135, 157). *)
Definition trie_len : M ts Z := let! s := get_state in ret (t_count s).
Definition trie_is_empty : M ts bool := let! s := get_state in ret (Z.eqb (t_count s) 1).

(** [for x in l: output.extend(f(x))] *)
Definition extend_map {S A B} (f : A -> M S (list B)) : list A -> M S (list B) :=
  fix go l := match l with
              | [] => ret []
              | x :: l' => let! o := f x in let! r := go l' in ret (o ++ r)
              end.
(** trie.py:763-770 _get_candidates.  Fuel: recursion depth. *)
Fixpoint get_candidates (fuel : nat) (start_node : nat) (prev_prefixes : list pystr) : M ts (list pystr) :=
  match fuel with
  | 0 => diverge
  | S k =>
      let! n := rd start_node in
      let prefixes := prev_prefixes ++ [n_data n] in
      let output := if n_word n then [mjoin prefixes] else [] in
      let! rest := extend_map (fun child => get_candidates k child prefixes)
                              (map snd (n_children n)) in
      ret (output ++ rest)
  end.
(** trie.py:818-823 and radix_trie.py:611-616: the candidates below [curr_node]. *)
Definition complete_from (curr_node : option nat) (prefix : pystr) : M ts (list pystr) :=
  let! w := is_word curr_node in
  let! i := deref curr_node in
  let! n := rd i in
  let! s := get_state in
  let! rest := extend_map (fun child => get_candidates (S (length (t_nodes s))) child [prefix])
                          (map snd (n_children n)) in
  ret ((if w then [prefix] else []) ++ rest).
(** trie.py:814-824 auto_complete. *)
Definition trie_auto_complete (v : pyval) : M ts (list pystr) :=
  let! prefix := trie_validate v true in
  let! (last_node, remaining) := follow_path prefix in
  match remaining with
  | [] => complete_from last_node prefix
  | _ => ret []
  end.

(** ** radix_trie.py *)

(** radix_trie.py:75-77: the first index at which the words differ. *)
Fixpoint mismatch (word1 word2 : pystr) (i : nat) : option nat :=
  match word1, word2 with
  | x :: a, y :: b => if N.eqb x y then mismatch a b (S i) else Some i
  | _, _ => None
  end.
(** radix_trie.py:75-78 get_lcp. *)
Definition get_lcp (word1 word2 : pystr) : pystr :=
  match mismatch word1 word2 0 with
  | Some i => take i word1
  | None => if length word1 <? length word2 then word1 else word2
  end.

(** radix_trie.py:429-450: the loop of _insert; [newn] is the variable [new_node]
    ([None]: not yet bound).  Fuel: at most one iteration per character. *)
Fixpoint radix_loop (fuel : nat) (curr : option nat) (newn : option nat) (rest : pystr)
  : M ts (option nat) :=
  match fuel with
  | 0 => diverge
  | S k =>
      match rest with
      | [] => ret curr
      | ch :: _ =>
          let! i := deref curr in
          let! child := get_child i ch in
          let! child_data := data_or child [] in
          let idx := length (get_lcp child_data rest) in
          if Nat.eqb idx 0 then
            let! n := new_node rest in
            set_child i ch n ;;
            add_count 1 ;;
            radix_loop k (Some n) (Some n) []
          else if (idx <=? length rest) && negb (Nat.eqb idx (length child_data)) then
            let! n := new_node (take idx child_data) in
            let! c := deref child in
            set_data c (drop idx child_data) ;;
            let! kc := (match child_data !! idx with Some x => ret x | None => raise IndexError end) in
            set_child n kc c ;;
            let! k0 := (match child_data with x :: _ => ret x | [] => raise IndexError end) in
            set_child i k0 n ;;
            add_count 1 ;;
            radix_loop k (Some n) (Some n) (drop idx rest)
          else
            match newn with
            | None => raise UnboundLocalError
            | Some _ => radix_loop k newn newn rest
            end
      end
  end.
(** radix_trie.py:425-454 _insert: returns the node of the word. *)
Definition radix_insert_node (word : pystr) : M ts nat :=
  py_assert (negb (bool_decide (word = []))) ;;
  let! (last_node, remaining_word) := follow_path word in
  let! curr := radix_loop (S (length word)) last_node None remaining_word in
  let! i := deref curr in
  set_word i true ;;
  ret i.
(** radix_trie.py:485-486 insert. *)
Definition radix_insert (v : pyval) : M ts unit :=
  let! word := trie_validate v false in
  let! _ := radix_insert_node word in ret tt.
(** radix_trie.py:590-617 auto_complete. *)
Definition radix_auto_complete (v : pyval) : M ts (list pystr) :=
  let! prefix := trie_validate v true in
  let! (last_node, remaining) := follow_path prefix in
  match remaining with
  | [] => complete_from last_node prefix
  | ch :: _ =>
      let prefix' := take (length prefix - length remaining) prefix in
      let! i := deref last_node in
      let! child := get_child i ch in
      let! child_data := data_or child [] in
      if (length child_data <? length remaining)
         || negb (bool_decide (take (length remaining) child_data = remaining))
      then ret []
      else complete_from child (prefix' ++ child_data)
  end.

(** ** Methods inherited from Tree (tree.py), on trie nodes *)

(** tree.py:844-849 _count_leaf_nodes (is_leaf: trie.py:144).  Fuel: recursion depth. *)
Fixpoint leaves_from (fuel : nat) (start_node : nat) : M ts nat :=
  match fuel with
  | 0 => diverge
  | S k =>
      let! n := rd start_node in
      match n_children n with
      | [] => ret 1
      | cs =>
          (fix go l := match l with
                       | [] => ret 0
                       | c :: l' => let! x := leaves_from k c in let! r := go l' in ret (x + r)
                       end) (map snd cs)
      end
  end.
Definition count_leaves_below (i : nat) : M ts nat :=
  let! s := get_state in leaves_from (S (length (t_nodes s))) i.
(** trie.py:411-413 count_leaf_nodes (also radix_trie.py:268). *)
Definition trie_leaves : M ts nat :=
  let! e := trie_is_empty in
  if e then ret 0 else let! s := get_state in count_leaves_below (t_root s).
(** tree.py:672-675 _get_height.  Fuel: recursion depth. *)
Fixpoint height_from (fuel : nat) (start_node : nat) : M ts nat :=
  match fuel with
  | 0 => diverge
  | S k =>
      let! n := rd start_node in
      (fix go l h := match l with
                     | [] => ret h
                     | c :: l' => let! x := height_from k c in go l' (Nat.max h (1 + x))
                     end) (map snd (n_children n)) 0
  end.
(** trie.py:350, tree.py:709-711 get_height (also radix_trie.py:212). *)
Definition trie_height : M ts nat :=
  let! e := trie_is_empty in
  if e then ret 0
  else let! s := get_state in height_from (S (length (t_nodes s))) (t_root s).
(** trie.py:446-451: level by level; the nodes are read when their level is processed.
    Fuel: number of levels. *)
Fixpoint level_loop (fuel : nat) (current_nodes : list nat) : M ts (list pystr) :=
  match fuel with
  | 0 => diverge
  | S k =>
      match current_nodes with
      | [] => ret []
      | _ =>
          let! here := extend_map (fun i => let! n := rd i in ret [n_data n]) current_nodes in
          let! next_nodes := extend_map (fun i => let! n := rd i in ret (map snd (n_children n))) current_nodes in
          let! rest := level_loop k next_nodes in
          ret (here ++ rest)
      end
  end.
(** trie.py:444-451, 481; tree.py:971-973 to_list (also radix_trie.py:297, 325). *)
Definition trie_to_list : M ts (list pystr) :=
  let! e := trie_is_empty in
  if e then ret []
  else
    let! s := get_state in
    let! n := rd (t_root s) in
    level_loop (S (length (t_nodes s))) (map snd (n_children n)).
