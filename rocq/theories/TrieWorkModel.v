(** * Trie and RadixTrie with their work counted (C79)

    The functions of TrieModel.v that loop or recurse again, in a state that also holds a
    counter: [tick] (WalkModel.v) at the beginning of a round of a loop that goes from node to
    node and of a call of _get_candidates.  What contains neither is lifted unchanged ([lf]).
    C79_same says that nothing but the counter differs. *)
From Verif Require Import Base TrieModel TrieSpec WalkModel.
Local Open Scope py_scope.
Notation ct := (ts * nat)%type.

(** trie.py:530-540. *)
Fixpoint follow_loop_c (fuel : nat) (curr : option nat) (word : pystr) : M ct (option nat * pystr) :=
  match fuel with
  | 0 => diverge
  | S k =>
      match word with
      | [] => ret (curr, word)
      | ch :: _ =>
          tick ;;
          let! i := lf (deref curr) in
          let! child := lf (get_child i ch) in
          let! child_data := lf (data_or child [RBRACE]) in
          if bool_decide (child_data = take (length child_data) word)
          then follow_loop_c k child (drop (length child_data) word)
          else ret (curr, word)
      end
  end.
(** trie.py:529-540. *)
Definition follow_path_c (word : pystr) : M ct (option nat * pystr) :=
  let! s := lf get_state in follow_loop_c (S (length word)) (Some (t_root s)) word.
(** trie.py:579-582. *)
Definition contains_c (v : pyval) : M ct bool :=
  match v with
  | PStr word =>
      let! (last_node, remaining_word) := follow_path_c word in
      match remaining_word with
      | [] => lf (is_word last_node)
      | _ => ret false
      end
  | _ => ret false
  end.
(** trie.py:621-628. *)
Definition has_prefix_c (v : pyval) : M ct bool :=
  match v with
  | PStr prefix =>
      let! (last_node, remaining) := follow_path_c prefix in
      match remaining with
      | [] => ret true
      | ch :: _ =>
          let! i := lf (deref last_node) in
          let! child := lf (get_child i ch) in
          let! child_data := lf (data_or child []) in
          ret (bool_decide (take (length remaining) child_data = remaining))
      end
  | _ => ret false
  end.
(** trie.py:665-669. *)
Fixpoint insert_loop_c (curr : option nat) (rest : pystr) : M ct (option nat) :=
  match rest with
  | [] => ret curr
  | ch :: rest' =>
      tick ;;
      let! child := lf (new_node [ch]) in
      let! i := lf (deref curr) in
      lf (set_child i ch child) ;;
      lf (add_count 1) ;;
      insert_loop_c (Some child) rest'
  end.
(** trie.py:662-670. *)
Definition t_insert_c (v : pyval) : M ct unit :=
  let! word := lf (trie_validate v false) in
  let! (last_node, remaining_word) := follow_path_c word in
  let! curr := insert_loop_c last_node remaining_word in
  let! i := lf (deref curr) in
  lf (set_word i true).
(** trie.py:722-727. *)
Fixpoint remove_loop_c (fuel : nat) (curr : nat) : M ct unit :=
  match fuel with
  | 0 => diverge
  | S k =>
      tick ;;
      let! n := lf (rd curr) in
      if negb (n_word n) && bool_decide (n_children n = []) then
        let! ch := (match n_data n with ch :: _ => ret ch | [] => raise IndexError end) in
        let! p := lf (deref (n_parent n)) in
        let! pn := lf (rd p) in
        match dget ch (n_children pn) with
        | None => raise KeyError
        | Some _ =>
            lf (wr p (TN (n_data pn) (n_parent pn) (ddel ch (n_children pn)) (n_word pn))) ;;
            lf (add_count (-1)) ;;
            remove_loop_c k p
        end
      else ret tt
  end.
(** trie.py:710-727. *)
Definition remove_c (v : pyval) : M ct bool :=
  match v with
  | PStr [] => ret false
  | PStr word =>
      let! (last_node, remaining_word) := follow_path_c word in
      match remaining_word with
      | [] =>
          let! i := lf (deref last_node) in
          lf (set_word i false) ;;
          let! s := lf get_state in
          remove_loop_c (S (length (t_nodes s))) i ;;
          ret false
      | _ => ret false
      end
  | _ => ret true
  end.
(** trie.py:763-770. *)
Fixpoint get_candidates_c (fuel : nat) (start_node : nat) (prev_prefixes : list pystr) : M ct (list pystr) :=
  match fuel with
  | 0 => diverge
  | S k =>
      tick ;;
      let! n := lf (rd start_node) in
      let prefixes := prev_prefixes ++ [n_data n] in
      let output := if n_word n then [mjoin prefixes] else [] in
      let! rest := extend_map (fun child => get_candidates_c k child prefixes)
                              (map snd (n_children n)) in
      ret (output ++ rest)
  end.
(** trie.py:818-823 and radix_trie.py:611-616. *)
Definition complete_from_c (curr_node : option nat) (prefix : pystr) : M ct (list pystr) :=
  let! w := lf (is_word curr_node) in
  let! i := lf (deref curr_node) in
  let! n := lf (rd i) in
  let! s := lf get_state in
  let! rest := extend_map (fun child => get_candidates_c (S (length (t_nodes s))) child [prefix])
                          (map snd (n_children n)) in
  ret ((if w then [prefix] else []) ++ rest).
(** trie.py:814-824. *)
Definition t_auto_complete_c (v : pyval) : M ct (list pystr) :=
  let! prefix := lf (trie_validate v true) in
  let! (last_node, remaining) := follow_path_c prefix in
  match remaining with
  | [] => complete_from_c last_node prefix
  | _ => ret []
  end.
(** radix_trie.py:429-450. *)
Fixpoint radix_loop_c (fuel : nat) (curr : option nat) (newn : option nat) (rest : pystr)
  : M ct (option nat) :=
  match fuel with
  | 0 => diverge
  | S k =>
      match rest with
      | [] => ret curr
      | ch :: _ =>
          tick ;;
          let! i := lf (deref curr) in
          let! child := lf (get_child i ch) in
          let! child_data := lf (data_or child []) in
          let idx := length (get_lcp child_data rest) in
          if Nat.eqb idx 0 then
            let! n := lf (new_node rest) in
            lf (set_child i ch n) ;;
            lf (add_count 1) ;;
            radix_loop_c k (Some n) (Some n) []
          else if (idx <=? length rest) && negb (Nat.eqb idx (length child_data)) then
            let! n := lf (new_node (take idx child_data)) in
            let! c := lf (deref child) in
            lf (set_data c (drop idx child_data)) ;;
            let! kc := (match child_data !! idx with Some x => ret x | None => raise IndexError end) in
            lf (set_child n kc c) ;;
            let! k0 := (match child_data with x :: _ => ret x | [] => raise IndexError end) in
            lf (set_child i k0 n) ;;
            lf (add_count 1) ;;
            radix_loop_c k (Some n) (Some n) (drop idx rest)
          else
            match newn with
            | None => raise UnboundLocalError
            | Some _ => radix_loop_c k newn newn rest
            end
      end
  end.
(** radix_trie.py:425-454. *)
Definition radix_insert_node_c (word : pystr) : M ct nat :=
  lf (py_assert (negb (bool_decide (word = [])))) ;;
  let! (last_node, remaining_word) := follow_path_c word in
  let! curr := radix_loop_c (S (length word)) last_node None remaining_word in
  let! i := lf (deref curr) in
  lf (set_word i true) ;;
  ret i.
(** radix_trie.py:485-486. *)
Definition r_insert_c (v : pyval) : M ct unit :=
  let! word := lf (trie_validate v false) in
  let! _ := radix_insert_node_c word in ret tt.
(** radix_trie.py:590-617. *)
Definition r_auto_complete_c (v : pyval) : M ct (list pystr) :=
  let! prefix := lf (trie_validate v true) in
  let! (last_node, remaining) := follow_path_c prefix in
  match remaining with
  | [] => complete_from_c last_node prefix
  | ch :: _ =>
      let prefix' := take (length prefix - length remaining) prefix in
      let! i := lf (deref last_node) in
      let! child := lf (get_child i ch) in
      let! child_data := lf (data_or child []) in
      if (length child_data <? length remaining)
         || negb (bool_decide (take (length remaining) child_data = remaining))
      then ret []
      else complete_from_c child (prefix' ++ child_data)
  end.
(** The call of the class. *)
Definition insert_c (c : trie_cls) : pyval -> M ct unit :=
  match c with CTrie => t_insert_c | CRadix => r_insert_c end.
Definition auto_complete_c (c : trie_cls) : pyval -> M ct (list pystr) :=
  match c with CTrie => t_auto_complete_c | CRadix => r_auto_complete_c end.
