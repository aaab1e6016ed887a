(** * Specification of the printed form of tries *)
From stdpp Require Import gmap.
From Verif Require Import Base TreeModel PrintModel PrintSpec TrieSpec TriePrintModel.

(** [n] is a node below the root of [t], and [w] is what the data on the way from the root
    (excluded) to it spells. *)
Inductive reach {B} : tree (word * B) -> word -> tree (word * B) -> Prop :=
| reach_child d cs c : c ∈ cs -> reach (TNode d cs) (fst (get_data c)) c
| reach_below d cs c w n : c ∈ cs -> reach c w n -> reach (TNode d cs) (fst (get_data c) ++ w) n.
(** [w] is spelled on the way to a marked node; to a leaf. *)
Definition holds (t : tree (word * bool)) (w : word) : Prop := exists n, reach t w n /\ snd (get_data n) = true.
Definition leads (t : tree (word * bool)) (w : word) : Prop := exists n, reach t w n /\ get_children n = [].
(** Nothing below the root is empty, and no two siblings begin alike. *)
Definition forks (t : tree (word * bool)) : Prop :=
  forall p n, node_of t p = Some n ->
    Forall (fun c => fst (get_data c) <> []) (get_children n) /\
    NoDup (map (fun c => head (fst (get_data c))) (get_children n)).
(** The root's data, "ROOT". *)
Definition root_text : word := [82; 79; 79; 84]%N.

(** Words without the check mark and without newlines. *)
Definition plain_word (w : word) : Prop := 10003%N ∉ w /\ 10%N ∉ w.
(** Words without the arrow. *)
Definition no_arrow (w : word) : Prop := 10230%N ∉ w.
Definition no_newline (w : word) : Prop := 10%N ∉ w.
(** The suffixes of [w], the empty one included, each followed by "$". *)
Definition ended_suffix (w : word) (i : nat) : word := drop i w ++ [36%N].
Definition ended_suffixes (w : word) : words := list_to_set (map (ended_suffix w) (seq 0 (S (length w)))).
(** How many strings of [l] end in "$". *)
Definition ending_in_dollar (l : list word) : nat := length (filter (fun x => last x = Some 36%N) l).
