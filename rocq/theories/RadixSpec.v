(** * A deterministic reference for RadixTrie

    The words, and the points at which the trie keeps a node (the root apart).  Nothing here refers
    to nodes or children. *)
From stdpp Require Import gmap.
From Verif Require Import Base TrieModel TrieSpec.

Record radix := Radix { rx_words : words; rx_points : words }.

(** The longest prefix of [w] (of at most [n] characters) that begins a point of [P]. *)
Fixpoint shared_upto (P : words) (w : word) (n : nat) : word :=
  match n with
  | 0 => []
  | S m => if is_prefix_b P (take n w) then take n w else shared_upto P w m
  end.
Definition shared (P : words) (w : word) : word := shared_upto P w (length w).

(** The strings on which a RadixTrie goes wrong: after a point (or at the start) comes a ["}"]
    with which nothing continues. *)
Definition at_point (P : words) (q : word) : Prop := q = [] \/ q ∈ P.
Definition off (P : words) (w : word) : Prop :=
  exists q r, w = q ++ 125%N :: r /\ at_point P q /\ ~ is_prefix P (q ++ [125%N]).
Definition ends_off (P : words) (w : word) : Prop :=
  exists q, w = q ++ [125%N] /\ at_point P q /\ ~ is_prefix P w.
Definition off_b (P : words) (w : word) : bool :=
  existsb (fun n => bool_decide (w !! n = Some 125%N) && bool_decide (at_point P (take n w))
                    && negb (is_prefix_b P (take (S n) w))) (seq 0 (length w)).

(** An insertion adds the word and the point where it leaves the known ones; a removal gives up the
    points that begin no word any more. *)
Definition radix_step (x : radix) (o : trie_op) : radix :=
  let W := rx_words x in let P := rx_points x in
  match o with
  | TInsert (PStr w) => if blank w || off_b P w then x else Radix ({[w]} ∪ W) ({[w]} ∪ ({[shared P w]} ∖ {[ [] ]}) ∪ P)
  | TRemove (PStr w) => let W' := W ∖ {[w]} in Radix W' (filter (fun p => is_prefix_b W' p = true) P)
  | TClear => Radix ∅ ∅
  | _ => x
  end.
Definition radix_ref (h : list trie_op) : radix := fold_left radix_step h (Radix ∅ ∅).
