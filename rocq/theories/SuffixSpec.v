(** * Specification of substring queries

    Words are lists of code points.  Nothing here refers to tries. *)
From Coq Require Import Sorted.
From stdpp Require Import prelude.
From Verif Require Import Base.

(** [p] occurs in [w] at position [i]. *)
Definition occurs_at (w p : list N) (i : nat) : Prop :=
  exists a b, w = a ++ p ++ b /\ length a = i.
Definition substring (w p : list N) : Prop := exists i, occurs_at w p i.
(** [p] occurs at [n] positions (overlapping ones included). *)
Definition occurrences (w p : list N) (n : nat) : Prop :=
  exists l : list nat, NoDup l /\ (forall i, i ∈ l <-> occurs_at w p i) /\ length l = n.
(** [p] occurs at two positions at least. *)
Definition repeated (w p : list N) : Prop :=
  exists i j, i <> j /\ occurs_at w p i /\ occurs_at w p j.
(** [p] is one of the longest repeated substrings. *)
Definition longest_repeated_substring (w p : list N) : Prop :=
  repeated w p /\ forall q, repeated w q -> length q <= length p.
(** [c] is the longest common prefix of [a] and [b]. *)
Definition longest_common_prefix (a b c : list N) : Prop :=
  c `prefix_of` a /\ c `prefix_of` b /\ forall d, d `prefix_of` a -> d `prefix_of` b -> d `prefix_of` c.
(** Lexicographic order on strings, by code point. *)
Definition lex_lt (a b : list N) : Prop :=
  (exists x t, b = a ++ x :: t) \/
  (exists c x y a' b', a = c ++ x :: a' /\ b = c ++ y :: b' /\ (x < y)%N).
(** [l] lists the start positions 0..n of the suffixes of [w] in lexicographic order. *)
Definition is_suffix_array (w : list N) (l : list nat) : Prop :=
  l ≡ₚ seq 0 (S (length w)) /\ StronglySorted (fun i j => lex_lt (drop i w) (drop j w)) l.

(** The word with every ["$"] taken out. *)
Definition without_dollar (w : list N) : list N := filter (fun c => c <> 36%N) w.
(** Words with no ["$"], with no ["}"]. *)
Definition no_dollar (w : list N) : Prop := 36%N ∉ w.
Definition no_closing_brace (w : list N) : Prop := 125%N ∉ w.

Lemma occurs_at_drop w p i : occurs_at w p i <-> i <= length w /\ p `prefix_of` drop i w.
Proof.
  split.
  - intros (a & b & -> & <-). rewrite app_length, drop_app. split; [lia|by eexists].
  - intros [Hi [b Hb]]. exists (take i w), b. rewrite <- Hb, take_drop. split; [done|].
    rewrite take_length. lia.
Qed.
