(** * What a SuffixTrie finds, for any pattern, in terms of the word alone *)
From stdpp Require Import prelude.
From Verif Require Import Base SuffixModel SuffixSpec SuffixDeepSpec.

(** A SuffixTrie holds each suffix of its word followed by a mark and its position: for "ab" the
    strings "ab$ ⟶ 0", "b$ ⟶ 1" and "$ ⟶ 2".  ([py_str_nat i] is str(i).) *)
Definition marked (w : list N) (i : nat) : list N := drop i w ++ [36; 32; 10230; 32]%N ++ py_str_nat i.
(** [p] begins the one at [i]. *)
Definition found_at (w p : list N) (i : nat) : Prop := i <= length w /\ p `prefix_of` marked w i.
(** In [p] a ["}"] follows a string at which the search stops to look for the next branch: the empty
    one, a point where suffixes part, or a whole marked suffix; [r] is the rest of [p]. *)
Definition lost (w p r : list N) : Prop :=
  exists q, p = q ++ 125%N :: r /\ (q = [] \/ suffixes_part_at w q \/ exists i, i <= length w /\ q = marked w i).

(** The suffixes as to_suffix_array sorts them: the empty one counts as "$". *)
Definition sort_key (w : list N) (i : nat) : list N := if bool_decide (i = length w) then [36]%N else drop i w.
(** [c] is the longest beginning of the suffix at [i] that occurs at another position too. *)
Definition longest_repeated_beginning (w : list N) (i : nat) (c : list N) : Prop :=
  c `prefix_of` drop i w /\ (exists k, k <> i /\ occurs_at w c k) /\
  forall d k, d `prefix_of` drop i w -> k <> i -> occurs_at w d k -> length d <= length c.
