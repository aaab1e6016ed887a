(** * Where the suffixes of a word part

    What get_longest_repeated_substring looks at, in terms of the word alone. *)
From stdpp Require Import prelude.
From Verif Require Import Base SuffixSpec.

(** Two different suffixes of [w] (the empty one included) agree up to [v] and no further. *)
Definition suffixes_part_at (w v : list N) : Prop :=
  exists i j, i <> j /\ i <= length w /\ j <= length w /\ longest_common_prefix (drop i w) (drop j w) v.
(** On the way from the start of [v] to its end, [n] such points are met before the end. *)
Definition nested (w v : list N) (n : nat) : Prop :=
  exists l, NoDup l /\ (forall u, u ∈ l <-> suffixes_part_at w u /\ u `prefix_of` v /\ u <> v) /\ length l = n.
(** [v] is nested at most one point less deep than any other one. *)
Definition near_deepest (w v : list N) : Prop :=
  suffixes_part_at w v /\ exists n, nested w v n /\ forall u m, suffixes_part_at w u -> nested w u m -> m <= S n.
(** The longest ones among those. *)
Definition longest_near_deepest (w v : list N) : Prop :=
  near_deepest w v /\ forall u, near_deepest w u -> length u <= length v.
