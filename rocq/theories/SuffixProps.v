(** * Properties C42-C45, C50: SuffixTrie *)
From stdpp Require Import gmap.
From Verif Require Import Base TrieModel TrieRep TrieSpec TrieThm TrieThm2 TrieThm3 TrieThm4
  SuffixModel SuffixSpec SuffixThm SuffixThm2 SuffixThm3 SuffixThm4.

Lemma without_dollar_id w : no_dollar w -> without_dollar w = w.
Proof. apply strip_id. Qed.
Lemma is_prefix_substring w p : no_dollar w -> no_dollar p -> is_prefix (labels w) p <-> substring w p.
Proof. intros Hw Hp. by apply substring_labels. Qed.

(** SuffixTrie(w) for the words of the examples. *)
Definition made (w : list N) : sfx :=
  match suffix_new (PStr w) with Ok f _ => f | _ => SFX [] [] trie_new [] end.
(** "banana" *)
Definition BANANA : list N := [98; 97; 110; 97; 110; 97]%N.

(** ** C50: construction *)
(** SuffixTrie(w) exists for every non-empty word without ["}"], and then has one leaf
    for each suffix, the empty one included. *)
Theorem C50_suffix_trie_construction_partial w : w <> [] -> no_closing_brace w ->
  exists f, suffix_new (PStr w) = Ok f tt /\
    suffix_leaves f = Ok (S (length (without_dollar w))) (f_rt f).
Proof.
  intros Hw Hb. destruct (suffix_new_ok w Hw Hb) as (f & L & E & I). exists f. split; [done|].
  exact (leaf_count_ok _ _ _ I).
Qed.
Print Assumptions C50_suffix_trie_construction_partial.
Example C50_example : BANANA <> [] /\ no_closing_brace BANANA /\ suffix_leaves (made BANANA) = Ok 7 (f_rt (made BANANA)).
Proof. split; [done|]. split; [apply (bool_decide_unpack _); by vm_compute|]. by vm_compute. Qed.
(** Every word with a ["}"] is refused. *)
Theorem C50_closing_brace_refuted w : ~ no_closing_brace w -> suffix_new (PStr w) = Exc AttributeError tt.
Proof. apply suffix_new_brace. Qed.
Print Assumptions C50_closing_brace_refuted.
Example C50_brace_example : ~ no_closing_brace [97; 125]%N.
Proof. unfold no_closing_brace. set_solver. Qed.
(** Arguments that are no words are refused. *)
Theorem C50_rejected_arguments v : (forall w, v <> PStr w) \/ v = PStr [] ->
  suffix_new v = Exc (match v with PNone | PStr _ => ValueError | _ => TypeError end) tt.
Proof. intros [H| ->]; [|done]. destruct v as [| |w| | |]; try done. by destruct (H w). Qed.
Print Assumptions C50_rejected_arguments.

(** ** C42: has_substring and count_pattern_occurrences *)
Theorem C42_substring_search_partial w : w <> [] -> no_closing_brace w ->
  exists f, suffix_new (PStr w) = Ok f tt /\
    forall p, no_dollar p -> no_closing_brace p ->
      (exists b, has_substring f (PStr p) = Ok b (f_rt f) /\ (b = true <-> substring (without_dollar w) p)) /\
      (p <> [] -> exists n, count_occurrences f (PStr p) = Ok n (f_rt f) /\ occurrences (without_dollar w) p n).
Proof.
  intros Hw Hb. destruct (suffix_new_ok w Hw Hb) as (f & L & E & I). exists f. split; [done|].
  intros p Hd Hp. split.
  - destruct (has_substring_ok _ _ _ I p Hp) as (b & Eb & Hbb). exists b. split; [done|]. rewrite Hbb.
    apply is_prefix_substring; [apply (i_dollar _ _ _ I)|done].
  - intros Hn. by apply (count_occurrences_ok _ _ _ I).
Qed.
Print Assumptions C42_substring_search_partial.
Corollary C42_substring_search_plain_partial w : w <> [] -> no_dollar w -> no_closing_brace w ->
  exists f, suffix_new (PStr w) = Ok f tt /\
    forall p, no_dollar p -> no_closing_brace p ->
      (exists b, has_substring f (PStr p) = Ok b (f_rt f) /\ (b = true <-> substring w p)) /\
      (p <> [] -> exists n, count_occurrences f (PStr p) = Ok n (f_rt f) /\ occurrences w p n).
Proof. intros Hw Hd Hb. pose proof (C42_substring_search_partial w Hw Hb) as H. by rewrite (without_dollar_id w Hd) in H. Qed.
Print Assumptions C42_substring_search_plain_partial.
(** In "banana", "ana" occurs twice and "nab" does not. *)
Example C42_example : BANANA <> [] /\ no_dollar BANANA /\ no_closing_brace BANANA /\
  has_substring (made BANANA) (PStr [97; 110; 97]%N) = Ok true (f_rt (made BANANA)) /\
  count_occurrences (made BANANA) (PStr [97; 110; 97]%N) = Ok 2 (f_rt (made BANANA)) /\
  has_substring (made BANANA) (PStr [110; 97; 98]%N) = Ok false (f_rt (made BANANA)).
Proof. split; [done|]. split; [|split]; [apply (bool_decide_unpack _); by vm_compute..|]. by vm_compute. Qed.
(** "ab": "$" is found; "a$b": "ab" is found and "a$b" is not; the empty pattern, found,
    occurs 0 times. *)
Theorem C42_substring_search_refuted : exists w f p, suffix_new (PStr w) = Ok f tt /\
  has_substring f (PStr p) = Ok true (f_rt f) /\ ~ substring w p.
Proof.
  exists [97; 98]%N, (made [97; 98]%N), [36]%N. split; [by vm_compute|]. split; [by vm_compute|].
  intros (i & a & b & E & _). assert (36%N ∈ [97; 98]%N) as H; [|set_solver]. rewrite E. set_solver.
Qed.
Print Assumptions C42_substring_search_refuted.
Theorem C42_substring_missed_refuted : exists w f, suffix_new (PStr w) = Ok f tt /\
  has_substring f (PStr w) = Ok false (f_rt f) /\
  exists p, ~ substring w p /\ has_substring f (PStr p) = Ok true (f_rt f).
Proof.
  exists [97; 36; 98]%N, (made [97; 36; 98]%N). split; [by vm_compute|]. split; [by vm_compute|].
  exists [97; 98]%N. split; [|by vm_compute]. intros (i & a & b & E & _).
  destruct a as [|x a]; [done|]. injection E as <- E. destruct a as [|x a]; [done|]. injection E as <- E.
  destruct a as [|x a]; [done|]. injection E as <- E. by destruct a.
Qed.
Print Assumptions C42_substring_missed_refuted.
Theorem C42_empty_pattern_refuted w : w <> [] -> no_closing_brace w ->
  exists f, suffix_new (PStr w) = Ok f tt /\ has_substring f (PStr []) = Ok true (f_rt f) /\
    count_occurrences f (PStr []) = Ok 0 (f_rt f) /\ occurrences w [] (S (length w)).
Proof.
  intros Hw Hb. destruct (suffix_new_ok w Hw Hb) as (f & L & E & I). exists f. split; [done|].
  destruct (has_substring_ok _ _ _ I []) as (b & Eb & Hbb); [by intros ?%elem_of_nil|]. split; [|split].
  - rewrite Eb. f_equal. apply Hbb. by left.
  - unfold count_occurrences. cbn. unfold bind. cbn. by rewrite bool_decide_eq_true_2.
  - exists (seq 0 (S (length w))). split; [apply NoDup_seq|]. split; [|apply seq_length].
    intros i. rewrite elem_of_seq, occurs_at_drop. split.
    + intros [_ Hi]. split; [lia|apply prefix_nil].
    + intros [Hi _]. lia.
Qed.
Print Assumptions C42_empty_pattern_refuted.

(** ** C43: to_suffix_array *)
(** It is the suffix array exactly when every character of the word follows ["$"]. *)
Theorem C43_suffix_array_partial w : w <> [] -> no_closing_brace w ->
  exists f, suffix_new (PStr w) = Ok f tt /\
    to_suffix_array f ≡ₚ seq 0 (S (length (without_dollar w))) /\
    (is_suffix_array (without_dollar w) (to_suffix_array f) <-> Forall (fun c => (36 < c)%N) (without_dollar w)).
Proof.
  intros Hw Hb. destruct (suffix_new_ok w Hw Hb) as (f & L & E & I). exists f. split; [done|]. split.
  - exact (suffix_array_perm _ _ _ I).
  - exact (suffix_array_ok _ _ _ I).
Qed.
Print Assumptions C43_suffix_array_partial.
Corollary C43_suffix_array_letters_partial w : w <> [] -> no_closing_brace w -> Forall (fun c => (36 < c)%N) w ->
  exists f, suffix_new (PStr w) = Ok f tt /\ is_suffix_array w (to_suffix_array f).
Proof.
  intros Hw Hb Hc. destruct (C43_suffix_array_partial w Hw Hb) as (f & E & _ & H). exists f. split; [done|].
  rewrite without_dollar_id in H; [by apply H|]. intros Hin. rewrite Forall_forall in Hc. apply Hc in Hin. lia.
Qed.
Print Assumptions C43_suffix_array_letters_partial.
Example C43_example : BANANA <> [] /\ no_closing_brace BANANA /\ Forall (fun c => (36 < c)%N) BANANA /\
  to_suffix_array (made BANANA) = [6; 5; 3; 1; 0; 4; 2].
Proof. split; [done|]. split; [|split]; [apply (bool_decide_unpack _); by vm_compute..|]. by vm_compute. Qed.
(** " ": the empty suffix comes after " ". *)
Theorem C43_suffix_array_refuted : exists w f, suffix_new (PStr w) = Ok f tt /\ ~ is_suffix_array w (to_suffix_array f).
Proof.
  exists [32]%N, (made [32]%N). split; [by vm_compute|].
  destruct (C43_suffix_array_partial [32]%N) as (f & E & _ & H); [done|apply (bool_decide_unpack _); by vm_compute|].
  assert (f = made [32]%N) as -> by (unfold made; by rewrite E). 
  intros H'. change [32]%N with (without_dollar [32]%N) in H'. apply H in H'.
  rewrite Forall_forall in H'. by specialize (H' 32%N ltac:(left)).
Qed.
Print Assumptions C43_suffix_array_refuted.

(** ** C44: get_longest_repeated_substring *)
Theorem C44_longest_repeated_partial w : without_dollar w <> [] -> no_closing_brace w ->
  exists f h r, suffix_new (PStr w) = Ok f tt /\ suffix_height f = Ok h (f_rt f) /\
    longest_repeated f = Ok r (f_rt f) /\
    NoDup r /\ r <> [] /\
    (forall v, v ∈ r -> repeated (without_dollar w) v) /\
    (forall v v', v ∈ r -> v' ∈ r -> length v = length v') /\
    (forall v t, v ∈ r -> repeated (without_dollar w) (v ++ t) -> t = []) /\
    (h <= 3 -> forall v, v ∈ r <-> longest_repeated_substring (without_dollar w) v).
Proof.
  intros Hw Hb. assert (w <> []) as Hw' by (by intros ->).
  destruct (suffix_new_ok w Hw' Hb) as (f & L & E & I).
  destruct (lrs_ok _ _ _ I Hw) as (h & r & H). exists f, h, r. by split.
Qed.
Print Assumptions C44_longest_repeated_partial.
(** "banana": "ana". *)
Example C44_example : without_dollar BANANA <> [] /\ no_closing_brace BANANA /\
  suffix_height (made BANANA) = Ok 3 (f_rt (made BANANA)) /\
  longest_repeated (made BANANA) = Ok [[97; 110; 97]%N] (f_rt (made BANANA)).
Proof. split; [done|]. split; [apply (bool_decide_unpack _); by vm_compute|]. by vm_compute. Qed.
(** "aaaabcdefgXbcdefg": only "aaa" is returned, though "bcdefg" is repeated. *)
Definition AAAA : list N := [97; 97; 97; 97; 98; 99; 100; 101; 102; 103; 88; 98; 99; 100; 101; 102; 103]%N.
Theorem C44_longest_repeated_refuted : exists w f v, suffix_new (PStr w) = Ok f tt /\
  longest_repeated f = Ok [v] (f_rt f) /\ exists q, repeated w q /\ length v < length q.
Proof.
  exists AAAA, (made AAAA), [97; 97; 97]%N. split; [by vm_compute|]. split; [by vm_compute|].
  exists [98; 99; 100; 101; 102; 103]%N. split; [|cbn; lia]. exists 4, 11. split; [done|]. split.
  - by exists [97; 97; 97; 97]%N, [88; 98; 99; 100; 101; 102; 103]%N.
  - by exists [97; 97; 97; 97; 98; 99; 100; 101; 102; 103; 88]%N, [].
Qed.
Print Assumptions C44_longest_repeated_refuted.

(** ** C45: get_lowest_common_ancestor *)
Theorem C45_common_prefix_partial w : w <> [] -> no_closing_brace w ->
  exists f, suffix_new (PStr w) = Ok f tt /\
    forall i j, i < length (without_dollar w) -> j <= length (without_dollar w) -> i <> j ->
      exists c, lowest_common_ancestor f (PInt (Z.of_nat i)) (PInt (Z.of_nat j)) = Ok c (f_rt f) /\
        longest_common_prefix (drop i (without_dollar w)) (drop j (without_dollar w)) c.
Proof.
  intros Hw Hb. destruct (suffix_new_ok w Hw Hb) as (f & L & E & I). exists f. split; [done|].
  intros i j Hi Hj Hij. by apply (lca_ok _ _ _ I).
Qed.
Print Assumptions C45_common_prefix_partial.
(** The other indices are refused. *)
Theorem C45_rejected_partial w f : suffix_new (PStr w) = Ok f tt -> forall i j,
  (i < 0 \/ j < 0 \/ Z.of_nat (length (without_dollar w)) <= i \/ Z.of_nat (length (without_dollar w)) < j)%Z ->
  lowest_common_ancestor f (PInt i) (PInt j) = Exc ValueError (f_rt f).
Proof.
  intros E i j H.
  destruct (decide (w = [])) as [->|Hw]; [done|]. destruct (decide (no_closing_brace w)) as [Hb|Hb].
  2: { by rewrite suffix_new_brace in E. }
  destruct (suffix_new_ok w Hw Hb) as (f' & L & E' & I). rewrite E in E'. injection E' as <-.
  unfold lowest_common_ancestor. rewrite (i_word _ _ _ I). unfold raise.
  change (strip_dollar w) with (without_dollar w).
  destruct (Z.ltb_spec i 0), (Z.ltb_spec j 0); try done; cbn [orb].
  destruct (Z.leb_spec (Z.of_nat (length (without_dollar w))) i), (Z.ltb_spec (Z.of_nat (length (without_dollar w))) j); try done. lia.
Qed.
Print Assumptions C45_rejected_partial.
Example C45_example : BANANA <> [] /\ no_closing_brace BANANA /\
  lowest_common_ancestor (made BANANA) (PInt 1) (PInt 3) = Ok [97; 110; 97]%N (f_rt (made BANANA)) /\
  lowest_common_ancestor (made BANANA) (PInt 0) (PInt 6) = Ok [] (f_rt (made BANANA)).
Proof. split; [done|]. split; [apply (bool_decide_unpack _); by vm_compute|]. by vm_compute. Qed.
(** "ab": (0, 2) is answered and (2, 0) refused. *)
Theorem C45_common_prefix_refuted : exists w f i j c, suffix_new (PStr w) = Ok f tt /\
  lowest_common_ancestor f (PInt (Z.of_nat i)) (PInt (Z.of_nat j)) = Ok c (f_rt f) /\ i <= length w /\ j <= length w /\
  lowest_common_ancestor f (PInt (Z.of_nat j)) (PInt (Z.of_nat i)) = Exc ValueError (f_rt f).
Proof. exists [97; 98]%N, (made [97; 98]%N), 0, 2, []. split; [by vm_compute|]. split; [by vm_compute|]. cbn. split; [lia|]. split; [lia|]. by vm_compute. Qed.
Print Assumptions C45_common_prefix_refuted.
(** "$aa": the indices are those of "aa". *)
Theorem C45_dollar_refuted : exists w f i j c, suffix_new (PStr w) = Ok f tt /\ i < length w /\ j < length w /\ i <> j /\
  lowest_common_ancestor f (PInt (Z.of_nat i)) (PInt (Z.of_nat j)) = Ok c (f_rt f) /\
  ~ longest_common_prefix (drop i w) (drop j w) c.
Proof.
  exists [36; 97; 97]%N, (made [36; 97; 97]%N), 0, 1, [97]%N. split; [by vm_compute|].
  split; [cbn; lia|]. split; [cbn; lia|]. split; [done|]. split; [by vm_compute|].
  intros [[t Ht] _]. done.
Qed.
Print Assumptions C45_dollar_refuted.
