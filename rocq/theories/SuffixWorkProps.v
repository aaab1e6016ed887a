(** * C81: the work of SuffixTrie

    Specification: WalkSpec.v ([at_most], [counts]) and SuffixSpec.v ([occurrences],
    [without_dollar]).  Model: SuffixWorkModel.v.  Proofs: SuffixWorkThm.v. *)
From stdpp Require Import gmap.
From Verif Require Import Base TrieModel TrieSpec SuffixModel SuffixSpec SuffixThm SuffixThm2 SuffixProps SuffixFindSpec SuffixProps3
  WalkModel WalkSpec TrieWorkModel TrieWorkThm TrieWorkProps SuffixWorkModel SuffixWorkThm.

(** [c], run on the trie of [f], does what [r] says the call does. *)
Definition same_call {A} (f : sfx) (c : M (ts * nat) A) (r : res ts A) : Prop :=
  forall k, match c (f_rt f, k) with
            | Ok a p => r = Ok a p.1
            | Exc e p => r = Exc e p.1
            | Diverge => r = Diverge
            end.
(** The counted functions are those of the model. *)
Theorem C81_same :
  (forall v, counts (suffix_init_c v) (suffix_init v))
  /\ (forall f v, same_call f (has_substring_c v) (has_substring f v))
  /\ (forall f v, same_call f (count_occurrences_c v) (count_occurrences f v))
  /\ (forall f i j, same_call f (lowest_common_ancestor_c f i j) (lowest_common_ancestor f i j)).
Proof.
  split_and!; [apply co_init| | |].
  - intros f v k. exact (proj1 (proj2 C79_same) v (f_rt f) k).
  - intros f v k. apply co_count.
  - intros f i j k. apply co_lca.
Qed.
Print Assumptions C81_same.

Lemma made_inv w f : suffix_new (PStr w) = Ok f tt -> exists L, sinv f (without_dollar w) L.
Proof.
  intros E. destruct (decide (w = [])) as [->|Hw]; [done|]. destruct (decide (no_closing_brace w)) as [Hb|Hb].
  2: { by rewrite suffix_new_brace in E. }
  destruct (suffix_new_ok w Hw Hb) as (f' & L & E' & I). rewrite E in E'. injection E' as <-. by exists L.
Qed.
(** Building: [n + 1] insertions of at most [n + 7] rounds and of at least one, [n] the length of
    the word without "$" (documented: O(n^2)). *)
Theorem C81_build w : let n := length (without_dollar w) in
  at_most trie_new (suffix_init_c (PStr w)) ((n + 1) * (n + 7)) /\ at_least trie_new (suffix_init_c (PStr w)) (n + 1).
Proof. split; [apply init_steps|apply init_least]. Qed.
Print Assumptions C81_build.
(** Asking: has_substring takes at most [m] rounds, [m] the length of the pattern, as
    documented; get_lowest_common_ancestor no more than the suffixes at its two positions are
    long. *)
Theorem C81_ask w f : suffix_new (PStr w) = Ok f tt ->
  (forall p, at_most (f_rt f) (has_substring_c (PStr p)) (length p))
  /\ let n := length (without_dollar w) in
     forall i j, at_most (f_rt f) (lowest_common_ancestor_c f (PInt (Z.of_nat i)) (PInt (Z.of_nat j))) ((n - i) + (n - j)).
Proof.
  intros (L & I)%made_inv. split.
  - intros p. by eapply has_prefix_steps, sfx_rep.
  - intros n i j. by eapply lca_steps.
Qed.
Print Assumptions C81_ask.
(** count_pattern_occurrences returning [r] takes at least [r] and at most [m + 2r - 1]
    rounds and visits ([m] if [r] is 0; [-] stops at 0), and at most [m] if it raises. *)
Theorem C81_count w f p k : suffix_new (PStr w) = Ok f tt ->
  match count_occurrences_c (PStr p) (f_rt f, k) with
  | Ok r q => k + r <= q.2 <= k + length p + (2 * r - 1)
  | Exc _ q => q.2 <= k + length p
  | Diverge => False
  end.
Proof.
  intros E. destruct (made_inv w f E) as (L & I). pose proof (count_steps f _ L I p k) as H. pose proof (co_count (PStr p) f k) as Hc.
  unfold wpc in H. destruct (count_occurrences_c (PStr p) (f_rt f, k)) as [r q|e q|]; [lia|done|].
  assert (w <> []) as Hw by (by intros ->). assert (no_closing_brace w) as Hb.
  { destruct (decide (no_closing_brace w)) as [|Hb]; [done|]. exfalso. by rewrite (suffix_new_brace w Hb) in E. }
  destruct (C42_exact w Hw Hb) as (f' & E' & Hx). rewrite E in E'. injection E' as <-. destruct (Hx p) as [H1 H2].
  assert (~ exists r, lost (without_dollar w) p r) as Hr.
  { intros (r & Hr). destruct (H1 r Hr) as [_ H3]. rewrite Hc in H3. by destruct r. }
  destruct (H2 Hr) as (_ & l & _ & _ & H3). congruence.
Qed.
Print Assumptions C81_count.
(** The documented O(m) is wrong: no [a] and [b] make [a m + b] a limit, not even for the
    pattern "a". *)
Theorem C81_count_refuted a b : exists w f r q, suffix_new (PStr w) = Ok f tt
  /\ count_occurrences_c (PStr [97%N]) (f_rt f, 0) = Ok r q /\ a * length [97%N] + b < q.2.
Proof.
  set (n := a + b + 1). assert (without_dollar (repeat 97%N n) = repeat 97%N n) as Hwd.
  { unfold without_dollar. clearbody n. induction n as [|n IH]; [done|]. cbn. by f_equal. }
  assert (no_closing_brace (repeat 97%N n)) as Hb. { intros H. by apply elem_of_list_In, repeat_spec in H. }
  destruct (C42_substring_search_partial (repeat 97%N n)) as (f & E & H); [unfold n; by rewrite Nat.add_1_r|done|].
  destruct (H [97%N]) as [_ Hc]; [by intros ?%elem_of_list_singleton..|]. destruct Hc as (r & Er & l & Hnd & Hl & Hr); [done|]. rewrite Hwd in Hl.
  assert (n <= r) as Hn.
  { rewrite <- Hr, <- (seq_length n 0). apply submseteq_length, NoDup_submseteq; [apply NoDup_seq|]. intros i Hi%elem_of_seq. apply Hl.
    exists (repeat 97%N i), (repeat 97%N (n - i - 1)). split; [|apply repeat_length].
    change ([97%N] ++ repeat 97%N (n - i - 1)) with (repeat 97%N (S (n - i - 1))). rewrite <- repeat_app. f_equal. lia. }
  exists (repeat 97%N n), f. pose proof (C81_count _ f [97%N] 0 E) as H1. pose proof (co_count (PStr [97%N]) f 0) as H2.
  destruct (count_occurrences_c (PStr [97%N]) (f_rt f, 0)) as [r' q|e q|]; rewrite Er in H2; [|done|done]. injection H2 as <- _.
  exists r, q. split; [done|]. split; [done|]. cbn [length]. lia.
Qed.
Print Assumptions C81_count_refuted.
(** "banana" is built in 17 rounds; "ana" is found in two rounds and counted (twice) in five; the suffixes
    at 1 and 3. *)
Example C81_example :
  suffix_new (PStr BANANA) = Ok (made BANANA) tt
  /\ (match suffix_init_c (PStr BANANA) (trie_new, 0) with Ok _ p => Some p.2 | _ => None end,
      match has_substring_c (PStr [97; 110; 97]%N) (f_rt (made BANANA), 0) with Ok b p => Some (b, p.2) | _ => None end,
      match count_occurrences_c (PStr [97; 110; 97]%N) (f_rt (made BANANA), 0) with Ok r p => Some (r, p.2) | _ => None end,
      match lowest_common_ancestor_c (made BANANA) (PInt 1) (PInt 3) (f_rt (made BANANA), 0) with Ok r p => Some (r, p.2) | _ => None end)
     = (Some 17, Some (true, 2), Some (2, 5), Some ([97; 110; 97]%N, 4)).
Proof. split; by vm_compute. Qed.
