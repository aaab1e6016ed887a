(** * C44 exactly: which strings get_longest_repeated_substring returns *)
From Verif Require Import Base TrieModel SuffixModel SuffixSpec SuffixDeepSpec SuffixThm SuffixThm2 SuffixThm4 SuffixThm5 SuffixProps.

(** For every word: the longest ones among the points where suffixes part that are nested at most one
    less deep than the deepest (the result for words of "$" alone is [""]). *)
Theorem C44_exact w : w <> [] -> no_closing_brace w ->
  exists f r, suffix_new (PStr w) = Ok f tt /\ longest_repeated f = Ok r (f_rt f) /\ NoDup r /\
    forall v, v ∈ r <-> if bool_decide (without_dollar w = []) then v = [] else longest_near_deepest (without_dollar w) v.
Proof.
  intros Hw Hb. destruct (suffix_new_ok w Hw Hb) as (f & L & E & I). change (strip_dollar w) with (without_dollar w) in I.
  destruct (bool_decide_reflect (without_dollar w = [])) as [Ew|Ew].
  - rewrite Ew in I. exists f, [[]]. split; [done|]. split; [by eapply deep_empty|]. split; [apply NoDup_singleton|].
    intros v. apply elem_of_list_singleton.
  - destruct (deep_exact _ _ _ I Ew) as (r & Hr & Hnd & H). by exists f, r.
Qed.
Print Assumptions C44_exact.
(** So the answer is right exactly when no longest repeated substring is nested less deep than that. *)
Theorem C44_right_iff w f r : without_dollar w <> [] -> suffix_new (PStr w) = Ok f tt -> longest_repeated f = Ok r (f_rt f) ->
  (forall v, v ∈ r <-> longest_repeated_substring (without_dollar w) v) <->
  (forall v, longest_repeated_substring (without_dollar w) v -> near_deepest (without_dollar w) v).
Proof.
  intros Hw E Er. assert (w <> []) as Hw' by (by intros ->).
  assert (no_closing_brace w) as Hb.
  { destruct (decide (no_closing_brace w)) as [|Hb]; [done|]. exfalso. by rewrite (suffix_new_brace w Hb) in E. }
  destruct (C44_exact w Hw' Hb) as (f' & r' & E' & Er' & _ & H). rewrite E in E'. injection E' as <-.
  rewrite Er in Er'. injection Er' as <-. rewrite bool_decide_eq_false_2 in H by done.
  set (u := without_dollar w) in *. split.
  - intros Hr v Hv%Hr%H. apply Hv.
  - intros Hall v. rewrite H. split.
    + intros [Hv Hmax]. split; [apply parts_repeated, Hv|]. intros q Hq. destruct (longest_exists u Hw) as (v0 & Hv0).
      etrans; [apply Hv0, Hq|]. apply Hmax. by apply Hall.
    + intros Hv. split; [by apply Hall|]. intros q [Hq _]. apply Hv. by apply parts_repeated.
Qed.
Print Assumptions C44_right_iff.

(** In "aaaabcdefgXbcdefg" the suffixes part at "aaa", nested below "", "a" and "aa"; the repeated
    "bcdefg" is nested below "" alone. *)
Example C44_deep_example : AAAA <> [] /\ no_closing_brace AAAA /\ without_dollar AAAA = AAAA /\
  suffixes_part_at AAAA [97; 97; 97]%N /\ suffixes_part_at AAAA [98; 99; 100; 101; 102; 103]%N.
Proof.
  split; [done|]. split; [apply (bool_decide_unpack _); by vm_compute|]. split; [done|]. split.
  - exists 0, 1. split; [done|]. do 2 (split; [cbn; lia|]). change [97; 97; 97]%N with (get_lcp (drop 0 AAAA) (drop 1 AAAA)). apply get_lcp_is_lcp.
  - exists 4, 11. split; [done|]. do 2 (split; [cbn; lia|]).
    change [98; 99; 100; 101; 102; 103]%N with (get_lcp (drop 4 AAAA) (drop 11 AAAA)). apply get_lcp_is_lcp.
Qed.
Lemma ok_inj {S A} (x : res S A) a b t : x = Ok a t -> x = Ok b t -> a = b.
Proof. congruence. Qed.
(** For "banana" the hypotheses and both sides of the equivalence hold. *)
Example C44_right_example : without_dollar BANANA <> [] /\
  forall v, longest_repeated_substring BANANA v -> near_deepest BANANA v.
Proof.
  split; [done|]. destruct (C44_longest_repeated_partial BANANA) as (f & h & r & E & Eh & Er & _ & _ & _ & _ & _ & H); [done|apply (bool_decide_unpack _); by vm_compute|].
  apply (C44_right_iff BANANA f r); [done..|]. apply H.
  assert (h = 3) as ->; [|done]. clear H Er r. assert (made BANANA = f) as <- by (unfold made; by rewrite E).
  eapply ok_inj; [exact Eh|]. by vm_compute.
Qed.
