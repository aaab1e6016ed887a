(** * C79: the work of Trie and RadixTrie

    Specification: WalkSpec.v ([at_most], [at_least], [takes], [counts]) and TrieSpec.v
    (histories, [trie_words], [prefixes]).  Model: TrieWorkModel.v.  Proofs: TrieWorkThm.v. *)
From stdpp Require Import gmap.
From Verif Require Import Base TrieModel TrieRep TrieSpec TrieThm TrieThm2 TrieProps TrieProps3 RadixSpec RadixThm RadixProps
  WalkModel WalkSpec TrieWorkModel TrieWorkThm.

(** The counted functions are those of the model. *)
Theorem C79_same :
  (forall v, counts (contains_c v) (trie_contains v)) /\ (forall v, counts (has_prefix_c v) (trie_has_prefix v))
  /\ (forall v, counts (insert_c CTrie v) (trie_insert v)) /\ (forall v, counts (insert_c CRadix v) (radix_insert v))
  /\ (forall v, counts (remove_c v) (trie_remove v))
  /\ (forall c v, counts (auto_complete_c c v) (auto_complete_call c v)).
Proof.
  split_and!; intros; [apply co_contains|apply co_has_prefix|apply co_t_insert|apply co_r_insert|apply co_remove|].
  destruct c; [apply co_t_auto|apply co_r_auto].
Qed.
Print Assumptions C79_same.

Lemma reach_rep c h s : trie_run c h trie_new = Some s -> exists L, rep s L.
Proof.
  intros E. destruct c.
  - destruct trep_new as [T0 Hs0]. destruct (trie_run_ok h _ _ _ T0 Hs0) as (s' & L & E' & T & _). rewrite E in E'. injection E' as <-.
    exists L. apply (x_rep _ _ _ _ T).
  - destruct (radix_reach h) as (s' & L & E' & T & _). rewrite E in E'. injection E' as <-. exists L. apply (x_rep _ _ _ _ T).
Qed.
(** The documented O(m), m the length of the argument: after any history, whatever the number
    of stored words. *)
Theorem C79_limits c h s w : trie_run c h trie_new = Some s ->
  at_most s (contains_c (PStr w)) (length w) /\ at_most s (has_prefix_c (PStr w)) (length w)
  /\ at_most s (insert_c c (PStr w)) (length w + 2) /\ at_most s (remove_c (PStr w)) (2 * length w + 1).
Proof.
  intros (L & R)%reach_rep. split_and!; [by eapply contains_steps|by eapply has_prefix_steps| |by eapply remove_steps].
  destruct c; [|by eapply r_insert_steps]. intros k. pose proof (t_insert_steps s L w R k) as H. cbn [insert_c].
  destruct (t_insert_c (PStr w) (s, k)); [lia|lia|done].
Qed.
Print Assumptions C79_limits.
(** In a Trie, finding and removing a stored word and adding any word take that many rounds
    indeed; completing a prefix [w] visits one node for each longer prefix of a stored word. *)
Theorem C79_trie_exact h s w : trie_run CTrie h trie_new = Some s ->
  let W := trie_words h ∅ in
  (w ∈ W -> takes s (contains_c (PStr w)) (length w) /\ at_least s (remove_c (PStr w)) (length w + 1))
  /\ at_least s (insert_c CTrie (PStr w)) (length w)
  /\ (is_prefix W w -> takes s (auto_complete_c CTrie (PStr w))
        (length w + size (filter (fun q => w `prefix_of` q /\ q <> w) (prefixes W)))).
Proof.
  intros E W. destruct trep_new as [T0 Hs0]. destruct (trie_run_ok h _ _ _ T0 Hs0) as (s' & L & E' & T & Hs). rewrite E in E'. injection E' as <-.
  pose proof (x_rep _ _ _ _ T) as R. split_and!.
  - intros Hw. destruct (x_live _ _ _ _ T _ Hw) as (i & Hi). split; [split; [by eapply contains_steps|by eapply t_contains_exact]|].
    eapply t_remove_exact; try done. intros ->. by destruct (x_nil _ _ _ _ T).
  - by eapply t_insert_exact.
  - intros Hp. assert (exists i, L !! i = Some w) as (i & Hi).
    { destruct Hp as [->|(v & Hv & Hpre)]; [exists (t_root s); apply (r_root _ _ R)|].
      destruct (x_live _ _ _ _ T _ Hv) as (b & Hb). by eapply live_up. }
    by eapply t_auto_exact.
Qed.
Print Assumptions C79_trie_exact.
(** In both classes completion makes no more than [m] + len(trie) rounds and visits, and at
    least as many as it finds words, but one. *)
Theorem C79_auto_complete c h s w z : trie_run c h trie_new = Some s -> trie_len s = Ok z s ->
  at_most s (auto_complete_c c (PStr w)) (length w + Z.to_nat z)
  /\ forall k r p, auto_complete_c c (PStr w) (s, k) = Ok r p -> k + length r <= p.2 + 1.
Proof.
  intros (L & R)%reach_rep Hz. injection Hz as <-. split.
  - destruct c; [by eapply t_auto_limit|by eapply r_auto_limit].
  - intros k r p E. pose proof (auto_results c (PStr w) s k) as H. unfold wpc in H. by rewrite E in H.
Qed.
Print Assumptions C79_auto_complete.

(** The words a, aa, aaa, ... *)
Definition as_words (n : nat) : list (list N) := map (fun i => repeat 97%N (S i)) (seq 0 n).
Lemma set_run_all ws S v : Forall (fun w => blank w = false) ws -> v ∈ ws \/ v ∈ S -> v ∈ set_run (map (fun w => TInsert (PStr w)) ws) S.
Proof.
  unfold set_run. revert S. induction ws as [|w ws IH]; intros S Hb Hv; cbn [map fold_left].
  - destruct Hv as [Hv|Hv]; [by apply elem_of_nil in Hv|done].
  - apply Forall_cons in Hb as [Hw Hb]. apply IH; [done|]. cbn. rewrite Hw. rewrite elem_of_cons in Hv. set_solver.
Qed.
Lemma as_nonblank n : Forall (fun w => blank w = false) (as_words n).
Proof. apply Forall_forall. intros w (i & <- & _)%elem_of_list_In%in_map_iff. done. Qed.
Lemma as_no_brace n : Forall op_no_brace (map (fun w => TInsert (PStr w)) (as_words n)).
Proof.
  apply Forall_forall. intros o (w & <- & (i & <- & _)%in_map_iff)%elem_of_list_In%in_map_iff. cbn.
  intros H. apply elem_of_cons in H as [H|H]; [done|]. by apply elem_of_list_In, repeat_spec in H.
Qed.
Lemma as_nodup n : NoDup (as_words n).
Proof. apply NoDup_fmap_2; [|apply NoDup_seq]. intros i j H%(f_equal length). rewrite !repeat_length in H. lia. Qed.
(** The documented O(m) of completion is wrong in both classes: no [a] and [b] make
    [a m + b] a limit, not even for the prefix "a". *)
Theorem C79_auto_complete_refuted c a b : exists h s r p,
  trie_run c h trie_new = Some s /\ auto_complete_c c (PStr [97%N]) (s, 0) = Ok r p /\ a * length [97%N] + b < p.2.
Proof.
  set (n := a + b + 2). set (h := map (fun w => TInsert (PStr w)) (as_words n)).
  assert (exists s, trie_run c h trie_new = Some s /\ exists o, auto_complete_call c (PStr [97%N]) s = Ok o s /\
    forall v, v ∈ o <-> v ∈ set_run h ∅ /\ [97%N] `prefix_of` v) as (s & E & o & Eo & Ho).
  { assert (no_brace [97%N]) as Hnb by (by intros H%elem_of_list_singleton). destruct c.
    - destruct (C39_trie_partial h (as_no_brace n)) as (s & E & H & _). exists s. split; [done|].
      destruct (H _ Hnb) as (_ & _ & o & Eo & _ & Ho). by exists o.
    - destruct (C41_radix_partial h (as_no_brace n)) as (s & E & H). exists s. split; [done|].
      destruct (H _ Hnb) as (_ & _ & (o & Eo & _ & Ho) & _). by exists o. }
  assert (n <= length o) as Hn.
  { replace n with (length (as_words n)) by (unfold as_words; by rewrite map_length, seq_length).
    apply submseteq_length, NoDup_submseteq; [apply as_nodup|]. intros v Hv. apply Ho. split.
    - apply set_run_all; [apply as_nonblank|by left].
    - apply elem_of_list_In, in_map_iff in Hv as (i & <- & _). by exists (repeat 97%N i). }
  pose proof ((proj2 (proj2 (proj2 (proj2 (proj2 C79_same))))) c (PStr [97%N]) s 0) as Hc.
  destruct (auto_complete_c c (PStr [97%N]) (s, 0)) as [r p|e p|] eqn:Er; rewrite Eo in Hc; [|done|done].
  injection Hc as <- Hs. exists h, s, o, p. split; [done|]. split; [by rewrite Er|].
  pose proof (proj2 (C79_auto_complete c h s [97%N] (t_count s) E eq_refl) 0 o p Er). cbn [length]. lia.
Qed.
Print Assumptions C79_auto_complete_refuted.

(** The hypotheses are met: "car", "cart" and "cast" (a 97, c 99, r 114, s 115, t 116); the rounds
    of finding "cart", adding "cat", removing "cart" and completing "ca". *)
Example C79_example :
  let h := map (fun w => TInsert (PStr w)) [[99;97;114]; [99;97;114;116]; [99;97;115;116]]%N in
  let rounds {A} (c : trie_cls) (m : M (ts * nat) A) := match trie_run c h trie_new with Some s => match m (s, 0) with Ok _ p => Some p.2 | _ => None end | None => None end in
  (rounds CTrie (contains_c (PStr [99;97;114;116]%N)), rounds CTrie (insert_c CTrie (PStr [99;97;116]%N)),
   rounds CTrie (remove_c (PStr [99;97;114;116]%N)), rounds CTrie (auto_complete_c CTrie (PStr [99;97]%N))) = (Some 4, Some 4, Some 6, Some 6)
  /\ (rounds CRadix (contains_c (PStr [99;97;114;116]%N)), rounds CRadix (insert_c CRadix (PStr [99;97;116]%N)),
   rounds CRadix (remove_c (PStr [99;97;114;116]%N)), rounds CRadix (auto_complete_c CRadix (PStr [99;97]%N))) = (Some 3, Some 3, Some 5, Some 4).
Proof. split; by vm_compute. Qed.
