(** * C39 for any history and any strings *)
From stdpp Require Import gmap.
From Verif Require Import Base TrieModel TrieRep TrieSpec TrieThm TrieThm2 TrieThm3 TrieProps.

(** After any history with any strings (those that are refused included) a Trie holds the set of words
    [trie_words h ∅] of TrieSpec.v: its size, its emptiness, and the answers to every string that is not
    [bad] are those of the set.  (The calls given a bad string are in C40_failures_partial.) *)
Theorem C39_exact (h : list trie_op) : exists s, trie_run CTrie h trie_new = Some s /\
  let W := trie_words h ∅ in
  trie_len s = Ok (1 + Z.of_nat (size (prefixes W)))%Z s /\
  trie_is_empty s = Ok (bool_decide (W = ∅)) s /\
  (forall w, trie_contains (PStr w) s = Ok true s <-> w ∈ W) /\
  forall w, ~ bad W w ->
    trie_contains (PStr w) s = Ok (bool_decide (w ∈ W)) s /\
    (exists b, trie_has_prefix (PStr w) s = Ok b s /\ (b = true <-> is_prefix W w)) /\
    (exists o, trie_auto_complete (PStr w) s = Ok o s /\ NoDup o /\
               forall v, v ∈ o <-> v ∈ W /\ w `prefix_of` v).
Proof.
  destruct trep_new as [T0 Hs0]. destruct (trie_run_ok h _ _ _ T0 Hs0) as (s & L & E & T & Hs).
  exists s. split; [done|]. cbv zeta. split; [by eapply len_ok|]. split; [by eapply is_empty_ok|]. split.
  - intros w. destruct (contains_ok _ _ _ w T) as [->|[-> (q & r & Hf)]].
    + split; [|intros; by rewrite bool_decide_eq_true_2]. intros [= H]. by apply bool_decide_eq_true in H.
    + split; [done|]. intros Hw. by destruct (falls_not_prefix _ _ _ _ _ _ _ T Hf w Hw).
  - intros w Hnb. rewrite <- (falls_bad _ _ _ _ T Hs) in Hnb. split; [|split].
    + destruct (contains_ok _ _ _ w T) as [?|[_ ?]]; done.
    + destruct (has_prefix_ok _ _ _ w T) as [?|(q & r & Hf & _)]; [done|]. destruct Hnb; by eauto.
    + destruct (trie_complete_ok _ _ _ w T Hs) as [?|[_ ?]]; done.
Qed.
Print Assumptions C39_exact.
(** [a]=97 [b]=98 [}]=125: "a}b" is refused after "a" (an empty trie would store it). *)
Example C39_exact_example :
  trie_words [TInsert (PStr [97]%N); TInsert (PStr [97;125;98]%N); TInsert (PStr [97;98]%N)] ∅ = {[ [97]; [97;98] ]}%N /\
  trie_words [TInsert (PStr [97;125;98]%N)] ∅ = {[ [97;125;98] ]}%N /\
  bad_b (trie_words [TInsert (PStr [97]%N); TInsert (PStr [97;98]%N)] ∅) [98;125]%N = false.
Proof. split; [|split]; [apply (bool_decide_unpack _); by vm_compute..|by vm_compute]. Qed.
