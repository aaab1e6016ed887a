(** * RadixTrie: every call, after every history, with any strings

    A reader needs RadixSpec.v: the reference is the set of words together with the points at which
    a node is kept. *)
From stdpp Require Import gmap.
From Verif Require Import Base TrieModel TrieRep TrieSpec TrieThm TrieThm2 TrieThm3 TrieProps.
From Verif Require Import TrieSpec2 TrieThm4 LevelModel TrieThm5 TrieThm6 TrieProps2 RadixSpec RadixThm.
Local Open Scope py_scope.

Lemma radix_reach h : exists s L, trie_run CRadix h trie_new = Some s /\ trep s L (rx_words (radix_ref h)) /\ points L (rx_points (radix_ref h)).
Proof.
  destruct trep_new as [T0 _].
  destruct (radix_run_exact h trie_new {[0 := []]} (Radix ∅ ∅) T0) as (s & L & E & T & HP); [|by exists s, L].
  intros p. cbn. split; [by intros ?%elem_of_empty|]. by intros (Hp & i & [_ <-]%lookup_singleton_Some).
Qed.

(** The points lie between the words and their prefixes. *)
Lemma radix_ref_sound h : rx_words (radix_ref h) ⊆ rx_points (radix_ref h) /\ rx_points (radix_ref h) ⊆ prefixes (rx_words (radix_ref h)).
Proof.
  destruct (radix_reach h) as (s & L & _ & T & HP). split.
  - intros w Hw. apply HP. split; [intros ->; by apply (x_nil _ _ _ _ T)|]. by apply (x_live _ _ _ _ T).
  - intros p (Hp & i & Hi)%HP. apply elem_of_prefixes. split; [done|].
    destruct (ext' _ _ _ _ _ T Hi Hp) as (t & Ht). exists (p ++ t). split; [done|by eexists].
Qed.

(** ** C41: after any history of calls with any arguments, the answers of a RadixTrie and the calls
    that raise are those of the reference.  The calls that raise are those given a string that is
    [off] (all but has_prefix of one that stops at its brace, which answers True), insertions of a
    blank string and the removal of the only word; only the last of these changes anything. *)
Theorem C41_exact (h : list trie_op) :
  exists s, trie_run CRadix h trie_new = Some s /\
  let W := rx_words (radix_ref h) in let P := rx_points (radix_ref h) in
  forall w,
  (off P w ->
     trie_contains (PStr w) s = Exc AttributeError s /\
     radix_auto_complete (PStr w) s = Exc AttributeError s /\
     trie_remove (PStr w) s = Exc AttributeError s /\
     (blank w = false -> radix_insert (PStr w) s = Exc AttributeError s) /\
     (~ ends_off P w -> trie_has_prefix (PStr w) s = Exc AttributeError s) /\
     (ends_off P w -> trie_has_prefix (PStr w) s = Ok true s)) /\
  (~ off P w ->
     trie_contains (PStr w) s = Ok (bool_decide (w ∈ W)) s /\
     (exists b, trie_has_prefix (PStr w) s = Ok b s /\ (b = true <-> is_prefix W w)) /\
     (exists o, radix_auto_complete (PStr w) s = Ok o s /\ NoDup o /\
                forall v, v ∈ o <-> v ∈ W /\ w `prefix_of` v) /\
     (blank w = false -> exists s', radix_insert (PStr w) s = Ok tt s') /\
     (W = {[w]} -> exists s', trie_remove (PStr w) s = Exc AttributeError s') /\
     (W <> {[w]} -> exists s', trie_remove (PStr w) s = Ok false s')) /\
  (blank w = true -> radix_insert (PStr w) s = Exc ValueError s).
Proof.
  destruct (radix_reach h) as (s & L & E & T & HP).
  exists s. split; [done|]. cbv zeta. intros w. split; [by eapply off_fails|]. split.
  - intros Hnb. rewrite <- (falls_off _ _ _ _ _ T HP) in Hnb. split_and!.
    + destruct (contains_ok _ _ _ w T) as [?|[_ ?]]; done.
    + destruct (has_prefix_ok _ _ _ w T) as [?|(q & r & Hf & _)]; [done|]. destruct Hnb; by eauto.
    + destruct (radix_complete_ok _ _ _ w T) as [?|[_ ?]]; done.
    + intros Hb. destruct (radix_insert_ok s L _ w T Hb) as [(s' & L' & -> & _)|[_ ?]]; [by eexists|done].
    + intros HW. destruct (remove_ok s L _ w T) as [(s' & L' & E' & _)|[_ ?]]; [|done].
      exists s'. rewrite E', decide_True; [done|]. rewrite HW. set_solver.
    + intros HW. destruct (remove_ok s L _ w T) as [(s' & L' & E' & _)|[_ ?]]; [|done].
      exists s'. rewrite E', decide_False; [done|]. intros [Hin He]. apply HW.
      apply set_eq. intros v. rewrite elem_of_singleton. split; [|by intros ->]. intros Hv.
      destruct (decide (v = w)); [done|]. exfalso. apply (not_elem_of_empty (C:=words) v). rewrite <- He.
      apply elem_of_difference. by rewrite elem_of_singleton.
  - intros Hb. unfold radix_insert, trie_validate. by rewrite Hb.
Qed.
Print Assumptions C41_exact.
(** [a]=97 [b]=98 [c]=99 [}]=125.  Three strings with a brace are accepted or refused according to
    where the points are: "ab}c" and "ac}" are stored, "a}" and "}" are refused; removing "abb" leaves
    the points "a" and "ab" behind. *)
Definition C41_hist : list trie_op :=
  [TInsert (PStr [97;98;125;99]%N); TInsert (PStr [97;98;98]%N); TInsert (PStr [97;99;125]%N); TInsert (PStr [97;125]%N);
   TInsert (PStr [125]%N); TRemove (PStr [97;98;98]%N)].
Example C41_exact_hyps :
  rx_words (radix_ref C41_hist) = {[ [97;98;125;99]; [97;99;125] ]}%N /\
  rx_points (radix_ref C41_hist) = {[ [97]; [97;98]; [97;98;125;99]; [97;99;125] ]}%N /\
  off_b (rx_points (radix_ref C41_hist)) [97;125]%N = true /\
  off_b (rx_points (radix_ref C41_hist)) [97;99;98;125]%N = false /\
  option_map (fun s => (radix_auto_complete (PStr [97]%N) s, trie_has_prefix (PStr [97;125]%N) s, trie_contains (PStr [97;98;125;99]%N) s)) (trie_run CRadix C41_hist trie_new) =
  option_map (fun s => (Ok [[97;98;125;99];[97;99;125]]%N s, Ok true s, Ok true s)) (trie_run CRadix C41_hist trie_new).
Proof.
  split; [apply (bool_decide_unpack _); by vm_compute|]. split; [apply (bool_decide_unpack _); by vm_compute|].
  split; [by vm_compute|]. split; by vm_compute.
Qed.

(** ** C53: the size and the levels, after any history.  The nodes other than the root are the points
    of the reference; len is one more than their number, and the data of the nodes spells them, each
    once. *)
Theorem C53_exact (h : list trie_op) : exists s, trie_run CRadix h trie_new = Some s /\
  let W := rx_words (radix_ref h) in let P := rx_points (radix_ref h) in
  (forall w, trie_contains (PStr w) s = Ok true s <-> w ∈ W) /\
  trie_len s = Ok (1 + Z.of_nat (size P))%Z s /\
  trie_is_empty s = Ok (bool_decide (P = ∅)) s /\
  W ⊆ P /\ P ⊆ prefixes W /\
  exists ls pss, trie_levels s = Ok ls s /\ trie_height s = Ok (length ls) s /\ trie_to_list s = Ok (mjoin ls) s /\
    spells pss ls /\ NoDup (mjoin pss) /\ forall p, p ∈ mjoin pss <-> p ∈ P.
Proof.
  destruct (radix_reach h) as (s & L & E & T & HP). destruct (radix_ref_sound h) as [HS1 HS2].
  exists s. split; [done|]. cbv zeta. split; [intros w; by eapply contains_iff|]. split; [by eapply points_size|].
  split.
  { rewrite (is_empty_ok _ _ _ T). f_equal. apply bool_decide_ext. split; intros H.
    - apply set_eq. intros p. split; [|by intros ?%elem_of_empty]. intros Hp%HS2. rewrite H in Hp. apply elem_of_prefixes in Hp as (_ & w & ?%elem_of_empty & _). done.
    - apply set_eq. intros p. split; [|by intros ?%elem_of_empty]. intros Hp%HS1. by rewrite H in Hp. }
  split; [done|]. split; [done|].
  destruct (levels_any s L _ T) as (Hh & Hd & Hl & Ht). pose proof (x_rep _ _ _ _ T) as R.
  eexists _, (map (map (path_of L)) (the_levels s)). split; [exact Hl|]. rewrite map_length. split; [done|]. split; [done|].
  split; [by apply spells_ok|]. rewrite mjoin_map. split; [by apply paths_nodup|].
  intros p. rewrite (paths_elem s L p R). symmetry. apply HP.
Qed.
Print Assumptions C53_exact.
Example C53_exact_example :
  rx_points (radix_ref [TInsert (PStr [97;98]%N); TInsert (PStr [97;99]%N); TRemove (PStr [97;98]%N)]) = {[ [97]; [97;99] ]}%N /\
  rx_points (radix_ref [TInsert (PStr [97;99]%N)]) = {[ [97;99] ]}%N.
Proof. split; apply (bool_decide_unpack _); by vm_compute. Qed.
