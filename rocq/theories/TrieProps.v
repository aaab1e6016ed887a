(** * Properties C39-C41: Trie and RadixTrie as sets of words *)
From stdpp Require Import gmap.
From Verif Require Import Base TrieModel TrieRep TrieSpec TrieThm TrieThm2.

(** ** The state after any history *)
Lemma stuck_not_falls s L j q rem q' r' : rep s L -> L !! j = Some q -> stuck s j rem ->
  falls s L (q ++ rem) q' r' -> False.
Proof.
  intros R Hj Hst [Hw (j' & nj' & Hj' & Hnj' & Hd')].
  destruct (prefix_split _ _ _ _ Hw) as [(t & -> & Ht)|(t & -> & Ht)].
  - destruct t as [|k t].
    + cbn in Ht. subst rem. rewrite app_nil_r in Hj. rewrite (r_inj _ _ R _ _ _ Hj Hj') in Hst.
      destruct Hst as [?|(k & r & n & [= <- <-] & Hn & [[_ ?]|(c & m & Hd & _)])]; congruence.
    + injection Ht as <- Ht. by destruct (nav_fresh _ _ _ _ _ _ _ _ R Hj' Hnj' Hd' Hj).
  - destruct t as [|k t].
    + rewrite app_nil_r in Hj'. cbn in Ht. subst rem. rewrite (r_inj _ _ R _ _ _ Hj Hj') in Hst.
      destruct Hst as [?|(k & r & n & [= <- <-] & Hn & [[_ ?]|(c & m & Hd & _)])]; congruence.
    + subst rem. destruct Hst as [?|(k' & r & n & [= <- <-] & Hn & Hst)]; [done|].
      destruct (nav _ _ R _ _ _ _ _ _ Hj Hn Hj') as (c & m & Hin & Hm & Hpre).
      destruct (rep_get _ _ _ _ _ R Hj Hn) as (Hnd & _). pose proof (in_dget _ _ _ Hnd Hin) as Hd.
      destruct Hst as [[? _]|(c' & m' & Hd'' & Hm' & Hno)]; [congruence|]. apply Hno.
      rewrite Hd in Hd''. injection Hd'' as <-. rewrite Hm in Hm'. injection Hm' as <-.
      destruct Hpre as [z Hz]. exists (z ++ RBRACE :: r').
      change (k :: t ++ RBRACE :: r') with ((k :: t) ++ RBRACE :: r'). by rewrite Hz, (assoc (++)).
Qed.
Lemma falls_iff s L W w q r : trep s L W -> single s L ->
  falls s L w q r <-> w = q ++ 125%N :: r /\ is_prefix W q /\ ~ is_prefix W (q ++ [125%N]).
Proof.
  intros T Hs. pose proof (x_rep _ _ _ _ T) as R. split.
  - intros (-> & j & nj & Hj & Hnj & Hd). split; [done|]. split; [by eapply live_prefix|].
    intros [?|(v & Hv & t & ->)]; [by destruct q|]. destruct (x_live _ _ _ _ T _ Hv) as (b & Hb).
    rewrite <- (assoc (++)) in Hb. by destruct (nav_fresh _ _ _ _ _ _ _ _ R Hj Hnj Hd Hb).
  - intros (-> & Hq & Hno). split; [done|].
    assert (exists j, L !! j = Some q) as [j Hj].
    { destruct Hq as [->|(w & Hw & Hpre)]; [exists (t_root s); apply (r_root _ _ R)|].
      destruct (x_live _ _ _ _ T _ Hw) as (b & Hb). by eapply live_up. }
    destruct (x_node _ _ _ _ _ _ T Hj) as (nj & Hnj). exists j, nj. split_and!; try done.
    destruct (dget RBRACE (n_children nj)) as [c|] eqn:Hd; [|done]. exfalso. apply Hno.
    destruct (child_of _ _ _ _ _ _ _ R Hj Hnj (dget_in _ _ _ Hd)) as (m & r' & Hm & _ & Hr & HL).
    assert (length (n_data m) = 1) as H1 by (eapply Hs; [done..|]; by destruct q).
    rewrite Hr in H1. destruct r'; [|done]. by eapply live_prefix.
Qed.
Lemma falls_bad s L W w : trep s L W -> single s L -> (exists q r, falls s L w q r) <-> bad W w.
Proof. intros T Hs. unfold bad. by setoid_rewrite (falls_iff s L W w _ _ T Hs). Qed.
Lemma falls_follow s L w q r : rep s L -> falls s L w q r -> follow_path w s = fall_result s r.
Proof.
  intros R Hf. destruct (follow_ok s L w R) as [(j & q' & rem & E & Hj & -> & Hst)|(q' & r' & Hf' & E)].
  - by destruct (stuck_not_falls _ _ _ _ _ _ _ R Hj Hst Hf).
  - rewrite E. f_equal. destruct Hf as [-> (j & nj & Hj & Hnj & Hd)], Hf' as [Hw (j' & nj' & Hj' & Hnj' & Hd')].
    destruct (prefix_split _ _ _ _ Hw) as [([|k t] & -> & Ht)|([|k t] & -> & Ht)]; cbn in Ht; try congruence.
    + injection Ht as <- Ht. by destruct (nav_fresh _ _ _ _ _ _ _ _ R Hj' Hnj' Hd' Hj).
    + injection Ht as <- Ht. by destruct (nav_fresh _ _ _ _ _ _ _ _ R Hj Hnj Hd Hj').
Qed.
Lemma bad_not_nil W w : bad W w -> w <> [].
Proof. intros (q & r & -> & _). by destruct q. Qed.
Lemma bad_fails s L W w : trep s L W -> single s L -> bad W w ->
  trie_contains (PStr w) s = Exc AttributeError s /\
  trie_auto_complete (PStr w) s = Exc AttributeError s /\
  trie_remove (PStr w) s = Exc AttributeError s /\
  (blank w = false -> trie_insert (PStr w) s = Exc AttributeError s) /\
  (~ ends_bad W w -> trie_has_prefix (PStr w) s = Exc AttributeError s) /\
  (ends_bad W w -> trie_has_prefix (PStr w) s = Ok true s).
Proof.
  intros T Hs Hb. pose proof (x_rep _ _ _ _ T) as R. pose proof (bad_not_nil _ _ Hb) as Hne.
  apply (falls_bad s L W w T Hs) in Hb as (q & r & Hf).
  pose proof (falls_follow _ _ _ _ _ R Hf) as E.
  assert (r = [] <-> ends_bad W w) as Hr.
  { split.
    - intros ->. apply (falls_iff _ _ _ _ _ _ T Hs) in Hf as (-> & Hq & Hno). by exists q.
    - intros (q' & -> & Hq' & Hno).
      assert (falls s L (q' ++ [125%N]) q' []) as Hf' by (by apply (falls_iff _ _ _ _ _ _ T Hs)).
      pose proof (falls_follow _ _ _ _ _ R Hf') as E'. rewrite E in E'. by destruct r. }
  split_and!.
  - unfold trie_contains. destruct r; [by rewrite (bind_ok _ _ _ _ _ E)|by rewrite (bind_exc _ _ _ _ _ E)].
  - unfold trie_auto_complete. rewrite (bind_ok _ _ _ w s) by done.
    destruct r; [by rewrite (bind_ok _ _ _ _ _ E)|by rewrite (bind_exc _ _ _ _ _ E)].
  - destruct w; [done|]. cbn [trie_remove].
    destruct r; [by rewrite (bind_ok _ _ _ _ _ E)|by rewrite (bind_exc _ _ _ _ _ E)].
  - intros Hbl. unfold trie_insert, trie_validate. rewrite Hbl, (bind_ok _ _ _ w s) by done.
    destruct r; [by rewrite (bind_ok _ _ _ _ _ E)|by rewrite (bind_exc _ _ _ _ _ E)].
  - intros H. unfold trie_has_prefix. destruct r; [by destruct H; apply Hr|by rewrite (bind_exc _ _ _ _ _ E)].
  - intros H%Hr. subst r. unfold trie_has_prefix. by rewrite (bind_ok _ _ _ _ _ E).
Qed.
Lemma trie_run_ok h : forall s L W, trep s L W -> single s L ->
  exists s' L', trie_run CTrie h s = Some s' /\ trep s' L' (trie_words h W) /\ single s' L'.
Proof.
  unfold trie_words. induction h as [|o h IH]; intros s L W T Hs; cbn [trie_run fold_left].
  { exists s, L. done. }
  assert (exists s' L', after (trie_call CTrie o s) = Some s' /\ trep s' L' (trie_step W o) /\ single s' L') as
    (s' & L' & -> & T' & Hs'); [|by eapply IH].
  destruct o as [v|v|]; cbn [trie_call trie_step].
  - destruct v as [| |w| | |]; try (exists s, L; done).
    destruct (blank w) eqn:Hb.
    { exists s, L. unfold trie_insert, trie_validate. rewrite Hb. done. }
    cbn [orb]. destruct (bad_b W w) eqn:Hbad.
    + apply bad_b_spec in Hbad. destruct (bad_fails _ _ _ _ T Hs Hbad) as (_ & _ & _ & H & _).
      rewrite H by done. by exists s, L.
    + destruct (trie_insert_ok s L W w T Hs Hb) as [(s' & L' & -> & T' & Hs')|[_ Hf]]; [by exists s', L'|].
      apply (falls_bad _ _ _ _ T Hs), bad_b_spec in Hf. congruence.
  - destruct v as [| |w| | |]; try (exists s, L; done).
    destruct (remove_ok s L W w T) as [(s' & L' & E & T' & Hs')|[E Hf]].
    + exists s', L'. split; [|by auto]. unfold bind. rewrite E. by case_decide.
    + exists s, L. unfold bind. rewrite E. split; [done|]. split; [|done].
      replace (W ∖ {[w]}) with W; [done|].
      apply (falls_bad _ _ _ _ T Hs) in Hf as (q & r & -> & Hq & Hno).
      assert (q ++ 125%N :: r ∉ W); [|set_solver]. intros Hin. apply Hno. right. eexists. split; [done|].
      exists r. by rewrite <- (assoc (++)).
  - destruct (clear_ok s) as (s' & L' & -> & T' & Hs'). by exists s', L'.
Qed.
Lemma radix_run_ok h : forall s L W, trep s L W -> Forall op_no_brace h ->
  exists s' L', trie_run CRadix h s = Some s' /\ trep s' L' (set_run h W).
Proof.
  unfold set_run. induction h as [|o h IH]; intros s L W T; cbn [trie_run fold_left]; [by exists s, L|].
  intros [Ho Hh]%Forall_cons.
  assert (exists s' L', after (trie_call CRadix o s) = Some s' /\ trep s' L' (set_step W o)) as
    (s' & L' & -> & T'); [|by eapply IH].
  destruct o as [v|v|]; cbn [trie_call set_step].
  - destruct v as [| |w| | |]; try (exists s, L; done).
    destruct (blank w) eqn:Hb.
    { exists s, L. unfold radix_insert, trie_validate. rewrite Hb. done. }
    destruct (radix_insert_ok s L W w T Hb) as [(s' & L' & -> & T')|[_ (q & r & Hf)]]; [by exists s', L'|].
    by destruct (falls_brace _ _ _ _ _ Hf).
  - destruct v as [| |w| | |]; try (exists s, L; done).
    destruct (remove_ok s L W w T) as [(s' & L' & E & T' & Hs')|[E (q & r & Hf)]].
    + exists s', L'. split; [|by auto]. unfold bind. rewrite E. by case_decide.
    + by destruct (falls_brace _ _ _ _ _ Hf).
  - destruct (clear_ok s) as (s' & L' & -> & T' & Hs'). by exists s', L'.
Qed.

(** ** C39: Trie implements a set of words *)

(** For every history of calls with strings free of ["}"] (including blank and non-string
    arguments, which change nothing, and removals of the last word, which raise): membership,
    prefixes, completions and the node count are those of the set of words. *)
Theorem C39_trie_partial (h : list trie_op) : Forall op_no_brace h ->
  exists s, trie_run CTrie h trie_new = Some s /\
  let W := set_run h ∅ in
  (forall w, no_brace w ->
     trie_contains (PStr w) s = Ok (bool_decide (w ∈ W)) s /\
     (exists b, trie_has_prefix (PStr w) s = Ok b s /\ (b = true <-> is_prefix W w)) /\
     (exists o, trie_auto_complete (PStr w) s = Ok o s /\ NoDup o /\
                forall v, v ∈ o <-> v ∈ W /\ w `prefix_of` v)) /\
  trie_len s = Ok (1 + Z.of_nat (size (prefixes W)))%Z s /\
  trie_is_empty s = Ok (bool_decide (W = ∅)) s.
Proof.
  intros Hh. destruct trep_new as [T0 Hs0].
  destruct (trie_run_ok h _ _ _ T0 Hs0) as (s & L & E & T & Hs). rewrite (trie_words_set _ _ Hh) in T.
  exists s. split; [done|]. cbv zeta. split; [|split; [by eapply len_ok|by eapply is_empty_ok]].
  intros w Hw.
  split; [|split].
  - destruct (contains_ok _ _ _ w T) as [?|[_ (q & r & Hf)]]; [done|]. by destruct (falls_brace _ _ _ _ _ Hf).
  - destruct (has_prefix_ok _ _ _ w T) as [?|(q & r & Hf & _)]; [done|]. by destruct (falls_brace _ _ _ _ _ Hf).
  - destruct (trie_complete_ok _ _ _ w T Hs) as [?|[_ (q & r & Hf)]]; [done|]. by destruct (falls_brace _ _ _ _ _ Hf).
Qed.
Print Assumptions C39_trie_partial.
(** [a]=97 [b]=98 [c]=99 [}]=125. *)
Definition ex_hist : list trie_op :=
  [TInsert (PStr [97;98;99]%N); TInsert (PStr [97;98]%N); TInsert (PStr [97;99]%N);
   TInsert (PStr [32]%N); TInsert (PInt 3); TRemove (PStr [97;98;99]%N); TInsert (PStr [98]%N)].
Example C39_hyps : Forall op_no_brace ex_hist /\ set_run ex_hist ∅ = {[ [97;98]; [97;99]; [98] ]}%N /\
  option_map (fun s => (trie_auto_complete (PStr [97]%N) s, trie_len s)) (trie_run CTrie ex_hist trie_new) =
  option_map (fun s => (Ok [[97;98];[97;99]]%N s, Ok 5%Z s)) (trie_run CTrie ex_hist trie_new).
Proof.
  split; [|split].
  - repeat constructor; unfold no_brace; cbn; intros H; repeat (apply elem_of_cons in H as [H|H]; [done|]); by apply elem_of_nil in H.
  - apply (bool_decide_unpack _). by vm_compute.
  - by vm_compute.
Qed.

(** A string with ["}"]: inserting it raises and does not store it, and asking whether it
    is there raises too. *)
Theorem C39_refuted : exists h w s,
  trie_run CTrie h trie_new = Some s /\ w ∈ set_run h ∅ /\
  trie_contains (PStr w) s = Exc AttributeError s.
Proof.
  exists [TInsert (PStr [97]%N); TInsert (PStr [97;125]%N)], [97;125]%N. eexists. split; [by vm_compute|].
  split; [set_solver|by vm_compute].
Qed.
Print Assumptions C39_refuted.
(** has_prefix answers True for a prefix of nothing. *)
Theorem C39_has_prefix_refuted : exists w, ~ is_prefix ∅ w /\
  trie_has_prefix (PStr w) trie_new = Ok true trie_new.
Proof.
  exists [125]%N. split; [|done]. intros [?|(w & ?%elem_of_empty & _)]; done.
Qed.
Print Assumptions C39_has_prefix_refuted.

(** ** C40: which Trie calls fail *)

(** Removing the only word raises. *)
Theorem C40_refuted : exists w s,
  trie_run CTrie [TInsert (PStr w)] trie_new = Some s /\ no_brace w /\ blank w = false /\
  exists s', trie_remove (PStr w) s = Exc AttributeError s'.
Proof.
  exists [97]%N. eexists. split; [by vm_compute|]. split.
  - intros [H|H]%elem_of_cons; [done|]. by apply elem_of_nil in H.
  - split; [done|]. eexists. by vm_compute.
Qed.
Print Assumptions C40_refuted.
(** Inserting into a fresh trie can raise. *)
Theorem C40_insert_refuted : exists w, blank w = false /\
  trie_insert (PStr w) trie_new = Exc AttributeError trie_new.
Proof. by exists [125]%N. Qed.
Print Assumptions C40_insert_refuted.

(** After any history of calls with any strings, exactly these calls raise: those given a
    [bad] string (all but has_prefix of one that ends at its brace, which answers True),
    insertions of a blank string, and the removal of the only word.  A raising call other
    than the last leaves the trie untouched. *)
Theorem C40_failures_partial (h : list trie_op) :
  exists s, trie_run CTrie h trie_new = Some s /\
  let W := trie_words h ∅ in
  forall w,
  (bad W w ->
     trie_contains (PStr w) s = Exc AttributeError s /\
     trie_auto_complete (PStr w) s = Exc AttributeError s /\
     trie_remove (PStr w) s = Exc AttributeError s /\
     (blank w = false -> trie_insert (PStr w) s = Exc AttributeError s) /\
     (~ ends_bad W w -> trie_has_prefix (PStr w) s = Exc AttributeError s) /\
     (ends_bad W w -> trie_has_prefix (PStr w) s = Ok true s)) /\
  (~ bad W w ->
     trie_contains (PStr w) s = Ok (bool_decide (w ∈ W)) s /\
     (exists b, trie_has_prefix (PStr w) s = Ok b s /\ (b = true <-> is_prefix W w)) /\
     (exists o, trie_auto_complete (PStr w) s = Ok o s /\ NoDup o /\
                forall v, v ∈ o <-> v ∈ W /\ w `prefix_of` v) /\
     (blank w = false -> exists s', trie_insert (PStr w) s = Ok tt s') /\
     (W = {[w]} -> exists s', trie_remove (PStr w) s = Exc AttributeError s') /\
     (W <> {[w]} -> exists s', trie_remove (PStr w) s = Ok false s')) /\
  (blank w = true -> trie_insert (PStr w) s = Exc ValueError s).
Proof.
  destruct trep_new as [T0 Hs0]. destruct (trie_run_ok h _ _ _ T0 Hs0) as (s & L & E & T & Hs).
  exists s. split; [done|]. cbv zeta. intros w. split; [by eapply bad_fails|]. split.
  - intros Hnb. rewrite <- (falls_bad _ _ _ _ T Hs) in Hnb. split_and!.
    + destruct (contains_ok _ _ _ w T) as [?|[_ ?]]; done.
    + destruct (has_prefix_ok _ _ _ w T) as [?|(q & r & Hf & _)]; [done|]. destruct Hnb; by eauto.
    + destruct (trie_complete_ok _ _ _ w T Hs) as [?|[_ ?]]; done.
    + intros Hb. destruct (trie_insert_ok s L _ w T Hs Hb) as [(s' & L' & -> & _)|[_ ?]]; [by eexists|done].
    + intros HW. destruct (remove_ok s L _ w T) as [(s' & L' & E' & _)|[_ ?]]; [|done].
      exists s'. rewrite E', decide_True; [done|]. rewrite HW. set_solver.
    + intros HW. destruct (remove_ok s L _ w T) as [(s' & L' & E' & _)|[_ ?]]; [|done].
      exists s'. rewrite E', decide_False; [done|]. intros [Hin He]. apply HW.
      apply set_eq. intros v. rewrite elem_of_singleton. split; [|by intros ->]. intros Hv.
      destruct (decide (v = w)); [done|]. exfalso. apply (not_elem_of_empty (C:=words) v). rewrite <- He.
      apply elem_of_difference. by rewrite elem_of_singleton.
  - intros Hb. unfold trie_insert, trie_validate. by rewrite Hb.
Qed.
Print Assumptions C40_failures_partial.
Example C40_hyps : let W := trie_words ex_hist ∅ in
  bad_b W [97;125;98]%N = true /\ bad_b W [120;125]%N = false /\ W <> ∅.
Proof. cbv zeta. split; [by vm_compute|]. split; [by vm_compute|]. intros H. by vm_compute in H. Qed.

(** ** C41: RadixTrie implements a set of words *)
Theorem C41_radix_partial (h : list trie_op) : Forall op_no_brace h ->
  exists s, trie_run CRadix h trie_new = Some s /\
  let W := set_run h ∅ in
  forall w, no_brace w ->
    trie_contains (PStr w) s = Ok (bool_decide (w ∈ W)) s /\
    (exists b, trie_has_prefix (PStr w) s = Ok b s /\ (b = true <-> is_prefix W w)) /\
    (exists o, radix_auto_complete (PStr w) s = Ok o s /\ NoDup o /\
               forall v, v ∈ o <-> v ∈ W /\ w `prefix_of` v) /\
    (blank w = false -> exists s', radix_insert (PStr w) s = Ok tt s') /\
    (W = {[w]} -> exists s', trie_remove (PStr w) s = Exc AttributeError s') /\
    (W <> {[w]} -> exists s', trie_remove (PStr w) s = Ok false s').
Proof.
  intros Hh. destruct trep_new as [T0 Hs0]. destruct (radix_run_ok h _ _ _ T0 Hh) as (s & L & E & T).
  exists s. split; [done|]. cbv zeta. intros w Hw.
  assert (~ exists q r, falls s L w q r) as Hnb.
  { intros (q & r & Hf). by destruct (falls_brace _ _ _ _ _ Hf). }
  split_and!.
  - destruct (contains_ok _ _ _ w T) as [?|[_ ?]]; done.
  - destruct (has_prefix_ok _ _ _ w T) as [?|(q & r & Hf & _)]; [done|]. destruct Hnb; by eauto.
  - destruct (radix_complete_ok _ _ _ w T) as [?|[_ ?]]; done.
  - intros Hb. destruct (radix_insert_ok s L _ w T Hb) as [(s' & L' & -> & _)|[_ ?]]; [by eexists|done].
  - intros HW. destruct (remove_ok s L _ w T) as [(s' & L' & E' & _)|[_ ?]]; [|done].
    exists s'. rewrite E', decide_True; [done|]. rewrite HW. set_solver.
  - intros HW. destruct (remove_ok s L _ w T) as [(s' & L' & E' & _)|[_ ?]]; [|done].
    exists s'. rewrite E', decide_False; [done|]. intros [Hin He]. apply HW.
    apply set_eq. intros v. rewrite elem_of_singleton. split; [|by intros ->]. intros Hv.
    destruct (decide (v = w)); [done|]. exfalso. apply (not_elem_of_empty (C:=words) v). rewrite <- He.
    apply elem_of_difference. by rewrite elem_of_singleton.
Qed.
Print Assumptions C41_radix_partial.
(** The same history, with splits: "abc" then "ab", then a removal. *)
Example C41_hyps :
  option_map (fun s => (radix_auto_complete (PStr [97]%N) s, trie_contains (PStr [97;98;99]%N) s)) (trie_run CRadix ex_hist trie_new) =
  option_map (fun s => (Ok [[97;98];[97;99]]%N s, Ok false s)) (trie_run CRadix ex_hist trie_new).
Proof. by vm_compute. Qed.
Theorem C41_refuted : exists h w s,
  trie_run CRadix h trie_new = Some s /\ w ∈ set_run h ∅ /\
  trie_contains (PStr w) s = Exc AttributeError s.
Proof.
  exists [TInsert (PStr [97]%N); TInsert (PStr [97;125]%N)], [97;125]%N. eexists. split; [by vm_compute|].
  split; [set_solver|by vm_compute].
Qed.
Print Assumptions C41_refuted.
