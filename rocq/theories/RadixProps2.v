(** * The space of a RadixTrie is not proportional to the number of its words (C53)

    Specification: TrieSpec.v, RadixSpec.v. *)
From stdpp Require Import gmap.
From Verif Require Import Base TrieModel TrieRep TrieSpec TrieThm TrieThm2 TrieThm3 TrieProps.
From Verif Require Import TrieSpec2 TrieThm4 LevelModel TrieThm5 TrieThm6 TrieProps2 RadixSpec RadixThm RadixProps.
Local Open Scope py_scope.

Lemma size_union_le (X Y : words) : size (X ∪ Y) <= size X + size Y.
Proof. rewrite size_union_alt. assert (size (Y ∖ X) <= size Y) by (apply subseteq_size; set_solver). lia. Qed.

(** One long word, and shorter ones that come and go. *)
Definition run_of (n : nat) : word := replicate n 97%N.
Definition visitor (n : nat) : word := run_of n ++ [98%N].
Fixpoint visits (n : nat) : list trie_op :=
  match n with 0 => [] | S m => visits m ++ [TInsert (PStr (visitor n)); TRemove (PStr (visitor n))] end.
Definition crowd (k : nat) : list trie_op := TInsert (PStr (run_of (S k))) :: visits k.

Lemma run_prefix m n : m <= n -> run_of m `prefix_of` run_of n.
Proof. intros H. exists (replicate (n - m) 97%N). unfold run_of. rewrite <-replicate_add. f_equal. lia. Qed.
Lemma visitor_not_prefix m n : ~ visitor m `prefix_of` run_of n.
Proof.
  intros (t & E). assert (98%N ∈ run_of n) as H. { rewrite E. unfold visitor. set_solver. }
  apply elem_of_replicate in H as [H _]. done.
Qed.
Lemma visitor_not_off P n : off_b P (visitor n) = false.
Proof.
  apply not_true_iff_false. rewrite off_b_spec. intros (q & r & E & _). assert (125%N ∈ visitor n) as H by (rewrite E; set_solver).
  unfold visitor, run_of in H. apply elem_of_app in H as [[H _]%elem_of_replicate|H%elem_of_list_singleton]; done.
Qed.
Lemma visitor_shared P n : (forall p, p ∈ P -> exists k, p `prefix_of` run_of k) -> (exists p, p ∈ P /\ run_of n `prefix_of` p) -> shared P (visitor n) = run_of n.
Proof.
  intros HP (p & Hp & Hr). destruct (shared_spec P (visitor n)) as ([t Ht] & Hs & Hmax).
  assert (n <= length (shared P (visitor n))) as Hl.
  { specialize (Hmax (run_of n)). unfold run_of in Hmax at 3. rewrite replicate_length in Hmax. apply Hmax; [by exists [98%N]|]. right. by exists p. }
  assert (length t <= 1) as Hlt. { apply (f_equal length) in Ht. rewrite app_length in Ht. unfold visitor at 1 in Ht. rewrite app_length in Ht. unfold run_of at 1 in Ht. rewrite replicate_length in Ht. cbn [length] in Ht. lia. }
  destruct t as [|z [|? ?]]; [|unfold visitor at 1 in Ht; by apply app_inj_tail in Ht as [<- _]|cbn in Hlt; lia].
  exfalso. rewrite app_nil_r in Ht. rewrite <-Ht in Hs. destruct Hs as [Hs|(w & Hw & Hs)]; [by destruct n|].
  destruct (HP w Hw) as (k & Hk). apply (visitor_not_prefix n k). by etrans.
Qed.
Lemma blank_run n : 0 < n -> blank (run_of n) = false.
Proof. by destruct n; [lia|]. Qed.
Lemma blank_visitor n : blank (visitor n) = false.
Proof. by destruct n. Qed.
Lemma radix_ref_app h h' : radix_ref (h ++ h') = fold_left radix_step h' (radix_ref h).
Proof. unfold radix_ref. apply fold_left_app. Qed.

Lemma crowd_ref k j : j <= k ->
  let x := radix_ref (TInsert (PStr (run_of (S k))) :: visits j) in
  rx_words x = {[ run_of (S k) ]} /\ forall i, 1 <= i <= j \/ i = S k -> run_of i ∈ rx_points x.
Proof.
  intros Hj x. subst x. induction j as [|j IH].
  - unfold radix_ref. cbn [visits fold_left radix_step rx_words rx_points]. rewrite blank_run by lia.
    assert (off_b ∅ (run_of (S k)) = false) as ->.
    { apply not_true_iff_false. rewrite off_b_spec. intros (q & r & E & _). assert (125%N ∈ run_of (S k)) as H by (rewrite E; set_solver).
      by apply elem_of_replicate in H as [H _]. }
    cbn [orb rx_words rx_points]. split; [set_solver|]. intros i [?| ->]; [lia|]. set_solver.
  - destruct IH as [HW HP]; [lia|]. cbn [visits]. rewrite app_comm_cons, radix_ref_app.
    destruct (radix_ref_sound (TInsert (PStr (run_of (S k))) :: visits j)) as [_ HS].
    set (x := radix_ref (TInsert (PStr (run_of (S k))) :: visits j)) in *. cbn [fold_left radix_step rx_words rx_points].
    rewrite blank_visitor, visitor_not_off. cbn [orb rx_words rx_points]. rewrite HW.
    assert (visitor (S j) <> run_of (S k)) as Hne. { intros E. apply (visitor_not_prefix (S j) (S k)). by rewrite E. }
    split; [set_solver|]. intros i Hi. apply elem_of_filter. split.
    + apply is_prefix_b_spec. right. exists (run_of (S k)). split; [set_solver|]. apply run_prefix. lia.
    + destruct (decide (i = S j)) as [->|Hn].
      * apply elem_of_union_l, elem_of_union_r, elem_of_difference. rewrite !elem_of_singleton. split; [|done]. symmetry. apply visitor_shared.
        -- intros p Hp. apply HS, elem_of_prefixes in Hp as (_ & w & Hw & Hpw). rewrite HW in Hw. apply elem_of_singleton in Hw as ->. by exists (S k).
        -- exists (run_of (S k)). split; [by apply HP; right|]. apply run_prefix. lia.
      * apply elem_of_union_r, HP. lia.
Qed.

(** The documented "number of nodes is proportional to the number of strings" fails after
    removals: a RadixTrie holding a single word can have any number of nodes. *)
Theorem C53_proportional_refuted (c : Z) : exists h s n w0, Forall op_no_brace h /\ trie_run CRadix h trie_new = Some s /\
  (forall w, trie_contains (PStr w) s = Ok true s <-> w = w0) /\ trie_len s = Ok n s /\ (c < n)%Z.
Proof.
  set (k := Z.to_nat c). destruct (C53_exact (crowd k)) as (s & E & HW & HL & _). destruct (crowd_ref k k (le_n k)) as [HW' HP]. fold (crowd k) in HW', HP.
  exists (crowd k), s, (1 + Z.of_nat (size (rx_points (radix_ref (crowd k)))))%Z, (run_of (S k)). split_and!; [|done| |done|].
  - unfold crowd. apply Forall_cons. split; [unfold op_no_brace, no_brace; intros [H _]%elem_of_replicate; done|].
    clear. induction k as [|k IH]; [constructor|]. cbn [visits]. apply Forall_app. split; [done|].
    assert (125%N ∉ visitor (S k)) by (intros [[H _]%elem_of_replicate|H%elem_of_list_singleton]%elem_of_app; done).
    repeat (apply Forall_cons; split; [done|]). constructor.
  - intros w. rewrite HW, HW'. set_solver.
  - assert (size (list_to_set (map run_of (seq 1 k)) : words) <= size (rx_points (radix_ref (crowd k)))) as H.
    { apply subseteq_size. intros p Hp. apply elem_of_list_to_set, elem_of_list_fmap in Hp as (i & -> & Hi%elem_of_seq). apply HP. lia. }
    rewrite size_list_to_set in H.
    + rewrite map_length, seq_length in H. lia.
    + apply (NoDup_fmap_2_strong run_of); [|apply NoDup_seq]. intros i j _ _ Eij. apply (f_equal length) in Eij. unfold run_of in Eij. by rewrite !replicate_length in Eij.
Qed.
Print Assumptions C53_proportional_refuted.

(** What does hold whatever is removed: there are never more nodes than the root and two for
    each insertion, nor more than the root and one for each beginning of a stored word. *)
Definition is_insertion (o : trie_op) : bool := match o with TInsert _ => true | _ => false end.
Definition insertions (h : list trie_op) : nat := length (List.filter is_insertion h).
Theorem C53_never_more_than h : exists s n, trie_run CRadix h trie_new = Some s /\ trie_len s = Ok (1 + Z.of_nat n)%Z s /\ n <= 2 * insertions h.
Proof.
  destruct (C53_exact h) as (s & E & _ & HL & _). exists s, (size (rx_points (radix_ref h))). split_and!; [done..|]. clear.
  induction h as [|o h IH] using rev_ind; [unfold radix_ref; cbn; rewrite size_empty; lia|]. rewrite radix_ref_app. cbn [fold_left].
  unfold insertions in *. rewrite List.filter_app, app_length. cbn [List.filter].
  set (x := radix_ref h) in *. clearbody x. destruct o as [[| |w| | |]|[| |w| | |]|]; cbn [radix_step is_insertion length rx_points]; try lia.
  - destruct (blank w || off_b (rx_points x) w); [lia|]. cbn [rx_points].
    pose proof (size_union_le ({[w]} ∪ ({[shared (rx_points x) w]} ∖ {[ [] ]})) (rx_points x)) as H1.
    pose proof (size_union_le ({[w]} : words) ({[shared (rx_points x) w]} ∖ {[ [] ]})) as H2.
    assert (size ({[shared (rx_points x) w]} ∖ {[ [] ]} : words) <= size ({[shared (rx_points x) w]} : words)) as H3 by (apply subseteq_size; set_solver).
    rewrite size_singleton in H2, H3. lia.
  - assert (size (filter (fun p => is_prefix_b (rx_words x ∖ {[w]}) p = true) (rx_points x)) <= size (rx_points x)) as H1 by (apply subseteq_size; set_solver). lia.
  - rewrite size_empty. lia.
Qed.
Print Assumptions C53_never_more_than.
(** The history for c = 3: its last RadixTrie holds the word "aaaa" only and has 5 nodes. *)
Example C53_crowd_example : rx_words (radix_ref (crowd 3)) = {[ [97;97;97;97] ]}%N /\
  option_map (fun s => trie_len s) (trie_run CRadix (crowd 3) trie_new) = option_map (fun s => Ok 5%Z s) (trie_run CRadix (crowd 3) trie_new).
Proof. split; [apply (bool_decide_unpack _)|]; by vm_compute. Qed.
