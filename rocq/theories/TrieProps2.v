(** * Properties C52 and C53: the shape of tries *)
From stdpp Require Import gmap.
From Verif Require Import Base TrieModel TrieRep TrieSpec TrieSpec2 TrieThm TrieThm2 TrieThm3 TrieProps SuffixModel TrieThm4
  SuffixSpec SuffixThm SuffixThm2 SuffixProps LevelModel TrieThm5 TrieThm6.
Local Open Scope py_scope.

Lemma contains_iff s L W w : trep s L W -> trie_contains (PStr w) s = Ok true s <-> w ∈ W.
Proof.
  intros T. destruct (contains_ok s L W w T) as [->|[-> (q & r & Hf)]].
  - split; [|intros; by rewrite bool_decide_eq_true_2]. intros [= H]. by apply bool_decide_eq_true in H.
  - split; [done|]. intros Hw. by destruct (falls_not_prefix _ _ _ _ _ _ _ T Hf w Hw).
Qed.
Lemma depth_height_empty {fl} s L W : trepg fl s L W (t_root s) -> W = ∅ ->
  trie_height s = Ok 0 s /\ trie_depth s = Ok 0%Z s /\ trie_levels s = Ok [] s /\ trie_to_list s = Ok [] s /\ the_levels s = [].
Proof.
  intros T ->. pose proof (is_empty_ok s L _ T) as He. rewrite bool_decide_eq_true_2 in He by done.
  unfold trie_height, trie_depth, trie_levels, trie_to_list. rewrite !(bind_ok _ _ _ _ _ He). split_and!; try done.
  pose proof (x_rep _ _ _ _ T) as R. unfold the_levels.
  destruct (kids s (t_root s)) as [|c l] eqn:Ek; [done|]. exfalso.
  destruct (near_top s L R c) as (p & Hp & _); [rewrite Ek; left|].
  destruct (r_node _ _ R _ _ (r_root _ _ R)) as (n & Hn & _). unfold kids in Ek. rewrite Hn in Ek.
  assert (c ∈ map snd (n_children n)) as Hc by (rewrite Ek; left).
  apply elem_of_list_fmap in Hc as ([k c'] & -> & Hin). destruct (child_of _ _ _ _ _ _ _ R (r_root _ _ R) Hn Hin) as (m & r & _ & _ & _ & HL).
  destruct (ext' _ _ _ _ _ T HL) as (t & Ht); [done|]. set_solver.
Qed.
Lemma levels_any {fl} s L W : trepg fl s L W (t_root s) ->
  trie_height s = Ok (length (the_levels s)) s /\ trie_depth s = Ok 0%Z s /\
  trie_levels s = Ok (map (map (datum s)) (the_levels s)) s /\
  trie_to_list s = Ok (mjoin (map (map (datum s)) (the_levels s))) s.
Proof.
  intros T. destruct (decide (W = ∅)) as [HW|HW].
  - destruct (depth_height_empty s L W T HW) as (H1 & H2 & H3 & H4 & ->). done.
  - destruct (height_levels s L W T HW), (levels_ok s L W T HW). done.
Qed.
Lemma leaves_counts {fl} s L W : trepg fl s L W (t_root s) -> exists n, trie_leaves s = Ok n s /\ counts (begins_no_other W) n.
Proof.
  intros T. destruct (leaves_total_ok s L W T) as (o & E & Hno & Ho). exists (length o). split; [done|]. exists o. split; [done|]. by split.
Qed.

(** ** C52: the structural queries of a Trie *)
(** After any history whatever, with [W] the words for which [w in trie] is True:
    count_leaf_nodes is the number of words that begin no other word; get_height the length
    of the longest word; get_depth 0; level [d] of get_nodes_per_level lists, once each, the
    last characters of the prefixes of length [d+1]; to_list lists the levels one after the
    other. *)
Theorem C52_trie (h : list trie_op) : exists s W, trie_run CTrie h trie_new = Some s /\
  (forall w, trie_contains (PStr w) s = Ok true s <-> w ∈ W) /\
  (exists n, trie_leaves s = Ok n s /\ counts (begins_no_other W) n) /\
  (exists n, trie_height s = Ok n s /\ longest W n) /\
  trie_depth s = Ok 0%Z s /\
  exists ls, trie_levels s = Ok ls s /\ trie_height s = Ok (length ls) s /\ trie_to_list s = Ok (mjoin ls) s /\
    forall d l, ls !! d = Some l -> exists ps,
      NoDup ps /\ (forall p, p ∈ ps <-> p ∈ prefixes W /\ length p = S d) /\ l = map (drop d) ps.
Proof.
  destruct trep_new as [T0 Hs0]. destruct (trie_run_ok h _ _ _ T0 Hs0) as (s & L & E & T & Hs).
  set (W := trie_words h ∅) in *. exists s, W. split; [done|]. split; [intros w; by eapply contains_iff|].
  split; [by eapply leaves_counts|]. destruct (levels_any s L W T) as (Hh & Hd & Hl & Ht). pose proof (x_rep _ _ _ _ T) as R.
  assert (forall d l, the_levels s !! d = Some l -> exists ps,
     NoDup ps /\ (forall p, p ∈ ps <-> p ∈ prefixes W /\ length p = S d) /\ map (datum s) l = map (drop d) ps) as Hlev.
  { intros d l Hdl. assert (forall i, i ∈ l -> exists p, L !! i = Some p /\ length p = S d) as Hlen.
    { intros i Hi. assert (below s (t_root s) i (S d)) as Hb by (apply (the_levels_below s L); eauto).
      destruct (below_live _ _ _ _ _ _ R (r_root _ _ R) Hb) as (p & Hp & _). exists p. split; [done|]. by apply (below_single s L i p _ R Hs Hp). }
    exists (map (path_of L) l). split; [|split].
    - apply NoDup_fmap_2_strong; [|eapply the_levels_nodup; [done|by eapply elem_of_list_lookup_2]].
      intros i j (p & Hp & _)%Hlen (q & Hq & _)%Hlen. unfold path_of. rewrite Hp, Hq. cbn. intros ->. by eapply (r_inj _ _ R).
    - intros p. rewrite elem_of_list_fmap. split.
      + intros (i & -> & (p' & Hp' & Hl')%Hlen). unfold path_of. rewrite Hp'. cbn. split; [|done].
        apply elem_of_prefixes. assert (p' <> []) as Hne by (by destruct p'). split; [done|].
        destruct (ext' _ _ _ _ _ T Hp' Hne) as (t & Ht'). exists (p' ++ t). split; [done|by eexists].
      + intros [(Hne & w & Hw & Hpre)%elem_of_prefixes Hp]. destruct (x_live _ _ _ _ T _ Hw) as (b & Hb).
        destruct (live_up s L R Hs p b w Hb Hpre) as (i & Hi). exists i. split; [unfold path_of; by rewrite Hi|].
        apply (below_single s L i p _ R Hs Hi) in Hp. apply (the_levels_below s L) in Hp as (l' & Hl' & Hi'); [|done]. congruence.
    - rewrite map_map. apply map_ext_in. intros i Hi%elem_of_list_In. destruct (Hlen i Hi) as (p & Hp & Hl').
      unfold path_of, datum. rewrite Hp. cbn. destruct (r_node _ _ R _ _ Hp) as (n & Hn & Hok). rewrite Hn.
      destruct Hok as (_ & _ & [[-> _]|(j & q & k & m & _ & _ & -> & _)]); [rewrite (r_root _ _ R) in Hp; injection Hp as <-; done|].
      assert (length (n_data n) = 1) as H1 by (eapply Hs; [done..|]; by destruct q, (n_data n)).
      rewrite app_length in Hl'. replace d with (length q) by lia. by rewrite drop_app. }
  split; [|split; [done|]].
  - exists (length (the_levels s)). split; [done|]. destruct (decide (W = ∅)) as [HW|HW].
    { left. split; [done|]. destruct (depth_height_empty s L W T HW) as (_ & _ & _ & _ & ->). done. }
    right. assert (forall w, w ∈ W -> length w <= length (the_levels s)) as Hmax.
    { intros w Hw. destruct (x_live _ _ _ _ T _ Hw) as (b & Hb). destruct (length w) as [|d] eqn:El; [lia|].
      apply (below_single s L b w _ R Hs Hb) in El. apply (the_levels_below s L) in El as (l & Hl' & _); [|done]. by apply lookup_lt_Some in Hl'. }
    split; [|done]. destruct (length (the_levels s)) as [|d] eqn:El.
    + destruct (set_choose_L W HW) as (w & Hw). exists w. split; [done|]. apply Hmax in Hw. lia.
    + destruct (lookup_lt_is_Some_2 (the_levels s) d) as (l & Hl'); [lia|]. destruct (Hlev d l Hl') as (ps & _ & Hps & Eps).
      destruct l as [|x l]; [exfalso; eapply (lev_list_ne s); [by eapply elem_of_list_lookup_2|done]|].
      destruct ps as [|p ps]; [done|]. destruct (proj1 (Hps p)) as [(Hne & w & Hw & Hpre)%elem_of_prefixes Hp]; [left|].
      exists w. split; [done|]. apply prefix_length in Hpre. specialize (Hmax w Hw). lia.
  - eexists. split; [exact Hl|]. rewrite map_length. split; [done|]. split; [done|].
    intros d l Hdl. rewrite list_lookup_fmap in Hdl. destruct (the_levels s !! d) as [ns|] eqn:En; [|done]. injection Hdl as <-. by apply Hlev.
Qed.
Print Assumptions C52_trie.
(** [a]=97 [b]=98 [c]=99: words "ab", "ac", "b". *)
Example C52_example :
  option_map (fun s => (trie_leaves s, trie_height s, trie_levels s, trie_to_list s)) (trie_run CTrie ex_hist trie_new) =
  option_map (fun s => (Ok 3 s, Ok 2 s, Ok [[[97];[98]];[[98];[99]]]%N s, Ok [[97];[98];[98];[99]]%N s)) (trie_run CTrie ex_hist trie_new).
Proof. by vm_compute. Qed.

(** ** C52 for a RadixTrie *)
Lemma radix_run_any h : forall s L W, trep s L W -> exists s' L' W', trie_run CRadix h s = Some s' /\ trep s' L' W'.
Proof.
  induction h as [|o h IH]; intros s L W T; cbn [trie_run]; [by exists s, L, W|].
  assert (exists s' L' W', after (trie_call CRadix o s) = Some s' /\ trep s' L' W') as (s' & L' & W' & -> & T'); [|by eapply IH].
  destruct o as [v|v|]; cbn [trie_call].
  - destruct v as [| |w| | |]; try (exists s, L, W; done). destruct (blank w) eqn:Hb.
    { exists s, L, W. unfold radix_insert, trie_validate. rewrite Hb. done. }
    destruct (radix_insert_ok s L W w T Hb) as [(s' & L' & -> & T')|[-> _]]; [by exists s', L', ({[w]} ∪ W)|by exists s, L, W].
  - destruct v as [| |w| | |]; try (exists s, L, W; done). destruct (remove_ok s L W w T) as [(s' & L' & E & T' & _)|[E _]].
    + exists s', L', (W ∖ {[w]}). split; [|done]. unfold bind. rewrite E. by case_decide.
    + exists s, L, W. unfold bind. by rewrite E.
  - destruct (clear_ok s) as (s' & L' & -> & T' & _). by exists s', L', ∅.
Qed.
(** After any history: the leaf count as for a Trie; get_depth 0; the data of the nodes
    spells, level by level, different prefixes of words, all the words among them; get_height
    is the number of levels, to_list the levels one after the other, len one more than the
    number of entries. *)
Theorem C52_radix (h : list trie_op) : exists s W, trie_run CRadix h trie_new = Some s /\
  (forall w, trie_contains (PStr w) s = Ok true s <-> w ∈ W) /\
  (exists n, trie_leaves s = Ok n s /\ counts (begins_no_other W) n) /\
  trie_depth s = Ok 0%Z s /\
  exists ls, trie_levels s = Ok ls s /\ trie_height s = Ok (length ls) s /\ trie_to_list s = Ok (mjoin ls) s /\
    trie_len s = Ok (1 + Z.of_nat (length (mjoin ls)))%Z s /\
    exists pss, spells pss ls /\ NoDup (mjoin pss) /\
      (forall w, w ∈ W -> w ∈ mjoin pss) /\ (forall p, p ∈ mjoin pss -> p ∈ prefixes W).
Proof.
  destruct trep_new as [T0 _]. destruct (radix_run_any h _ _ _ T0) as (s & L & W & E & T).
  exists s, W. split; [done|]. split; [intros w; by eapply contains_iff|]. split; [by eapply leaves_counts|].
  destruct (levels_any s L W T) as (Hh & Hd & Hl & Ht). pose proof (x_rep _ _ _ _ T) as R. split; [done|].
  eexists. split; [exact Hl|]. rewrite map_length. split; [done|]. split; [done|]. split.
  { unfold trie_len. rewrite (bind_ok _ _ _ s s) by done. unfold ret. rewrite (r_count _ _ R), (size_levels s L R), mjoin_map, map_length. f_equal. lia. }
  exists (map (map (path_of L)) (the_levels s)). split; [by apply spells_ok|]. rewrite mjoin_map. split; [by apply paths_nodup|]. split.
  - intros w Hw. apply (paths_elem s L w R). split; [|by apply (x_live _ _ _ _ T)]. intros ->. by apply (x_nil _ _ _ _ T).
  - intros p (Hne & i & Hi)%(paths_elem s L p R). apply elem_of_prefixes. split; [done|].
    destruct (ext' _ _ _ _ _ T Hi Hne) as (t & Ht'). exists (p ++ t). split; [done|by eexists].
Qed.
Print Assumptions C52_radix.
Example C52_radix_example :
  option_map (fun s => (trie_leaves s, trie_height s, trie_levels s, trie_len s)) (trie_run CRadix ex_hist trie_new) =
  option_map (fun s => (Ok 3 s, Ok 2 s, Ok [[[97];[98]];[[98];[99]]]%N s, Ok 5%Z s)) (trie_run CRadix ex_hist trie_new).
Proof. by vm_compute. Qed.

(** ** C53: RadixTries are compressed *)
Lemma radix_run_compact h : forall s L W, trep s L W -> branching L W -> no_trie_removals h ->
  exists s' L' W', trie_run CRadix h s = Some s' /\ trep s' L' W' /\ branching L' W'.
Proof.
  induction h as [|o h IH]; intros s L W T HB; cbn [trie_run]; [by exists s, L, W|]. intros [Ho Hh]%Forall_cons.
  assert (exists s' L' W', after (trie_call CRadix o s) = Some s' /\ trep s' L' W' /\ branching L' W') as (s' & L' & W' & -> & T' & HB'); [|by eapply IH].
  destruct o as [v|v|]; cbn [trie_call].
  - destruct v as [| |w| | |]; try (exists s, L, W; done). destruct (blank w) eqn:Hb.
    { exists s, L, W. unfold radix_insert, trie_validate. rewrite Hb. done. }
    unfold radix_insert, trie_validate. rewrite Hb, (bind_ok _ _ _ w s) by done.
    destruct (radix_insert_node_ok s L W w T (blank_nil _ Hb)) as [(s' & L' & i & E & T' & _ & _ & Hg)|[E _]].
    + rewrite (bind_ok _ _ _ _ _ E). exists s', L', ({[w]} ∪ W). split; [done|]. split; [done|]. eapply branching_grow; [by apply trep_shape|done..].
    + rewrite (bind_exc _ _ _ _ _ E). by exists s, L, W.
  - done.
  - destruct (clear_ok s) as (s' & L' & E & T' & _). rewrite E. exists s', L', ∅. split; [done|]. split; [done|].
    intros i p Hi. left. destruct (decide (p = [])); [done|]. destruct (ext' _ _ _ _ _ T' Hi) as (t & Ht); [done|]. set_solver.
Qed.
(** Without removals the nodes, apart from the root, are the words and the points where two
    words part, and they are fewer than twice the words. *)
Theorem C53_radix_partial (h : list trie_op) : no_trie_removals h -> exists s W n, trie_run CRadix h trie_new = Some s /\
  (forall w, trie_contains (PStr w) s = Ok true s <-> w ∈ W) /\
  trie_len s = Ok (1 + Z.of_nat n)%Z s /\ counts (fun p => p ∈ W \/ parting_point W p) n /\ n <= 2 * size W - 1.
Proof.
  intros Hh. destruct trep_new as [T0 _]. destruct (radix_run_compact h _ _ _ T0) as (s & L & W & E & T & HB).
  { intros i p [_ <-]%lookup_singleton_Some. by left. } { done. }
  destruct (compact_count s L W T HB) as (n & H1 & H2 & H3). exists s, W, n. split; [done|]. split; [intros w; by eapply contains_iff|]. done.
Qed.
Print Assumptions C53_radix_partial.
Definition C53_hist : list trie_op := [TInsert (PStr [97;98;99]%N); TInsert (PStr [97;98;100;97]%N); TInsert (PStr [97;98;100;98]%N)].
Example C53_example : no_trie_removals C53_hist /\
  option_map (fun s => trie_len s) (trie_run CRadix C53_hist trie_new) = option_map (fun s => Ok 6%Z s) (trie_run CRadix C53_hist trie_new).
Proof. split; [by repeat constructor|by vm_compute]. Qed.
(** Removals leave points where no two words part any more: the same words, different sizes. *)
Theorem C53_removal_refuted : exists h h' s s' n n',
  Forall op_no_brace h /\ Forall op_no_brace h' /\ set_run h ∅ = set_run h' ∅ /\
  trie_run CRadix h trie_new = Some s /\ trie_run CRadix h' trie_new = Some s' /\
  trie_len s = Ok n s /\ trie_len s' = Ok n' s' /\ n <> n'.
Proof.
  exists [TInsert (PStr [97;98]%N); TInsert (PStr [97;99]%N); TRemove (PStr [97;98]%N)], [TInsert (PStr [97;99]%N)].
  eexists _, _, 3%Z, 2%Z. split; [|split; [|split; [|split; [by vm_compute|split; [by vm_compute|]]]]].
  - repeat (apply Forall_cons; split; [unfold op_no_brace, no_brace; set_solver|]). constructor.
  - repeat (apply Forall_cons; split; [unfold op_no_brace, no_brace; set_solver|]). constructor.
  - apply (bool_decide_unpack _). by vm_compute.
  - split; [by vm_compute|]. by split; [vm_compute|].
Qed.
Print Assumptions C53_removal_refuted.
(** A SuffixTrie takes linear space: a word of [n] characters gives at most [2n + 2] nodes. *)
Theorem C53_suffix_trie_linear w : w <> [] -> no_closing_brace w ->
  exists f n, suffix_new (PStr w) = Ok f tt /\ suffix_len f = Ok n (f_rt f) /\
    (n <= 2 * Z.of_nat (length (without_dollar w)) + 2)%Z.
Proof.
  intros Hw Hb. destruct (suffix_new_ok w Hw Hb) as (f & L & E & I).
  destruct (compact_count _ _ _ (i_shape _ _ _ I) (i_branch _ _ _ I)) as (n & H1 & _ & H3).
  exists f, (1 + Z.of_nat n)%Z. split; [done|]. split; [done|].
  assert (size (labels (strip_dollar w)) <= S (length (strip_dollar w))) as Hsz.
  { unfold labels, labels_upto. generalize (S (length (strip_dollar w))). intros k.
    assert (forall l : list word, size (list_to_set l : words) <= length l) as H.
    { induction l as [|x l IH]; [done|]. cbn [length list_to_set]. 
      assert (size ({[x]} ∪ list_to_set l : words) <= size ({[x]} : words) + size (list_to_set l : words)) as H.
      { rewrite size_union_alt. assert (size ((list_to_set l : words) ∖ {[x]}) <= size (list_to_set l : words)) by (apply subseteq_size; set_solver). lia. }
      rewrite size_singleton in H. lia. }
    etrans; [apply H|]. by rewrite map_length, seq_length. }
  change (without_dollar w) with (strip_dollar w). lia.
Qed.
Print Assumptions C53_suffix_trie_linear.
Example C53_suffix_example : suffix_len (made BANANA) = Ok 11%Z (f_rt (made BANANA)).
Proof. by vm_compute. Qed.
