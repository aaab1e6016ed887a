(** * RadixTrie against its reference *)
From stdpp Require Import gmap.
From Verif Require Import Base TrieModel TrieRep TrieSpec TrieThm TrieThm2 TrieThm3 TrieProps RadixSpec.
Local Open Scope py_scope.

Lemma off_b_spec P w : off_b P w = true <-> off P w.
Proof.
  unfold off_b, off. rewrite existsb_exists. split.
  - intros (n & Hn & H). rewrite !andb_true_iff, negb_true_iff in H. destruct H as ((H1 & H2) & H3).
    apply bool_decide_eq_true in H1. apply bool_decide_eq_true in H2.
    assert (take (S n) w = take n w ++ [125%N]) as E by (by apply take_S_r).
    exists (take n w), (drop (S n) w). split; [|split; [done|]].
    + symmetry. by apply take_drop_middle.
    + rewrite <- E, <- is_prefix_b_spec, H3. done.
  - intros (q & r & -> & Hq & Hno). exists (length q). split.
    + apply in_seq. rewrite app_length. cbn. lia.
    + assert (take (S (length q)) (q ++ 125%N :: r) = q ++ [125%N]) as E.
      { change (125%N :: r) with ([125%N] ++ r). rewrite (assoc (++)).
        replace (S (length q)) with (length (q ++ [125%N])) by (rewrite app_length; cbn; lia). by rewrite take_app. }
      rewrite E, take_app, list_lookup_middle by done.
      rewrite bool_decide_eq_true_2 by done. rewrite bool_decide_eq_true_2 by done.
      destruct (is_prefix_b P (q ++ [125%N])) eqn:E'; [|done]. by apply is_prefix_b_spec in E'.
Qed.
Lemma shared_spec P w : shared P w `prefix_of` w /\ is_prefix P (shared P w) /\
  forall q, q `prefix_of` w -> is_prefix P q -> length q <= length (shared P w).
Proof.
  unfold shared. assert (forall n, n <= length w -> shared_upto P w n `prefix_of` w /\ is_prefix P (shared_upto P w n) /\
    forall q, q `prefix_of` w -> length q <= n -> is_prefix P q -> length q <= length (shared_upto P w n)) as H.
  { induction n as [|n IH]; intros Hn.
    - cbn. split; [apply prefix_nil|]. split; [by left|]. intros q _ Hq _. lia.
    - cbn [shared_upto]. destruct (is_prefix_b P (take (S n) w)) eqn:E.
      + apply is_prefix_b_spec in E. split; [exists (drop (S n) w); by rewrite take_drop|]. split; [done|].
        intros q _ Hq _. rewrite take_length. lia.
      + destruct IH as (H1 & H2 & H3); [lia|]. split; [done|]. split; [done|]. intros q Hq Hlen Hp.
        apply H3; [done| |done]. destruct (decide (length q = S n)) as [Hl|]; [|lia]. exfalso.
        destruct Hq as [t ->]. rewrite <- Hl, take_app in E. apply is_prefix_b_spec in Hp. congruence. }
  destruct (H (length w) ltac:(lia)) as (H1 & H2 & H3). split; [done|]. split; [done|].
  intros q Hq Hp. apply H3; [done| |done]. by apply prefix_length.
Qed.

(** The points are the live paths. *)
Definition points (L : gmap nat word) (P : words) : Prop := forall p, p ∈ P <-> p <> [] /\ exists i, L !! i = Some p.
Lemma points_prefix s L W P p : trep s L W -> points L P -> is_prefix P p <-> is_prefix W p.
Proof.
  intros T HP. unfold is_prefix. split; (intros [->|(v & Hv & Hpre)]; [by left|]).
  - apply HP in Hv as (Hne & i & Hi). destruct (ext' _ _ _ _ _ T Hi Hne) as (t & Ht). right. exists (v ++ t). split; [done|]. by apply prefix_app_r.
  - right. exists v. split; [|done]. apply HP. split; [intros ->; by apply (x_nil _ _ _ _ T)|]. by apply (x_live _ _ _ _ T).
Qed.
Lemma at_point_live s L P q : rep s L -> points L P -> at_point P q <-> exists i, L !! i = Some q.
Proof.
  intros R HP. unfold at_point. rewrite (HP q). split; [intros [->|[_ ?]]; [|done]; eexists; apply (r_root _ _ R)|].
  intros Hi. destruct (decide (q = [])); [by left|by right].
Qed.
Lemma falls_off_iff s L W P w q r : trep s L W -> points L P ->
  falls s L w q r <-> w = q ++ 125%N :: r /\ at_point P q /\ ~ is_prefix P (q ++ [125%N]).
Proof.
  intros T HP. pose proof (x_rep _ _ _ _ T) as R. rewrite (points_prefix _ _ _ _ _ T HP), (at_point_live _ _ _ _ R HP). split.
  - intros (-> & j & nj & Hj & Hnj & Hd). split; [done|]. split; [by exists j|].
    intros [?|(v & Hv & t & ->)]; [by destruct q|]. destruct (x_live _ _ _ _ T _ Hv) as (b & Hb).
    rewrite <- (assoc (++)) in Hb. by destruct (nav_fresh _ _ _ _ _ _ _ _ R Hj Hnj Hd Hb).
  - intros (-> & [j Hj] & Hno). split; [done|].
    destruct (x_node _ _ _ _ _ _ T Hj) as (nj & Hnj). exists j, nj. split; [done|]. split; [done|].
    destruct (dget RBRACE (n_children nj)) as [c|] eqn:Hd; [|done]. exfalso. apply Hno.
    destruct (child_of _ _ _ _ _ _ _ R Hj Hnj (dget_in _ _ _ Hd)) as (m & r' & Hm & _ & Hr & HL).
    destruct (ext' _ _ _ _ _ T HL) as (t & Ht); [by destruct q|]. right. eexists. split; [done|].
    exists (r' ++ t). by rewrite <- !(assoc (++)).
Qed.
Lemma falls_off s L W P w : trep s L W -> points L P -> (exists q r, falls s L w q r) <-> off P w.
Proof. intros T HP. unfold off. by setoid_rewrite (falls_off_iff s L W P w _ _ T HP). Qed.
Lemma off_fails s L W P w : trep s L W -> points L P -> off P w ->
  trie_contains (PStr w) s = Exc AttributeError s /\
  radix_auto_complete (PStr w) s = Exc AttributeError s /\
  trie_remove (PStr w) s = Exc AttributeError s /\
  (blank w = false -> radix_insert (PStr w) s = Exc AttributeError s) /\
  (~ ends_off P w -> trie_has_prefix (PStr w) s = Exc AttributeError s) /\
  (ends_off P w -> trie_has_prefix (PStr w) s = Ok true s).
Proof.
  intros T HP Hb. pose proof (x_rep _ _ _ _ T) as R.
  assert (w <> []) as Hne by (destruct Hb as (q & r & -> & _); by destruct q).
  apply (falls_off s L W P w T HP) in Hb as (q & r & Hf).
  pose proof (falls_follow _ _ _ _ _ R Hf) as E.
  assert (r = [] <-> ends_off P w) as Hr.
  { split.
    - intros ->. apply (falls_off_iff _ _ _ _ _ _ _ T HP) in Hf as (-> & Hq & Hno). by exists q.
    - intros (q' & -> & Hq' & Hno).
      assert (falls s L (q' ++ [125%N]) q' []) as Hf' by (by apply (falls_off_iff _ _ _ _ _ _ _ T HP)).
      pose proof (falls_follow _ _ _ _ _ R Hf') as E'. rewrite E in E'. by destruct r. }
  split; [|split; [|split; [|split; [|split]]]].
  - unfold trie_contains. destruct r; [by rewrite (bind_ok _ _ _ _ _ E)|by rewrite (bind_exc _ _ _ _ _ E)].
  - unfold radix_auto_complete. rewrite (bind_ok _ _ _ w s) by done.
    destruct r; [by rewrite (bind_ok _ _ _ _ _ E)|by rewrite (bind_exc _ _ _ _ _ E)].
  - destruct w; [done|]. cbn [trie_remove].
    destruct r; [by rewrite (bind_ok _ _ _ _ _ E)|by rewrite (bind_exc _ _ _ _ _ E)].
  - intros Hbl. unfold radix_insert, trie_validate. rewrite Hbl, (bind_ok _ _ _ w s) by done.
    unfold radix_insert_node. rewrite bool_decide_eq_false_2 by done. unfold bind at 1. rewrite (bind_ok _ _ _ tt s) by done.
    destruct r; [by rewrite (bind_ok _ _ _ _ _ E)|by rewrite (bind_exc _ _ _ _ _ E)].
  - intros H. unfold trie_has_prefix. destruct r; [by destruct H; apply Hr|by rewrite (bind_exc _ _ _ _ _ E)].
  - intros H%Hr. subst r. unfold trie_has_prefix. by rewrite (bind_ok _ _ _ _ _ E).
Qed.

(** ** Insertion *)
Lemma insert_points s L W P w s' L' i : trep s L W -> points L P -> trep s' L' ({[w]} ∪ W) -> L ⊆ L' -> L' !! i = Some w ->
  grows L L' w -> w <> [] -> points L' ({[w]} ∪ ({[shared P w]} ∖ {[ [] ]}) ∪ P).
Proof.
  intros T HP T' HL Hi Hg Hw. pose proof (x_rep _ _ _ _ T) as R. pose proof (x_rep _ _ _ _ T') as R'.
  destruct (shared_spec P w) as (Hsh1 & Hsh2 & Hsh3). set (q := shared P w) in *. clearbody q.
  intros p. rewrite !elem_of_union, elem_of_difference, !elem_of_singleton. split.
  - intros [[->|[-> Hq]]|Hp]; [by eauto| |].
    + split; [done|]. destruct Hsh1 as [t Ht]. destruct t as [|x u]; [exists i; by rewrite Hi, Ht, app_nil_r|].
      destruct Hsh2 as [?|(v & Hv & t' & ->)]; [done|]. apply HP in Hv as (_ & j & Hj).
      pose proof (lookup_weaken _ _ _ _ Hj HL) as Hj'. destruct t' as [|y v]; [exists j; by rewrite app_nil_r in Hj'|].
      destruct (decide (x = y)) as [->|Hxy].
      * exfalso. assert (length (q ++ [y]) <= length q) as Hlen; [|rewrite app_length in Hlen; cbn in Hlen; lia].
        apply Hsh3; [exists u; by rewrite <- (assoc (++))|]. right. exists (q ++ y :: v). split; [|exists v; by rewrite <- (assoc (++))].
        apply HP. split; [by destruct q|by exists j].
      * apply (parting _ _ i j q x y u v R'); [congruence|done|done].
    + apply HP in Hp as (Hp & j & Hj). split; [done|]. exists j. by eapply lookup_weaken.
  - intros (Hp & j & Hj). destruct (Hg _ _ Hj) as [Hj'|[->|(x & y & u & v & k & Hxy & Ew & Hk)]]; [right; apply HP; by eauto|by left; left|].
    destruct (decide (p = q)) as [->|Hpq]; [left; right; done|]. right. apply HP. split; [done|].
    assert (is_prefix P p) as Hpp. { right. exists (p ++ y :: v). split; [apply HP; split; [by destruct p|by exists k]|by eexists]. }
    assert (length p <= length q) as Hlen by (apply Hsh3; [by exists (x :: u)|done]).
    destruct Hsh1 as [t Ht]. rewrite Ew in Ht. destruct (prefix_split _ _ _ _ Ht) as [(t' & Ep & Et)|(t' & Eq & Et)].
    + rewrite Ep, app_length in Hlen. destruct t'; [|cbn in Hlen; lia]. rewrite app_nil_r in Ep. done.
    + destruct t' as [|x' t']; [rewrite app_nil_r in Eq; congruence|]. cbn in Et. injection Et as <- Et.
      destruct Hsh2 as [->|(z & Hz & t2 & Ez)]; [by destruct p|]. apply HP in Hz as (_ & k2 & Hk2). subst z q.
      rewrite <- (assoc (++)) in Hk2. cbn in Hk2.
      apply (parting s L k2 k p x y (t' ++ t2) v R); [done|done|done].
Qed.

(** ** Removal *)
Lemma remove_loop_points W : forall fuel s L i p,
  trepx s L W i -> L !! i = Some p -> size L < fuel ->
  exists s' L', remove_loop fuel i s = (if decide (W = ∅) then Exc AttributeError s' else Ok tt s') /\
    trep s' L' W /\ (forall j q, L' !! j = Some q -> L !! j = Some q) /\
    (forall j q, L !! j = Some q -> is_prefix W q -> L' !! j = Some q).
Proof.
  induction fuel as [|fuel IH]; intros s L i p T Hi Hf; [lia|].
  pose proof (x_rep _ _ _ _ T) as R. destruct (r_node _ _ R _ _ Hi) as (n & Hn & Hnok).
  cbn [remove_loop]. rewrite (bind_ok _ _ _ _ _ (rd_eq _ _ _ Hn)).
  destruct (n_word n) eqn:Hw; cbn [negb andb].
  { pose proof (x_flag _ _ _ _ T _ _ _ Hi Hn) as Hp. rewrite Hw in Hp. symmetry in Hp. apply bool_decide_eq_true in Hp.
    exists s, L. rewrite decide_False by (intros ->; by apply elem_of_empty in Hp).
    split; [done|]. split; [|done]. destruct T as [T1 T2 T3 T4 T5]. split; try done.
    intros x q m Hx Hm Hc Hq _. destruct (decide (x = i)) as [->|]; [congruence|]. by eapply T5. }
  case_bool_decide as Hc.
  - destruct Hnok as (_ & _ & [[-> Hpar]|(j & q & k & m & Hpar & Hj & Hpq & Hh & Hm & Hin)]).
    + destruct (r_rdata _ _ R) as (n' & Hn' & Hd). rewrite Hn in Hn'. injection Hn' as <-. rewrite Hd.
      rewrite (bind_ok _ _ _ 82%N s) by done. rewrite Hpar.
      exists s, L. split; [|done]. rewrite decide_True; [done|].
      apply set_eq. intros w. split; [|by intros ?%elem_of_empty]. intros Hw'. exfalso.
      destruct (x_live _ _ _ _ T _ Hw') as (b & Hb). destruct w as [|k w]; [by apply (x_nil _ _ _ _ T)|].
      destruct (nav _ _ R _ _ _ _ _ _ (r_root _ _ R) Hn Hb) as (c & m & Hin & _).
      rewrite Hc in Hin. by apply elem_of_nil in Hin.
    + apply head_cons in Hh as (d & Hd). rewrite Hd. rewrite (bind_ok _ _ _ k s) by done.
      rewrite Hpar. rewrite (bind_ok _ _ _ j s) by done. rewrite (bind_ok _ _ _ _ _ (rd_eq _ _ _ Hm)).
      destruct (rep_cut s L i p n j k d m R Hi Hn Hc Hpar Hd Hm) as (R' & -> & _).
      unfold wr at 1. unfold bind at 1. unfold add_count at 1. unfold bind at 1. cbn [t_nodes t_root t_count].
      assert (i <> j) as Hij.
      { intros ->. rewrite Hi in Hj. injection Hj as ->. apply (f_equal length) in Hpq. rewrite Hd, app_length in Hpq. cbn in Hpq. lia. }
      destruct (IH (TS (<[j := TN (n_data m) (n_parent m) (ddel k (n_children m)) (n_word m)]> (t_nodes s))
          (t_root s) (t_count s + -1)) (delete i L) j q) as (s' & L' & E & T' & Hsub & Hkeep).
      * by eapply cut_ok.
      * by rewrite lookup_delete_ne.
      * pose proof (map_size_delete_Some i L ltac:(by eexists)).
        assert (size L <> 0). { intros H0. apply map_size_empty_inv in H0. by rewrite H0 in Hi. } lia.
      * exists s', L'. split; [done|]. split; [done|]. split.
        -- intros x y Hx%Hsub. by apply lookup_delete_Some in Hx as [_ ?].
        -- intros x y Hx Hpre. apply Hkeep; [|done]. rewrite lookup_delete_ne; [done|]. intros <-.
           rewrite Hi in Hx. injection Hx as <-. destruct Hpre as [->|(v & Hv & t & ->)]; [by destruct q; rewrite Hd in Hpq|].
           destruct (x_live _ _ _ _ T _ Hv) as (b & Hb). destruct t as [|k' t].
           ++ rewrite app_nil_r in Hv. pose proof (x_flag _ _ _ _ T _ _ _ Hi Hn) as Hp. rewrite Hw in Hp. symmetry in Hp.
              by apply bool_decide_eq_false in Hp.
           ++ destruct (nav _ _ R _ _ _ _ _ _ Hi Hn Hb) as (c & mm & Hin' & _). rewrite Hc in Hin'. by apply elem_of_nil in Hin'.
  - exists s, L. rewrite decide_False.
    + split; [done|]. split; [|done]. destruct T as [T1 T2 T3 T4 T5]. split; try done.
      intros x q m Hx Hm Hcm Hq _. destruct (decide (x = i)) as [->|]; [congruence|]. by eapply T5.
    + intros ->. destruct (n_children n) as [|[k c] cs] eqn:Hcs; [done|].
      destruct (child_of _ _ _ _ _ k c R Hi Hn) as (m & r & Hm & _ & _ & HL); [rewrite Hcs; left|].
      destruct (ext s L ∅ i c (p ++ k :: r) T HL) as (t & ?%elem_of_empty); [by destruct p| |done].
      intros n' Hn' Hc' _. congruence.
Qed.
Lemma remove_points s L W P w : trep s L W -> points L P ->
  exists s' L', (trie_remove (PStr w) s = Ok false s' \/ trie_remove (PStr w) s = Exc AttributeError s') /\
    trep s' L' (W ∖ {[w]}) /\ points L' (filter (fun p => is_prefix_b (W ∖ {[w]}) p = true) P).
Proof.
  intros T HP. pose proof (x_rep _ _ _ _ T) as R.
  assert (w ∉ W -> trep s L (W ∖ {[w]}) /\ points L (filter (fun p => is_prefix_b (W ∖ {[w]}) p = true) P)) as Hsame.
  { intros H. replace (W ∖ {[w]}) with W by set_solver. split; [done|]. intros p. rewrite elem_of_filter, is_prefix_b_spec, (HP p).
    split; [by intros [_ ?]|]. intros (Hp & i & Hi). split; [by eapply live_prefix|by eauto]. }
  destruct (decide (w = [])) as [->|Hne].
  { exists s, L. split; [by left|]. apply Hsame, (x_nil _ _ _ _ T). }
  destruct w as [|k0 w0]; [done|]. cbn [trie_remove]. set (w := k0 :: w0) in *.
  destruct (follow_ok s L w R) as [(j & q & rem & E & Hj & Hw & Hst)|(q & r & Hf & E)].
  - rewrite (bind_ok _ _ _ _ _ E). destruct rem as [|k rem].
    + rewrite app_nil_r in Hw. rewrite <- Hw in Hj. rewrite (bind_ok _ _ _ j s) by done.
      destruct (x_node _ _ _ _ _ _ T Hj) as (n & Hn). rewrite (bind_ok _ _ _ _ _ (set_word_eq _ _ _ _ Hn)).
      pose proof (unmark_ok _ _ _ _ _ _ T Hj Hn) as T1. cbv zeta in T1.
      set (s1 := TS (<[j := _]> _) _ _) in *. rewrite (bind_ok _ _ _ s1 s1) by done.
      destruct (remove_loop_points (W ∖ {[w]}) (S (length (t_nodes s1))) s1 L j w T1 Hj) as (s' & L' & E' & T' & Hsub & Hkeep).
      { pose proof (size_le _ _ (x_rep _ _ _ _ T1)). lia. }
      exists s', L'. split; [|split; [done|]].
      * destruct (decide (W ∖ {[w]} = ∅)) as [He|He].
        -- right. by rewrite (bind_exc _ _ _ _ _ E').
        -- left. by rewrite (bind_ok _ _ _ _ _ E').
      * intros p. rewrite elem_of_filter, is_prefix_b_spec, (HP p). split.
        -- intros (Hp & Hp0 & i & Hi). split; [done|]. exists i. by apply Hkeep.
        -- intros (Hp0 & i & Hi). split; [by eapply live_prefix|]. split; [done|]. exists i. by apply Hsub.
    + exists s, L. split; [by left|]. apply Hsame.
      intros (b & Hb)%(x_live _ _ _ _ T). rewrite Hw in Hb. by pose proof (stuck_path _ _ _ _ _ _ R Hj Hst Hb).
  - exists s, L. split; [right; destruct r as [|k r]; [by rewrite (bind_ok _ _ _ _ _ E)|by rewrite (bind_exc _ _ _ _ _ E)]|].
    apply Hsame. intros Hin. by destruct (falls_not_prefix _ _ _ _ _ _ _ T Hf w Hin).
Qed.

(** ** Histories *)
Lemma radix_run_exact h : forall s L x, trep s L (rx_words x) -> points L (rx_points x) ->
  exists s' L' , trie_run CRadix h s = Some s' /\ let x' := fold_left radix_step h x in
    trep s' L' (rx_words x') /\ points L' (rx_points x').
Proof.
  induction h as [|o h IH]; intros s L x T HP; cbn [trie_run fold_left]; [by exists s, L|].
  assert (exists s' L', after (trie_call CRadix o s) = Some s' /\ trep s' L' (rx_words (radix_step x o)) /\ points L' (rx_points (radix_step x o)))
    as (s' & L' & -> & T' & HP'); [|by eapply IH].
  destruct o as [v|v|]; cbn [trie_call radix_step].
  - destruct v as [| |w| | |]; try (exists s, L; done).
    destruct (blank w) eqn:Hb.
    { exists s, L. unfold radix_insert, trie_validate. rewrite Hb. done. }
    cbn [orb]. destruct (off_b (rx_points x) w) eqn:Hoff.
    + apply off_b_spec in Hoff. destruct (off_fails _ _ _ _ _ T HP Hoff) as (_ & _ & _ & H & _).
      rewrite H by done. by exists s, L.
    + unfold radix_insert, trie_validate. rewrite Hb, (bind_ok _ _ _ w s) by done. cbn [rx_words rx_points].
      destruct (radix_insert_node_ok s L _ w T (blank_nil _ Hb)) as [(s' & L' & i & E & T' & HL & Hi & Hg)|[E Hf]].
      * rewrite (bind_ok _ _ _ _ _ E). exists s', L'. split; [done|]. split; [done|]. apply (insert_points s L (rx_words x) _ w s' L' i); [done..|by apply blank_nil].
      * apply (falls_off _ _ _ _ _ T HP), off_b_spec in Hf. congruence.
  - destruct v as [| |w| | |]; try (exists s, L; done).
    destruct (remove_points s L _ _ w T HP) as (s' & L' & E & T' & HP').
    exists s', L'. split; [|done]. unfold bind. by destruct E as [->| ->].
  - destruct (clear_ok s) as (s' & L' & -> & T' & _). exists s', L'. split; [done|]. split; [done|].
    intros p. split; [by intros ?%elem_of_empty|]. intros (Hp & i & Hi).
    by destruct (ext' _ _ _ _ _ T' Hi Hp) as (t & ?%elem_of_empty).
Qed.
Lemma points_size s L W P : trep s L W -> points L P -> trie_len s = Ok (1 + Z.of_nat (size P))%Z s.
Proof.
  intros T HP. pose proof (x_rep _ _ _ _ T) as R. unfold trie_len. rewrite (bind_ok _ _ _ s s) by done. unfold ret. f_equal.
  rewrite (r_count _ _ R).
  assert (set_map (fun i => default [] (L !! i)) (dom L : gset nat) = ({[ [] ]} ∪ P : words)) as E.
  { apply set_eq. intros p. rewrite elem_of_map, elem_of_union, elem_of_singleton, (HP p). split.
    - intros (i & -> & [p0 Hp]%elem_of_dom). rewrite Hp. cbn. destruct (decide (p0 = [])); [by left|]. right. by eauto.
    - intros H. assert (exists i, L !! i = Some p) as [i Hi].
      { destruct H as [->|(_ & ?)]; [|done]. exists (t_root s). apply (r_root _ _ R). }
      exists i. rewrite Hi. split; [done|]. by eapply elem_of_dom_2. }
  assert (size (dom L : gset nat) = size ({[ [] ]} ∪ P : words)) as Hsz.
  { rewrite <- E. unfold set_map. rewrite size_list_to_set.
    - rewrite fmap_length. done.
    - apply NoDup_fmap_2_strong; [|apply NoDup_elements].
      intros x y [p Hx]%elem_of_elements%elem_of_dom [q Hy]%elem_of_elements%elem_of_dom.
      rewrite Hx, Hy. cbn. intros ->. by eapply (r_inj _ _ R). }
  rewrite size_union, size_singleton in Hsz.
  - rewrite <- (size_dom (D:=gset nat) L), Hsz. lia.
  - intros p ->%elem_of_singleton [? _]%HP. done.
Qed.
