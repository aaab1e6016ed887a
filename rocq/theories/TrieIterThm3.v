(** * What the calls of a Trie do to single nodes *)
From stdpp Require Import gmap.
From Verif Require Import Base TrieModel TrieRep TrieSpec TrieThm TrieThm2 TrieProps.
Local Open Scope py_scope.

(** Nodes that leave the trie are leaves, and nobody touches them any more; no node
    changes its data. *)
Record moved (s : ts) (L : gmap nat word) (s' : ts) (L' : gmap nat word) : Prop := {
  mv_live : forall i p, L !! i = Some p -> L' !! i = Some p \/ (L' !! i = None /\ exists n, t_nodes s' !! i = Some n /\ n_children n = []);
  mv_dead : forall i, L !! i = None -> i < length (t_nodes s) -> L' !! i = None /\ t_nodes s' !! i = t_nodes s !! i;
  mv_data : forall i n, t_nodes s !! i = Some n -> exists n', t_nodes s' !! i = Some n' /\ n_data n' = n_data n;
}.
Lemma moved_refl s L : moved s L s L.
Proof. split; [by left|done|by eauto]. Qed.
Lemma moved_trans s1 L1 s2 L2 s3 L3 : moved s1 L1 s2 L2 -> moved s2 L2 s3 L3 -> moved s1 L1 s3 L3.
Proof.
  intros [A1 B1 C1] [A2 B2 C2]. split.
  - intros i p Hi. destruct (A1 _ _ Hi) as [H|(H & n & Hn & Hc)]; [by apply A2|]. right.
    destruct (B2 i H (lookup_lt_Some _ _ _ Hn)) as [H' E]. split; [done|]. exists n. by rewrite E.
  - intros i Hi Hlt. destruct (B1 i Hi Hlt) as [H E]. apply lookup_lt_is_Some in Hlt as [n Hn].
    destruct (B2 i H) as [H' E']; [|by rewrite E', E]. eapply lookup_lt_Some. by rewrite E.
  - intros i n Hn. destruct (C1 _ _ Hn) as (n1 & Hn1 & E1). destruct (C2 _ _ Hn1) as (n2 & Hn2 & E2). exists n2. by rewrite E2.
Qed.
Lemma moved_write s L i p n n' z : L !! i = Some p -> t_nodes s !! i = Some n -> n_data n' = n_data n ->
  moved s L (TS (<[i := n']> (t_nodes s)) (t_root s) z) L.
Proof.
  intros Hi Hn Hd. split; cbn [t_nodes].
  - by left.
  - intros j Hj Hlt. split; [done|]. apply list_lookup_insert_ne. congruence.
  - intros j m Hj. destruct (decide (j = i)) as [->|Hne].
    + exists n'. rewrite list_lookup_insert by (by eapply lookup_lt_Some). split; [done|congruence].
    + exists m. by rewrite list_lookup_insert_ne.
Qed.
Lemma moved_leaf s L i p q n k d : rep s L -> L !! i = Some p -> t_nodes s !! i = Some n ->
  moved s L (leaf_state s i n k d) (<[length (t_nodes s) := q]> L).
Proof.
  intros R Hi Hn. destruct (leaf_lookup s i n k d Hn) as (Ei & Ec & Ex).
  assert (forall j m, t_nodes s !! j = Some m -> j <> length (t_nodes s)) as Hne. { intros j m Hj ->. apply lookup_lt_Some in Hj. lia. }
  split.
  - intros j r Hj. left. rewrite lookup_insert_ne; [done|]. intros <-. apply (rep_lt _ _ _ _ R) in Hj. lia.
  - intros j Hj Hlt. split; [rewrite lookup_insert_ne by lia; done|]. apply Ex; [lia|congruence].
  - intros j m Hj. destruct (decide (j = i)) as [->|Hji].
    + eexists. split; [exact Ei|]. rewrite Hn in Hj. by injection Hj as ->.
    + exists m. rewrite Ex; [done| |done]. by eapply Hne.
Qed.
Lemma moved_cut s L i p n j q m m' z : L !! i = Some p -> t_nodes s !! i = Some n -> n_children n = [] ->
  L !! j = Some q -> t_nodes s !! j = Some m -> i <> j -> n_data m' = n_data m ->
  moved s L (TS (<[j := m']> (t_nodes s)) (t_root s) z) (delete i L).
Proof.
  intros Hi Hn Hc Hj Hm Hij Hd. split; cbn [t_nodes].
  - intros x r Hx. destruct (decide (x = i)) as [->|Hne].
    + right. split; [apply lookup_delete|]. exists n. by rewrite list_lookup_insert_ne.
    + left. by rewrite lookup_delete_ne.
  - intros x Hx Hlt. split; [by apply lookup_delete_None; right|]. apply list_lookup_insert_ne. congruence.
  - intros x r Hx. destruct (decide (x = j)) as [->|Hne].
    + exists m'. rewrite list_lookup_insert by (by eapply lookup_lt_Some). split; [done|congruence].
    + exists r. by rewrite list_lookup_insert_ne.
Qed.

(** ** insert *)
Lemma insert_loop_moved W : forall rest s L x i p n,
  trepx s L W x -> L !! i = Some p -> t_nodes s !! i = Some n ->
  (x = i \/ x = t_root s) ->
  (forall k r, rest = k :: r -> dget k (n_children n) = None) ->
  exists s' L' j x', insert_loop (Some i) rest s = Ok (Some j) s' /\ trepx s' L' W x' /\
    (x' = j \/ x' = t_root s') /\ L' !! j = Some (p ++ rest) /\ (single s L -> single s' L') /\ moved s L s' L' /\ L ⊆ L'.
Proof.
  induction rest as [|k rest IH]; intros s L x i p n T Hi Hn Hx Hk.
  - exists s, L, i, x. rewrite app_nil_r. split_and!; try done. apply moved_refl.
  - cbn [insert_loop]. unfold new_node at 1. unfold bind at 1.
    rewrite (bind_ok _ _ _ i (TS (t_nodes s ++ [TN [k] None [] false]) (t_root s) (t_count s))) by done.
    rewrite (leaf_run s i n k []) by done.
    destruct (leaf_ok s L W x i p n k [] T Hi Hn (Hk _ _ eq_refl) Hx) as (Hc & T' & Hs').
    destruct (leaf_lookup s i n k [] Hn) as (Ei & Ec & Ex).
    destruct (IH _ _ _ (length (t_nodes s)) (p ++ [k]) (TN [k] (Some i) [] false) T') as (s' & L' & j & x' & E & T'' & Hx' & Hj & Hs'' & Hmv & Hsub).
    + apply lookup_insert.
    + exact Ec.
    + by left.
    + done.
    + exists s', L', j, x'. rewrite <- (assoc (++)) in Hj. split_and!; try done.
      * intros H. by apply Hs'', Hs'.
      * eapply moved_trans; [|exact Hmv]. eapply moved_leaf; [apply (x_rep _ _ _ _ T)|done|done].
      * etrans; [|exact Hsub]. by apply insert_subseteq.
Qed.
Lemma trie_insert_moved s L W w : trep s L W -> single s L -> blank w = false ->
  (exists s' L', trie_insert (PStr w) s = Ok tt s' /\ trep s' L' ({[w]} ∪ W) /\ single s' L' /\ moved s L s' L' /\ L ⊆ L') \/
  (trie_insert (PStr w) s = Exc AttributeError s /\ exists q r, falls s L w q r).
Proof.
  intros T Hs Hb. pose proof (x_rep _ _ _ _ T) as R. unfold trie_insert, trie_validate. rewrite Hb.
  rewrite (bind_ok _ _ _ w s) by done.
  destruct (follow_ok s L w R) as [(j & q & rem & E & Hj & -> & Hst)|(q & r & Hf & E)].
  - left. rewrite (bind_ok _ _ _ _ _ E). destruct (x_node _ _ _ _ _ _ T Hj) as (n & Hn).
    destruct (insert_loop_moved W rem s L (t_root s) j q n T Hj Hn) as (s' & L' & i & x' & E' & T' & Hx' & Hi & Hs' & Hmv & Hsub); auto.
    { intros k r ->. by eapply stuck_single. }
    rewrite (bind_ok _ _ _ _ _ E'). rewrite (bind_ok _ _ _ i s') by done.
    destruct (x_node _ _ _ _ _ _ T' Hi) as (m & Hm). rewrite (set_word_eq _ _ _ _ Hm).
    eexists _, L'. split; [done|]. split_and!; [| | |done].
    + apply mark_ok; [|done..|by apply blank_nil]. destruct Hx' as [->| ->]; [done|]. by apply trepx_root.
    + apply single_flag; auto.
    + eapply moved_trans; [exact Hmv|]. by eapply moved_write.
  - right. split; [|by eauto]. destruct r as [|k r].
    + rewrite (bind_ok _ _ _ _ _ E). done.
    + by rewrite (bind_exc _ _ _ _ _ E).
Qed.

(** ** remove *)
Lemma remove_loop_moved W : forall fuel s L i p,
  trepx s L W i -> L !! i = Some p -> size L < fuel ->
  exists s' L', remove_loop fuel i s = (if decide (W = ∅) then Exc AttributeError s' else Ok tt s') /\
    trep s' L' W /\ (single s L -> single s' L') /\ moved s L s' L' /\ L' ⊆ L.
Proof.
  induction fuel as [|fuel IH]; intros s L i p T Hi Hf; [lia|].
  pose proof (x_rep _ _ _ _ T) as R. destruct (r_node _ _ R _ _ Hi) as (n & Hn & Hnok).
  cbn [remove_loop]. rewrite (bind_ok _ _ _ _ _ (rd_eq _ _ _ Hn)).
  destruct (n_word n) eqn:Hw; cbn [negb andb].
  { pose proof (x_flag _ _ _ _ T _ _ _ Hi Hn) as Hp. rewrite Hw in Hp. symmetry in Hp. apply bool_decide_eq_true in Hp.
    exists s, L. rewrite decide_False by (intros ->; by apply elem_of_empty in Hp).
    split; [done|]. split; [|split_and!; [done|apply moved_refl|done]]. destruct T as [T1 T2 T3 T4 T5]. split; try done.
    intros x q m Hx Hm Hc Hq _. destruct (decide (x = i)) as [->|]; [congruence|]. by eapply T5. }
  case_bool_decide as Hc.
  - destruct Hnok as (_ & _ & [[-> Hpar]|(j & q & k & m & Hpar & Hj & Hpq & Hh & Hm & Hin)]).
    + (* the root *)
      destruct (r_rdata _ _ R) as (n' & Hn' & Hd). rewrite Hn in Hn'. injection Hn' as <-. rewrite Hd.
      rewrite (bind_ok _ _ _ 82%N s) by done. rewrite Hpar.
      exists s, L. split; [|split_and!; [done|done|apply moved_refl|done]]. rewrite decide_True; [done|].
      apply set_eq. intros w. split; [|by intros ?%elem_of_empty]. intros Hw'. exfalso.
      destruct (x_live _ _ _ _ T _ Hw') as (b & Hb). destruct w as [|k w]; [by apply (x_nil _ _ _ _ T)|].
      destruct (nav _ _ R _ _ _ _ _ _ (r_root _ _ R) Hn Hb) as (c & m & Hin & _).
      rewrite Hc in Hin. by apply elem_of_nil in Hin.
    + apply head_cons in Hh as (d & Hd). rewrite Hd. rewrite (bind_ok _ _ _ k s) by done.
      rewrite Hpar. rewrite (bind_ok _ _ _ j s) by done. rewrite (bind_ok _ _ _ _ _ (rd_eq _ _ _ Hm)).
      destruct (rep_cut s L i p n j k d m R Hi Hn Hc Hpar Hd Hm) as (R' & -> & _).
      unfold wr at 1. unfold bind at 1. unfold add_count at 1. unfold bind at 1. cbn [t_nodes t_root t_count].
      assert (i <> j) as Hij.
      { intros ->. rewrite Hi in Hj. injection Hj as ->. apply (f_equal length) in Hpq. rewrite Hd, app_length in Hpq. cbn in Hpq. lia. }
      destruct (IH (TS (<[j := TN (n_data m) (n_parent m) (ddel k (n_children m)) (n_word m)]> (t_nodes s))
          (t_root s) (t_count s + -1)) (delete i L) j q) as (s' & L' & E & T' & Hs' & Hmv & Hsub).
      * by eapply cut_ok.
      * by rewrite lookup_delete_ne.
      * pose proof (map_size_delete_Some i L ltac:(by eexists)).
        assert (size L <> 0). { intros H0. apply map_size_empty_inv in H0. by rewrite H0 in Hi. } lia.
      * exists s', L'. split_and!; try done.
        -- intros H. by apply Hs', single_cut.
        -- eapply moved_trans; [|exact Hmv]. by eapply moved_cut.
        -- etrans; [exact Hsub|]. apply delete_subseteq.
  - exists s, L. rewrite decide_False.
    + split; [done|]. split; [|split_and!; [done|apply moved_refl|done]]. destruct T as [T1 T2 T3 T4 T5]. split; try done.
      intros x q m Hx Hm Hcm Hq _. destruct (decide (x = i)) as [->|]; [congruence|]. by eapply T5.
    + intros ->. destruct (n_children n) as [|[k c] cs] eqn:Hcs; [done|].
      destruct (child_of _ _ _ _ _ k c R Hi Hn) as (m & r & Hm & _ & _ & HL); [rewrite Hcs; left|].
      destruct (ext s L ∅ i c (p ++ k :: r) T HL) as (t & ?%elem_of_empty); [by destruct p| |done].
      intros n' Hn' Hc' _. congruence.
Qed.
Lemma remove_moved s L W w : trep s L W ->
  exists s' L', after (trie_remove (PStr w) s) = Some s' /\ trep s' L' (W ∖ {[w]}) /\ (single s L -> single s' L') /\ moved s L s' L' /\ L' ⊆ L.
Proof.
  intros T. pose proof (x_rep _ _ _ _ T) as R.
  assert (w ∉ W -> trep s L (W ∖ {[w]})) as Hsame by (intros H; by replace (W ∖ {[w]}) with W by set_solver).
  assert (w ∉ W -> after (trie_remove (PStr w) s) = Some s -> exists s' L', after (trie_remove (PStr w) s) = Some s' /\ trep s' L' (W ∖ {[w]}) /\ (single s L -> single s' L') /\ moved s L s' L' /\ L' ⊆ L) as Hno.
  { intros H E. exists s, L. split_and!; auto. apply moved_refl. }
  destruct (decide (w = [])) as [->|Hne].
  { apply Hno; [apply (x_nil _ _ _ _ T)|done]. }
  destruct w as [|k0 w0]; [done|]. cbn [trie_remove] in *. set (w := k0 :: w0) in *.
  destruct (follow_ok s L w R) as [(j & q & rem & E & Hj & Hw & Hst)|(q & r & Hf & E)].
  - destruct rem as [|k rem].
    + rewrite (bind_ok _ _ _ _ _ E). rewrite app_nil_r in Hw. rewrite <- Hw in Hj. rewrite (bind_ok _ _ _ j s) by done.
      destruct (x_node _ _ _ _ _ _ T Hj) as (n & Hn). rewrite (bind_ok _ _ _ _ _ (set_word_eq _ _ _ _ Hn)).
      pose proof (unmark_ok _ _ _ _ _ _ T Hj Hn) as T1. cbv zeta in T1.
      assert (moved s L (TS (<[j:=TN (n_data n) (n_parent n) (n_children n) false]> (t_nodes s)) (t_root s) (t_count s)) L) as Hm1 by (by eapply moved_write).
      set (s1 := TS (<[j := _]> _) _ _) in *. rewrite (bind_ok _ _ _ s1 s1) by done.
      destruct (remove_loop_moved (W ∖ {[w]}) (S (length (t_nodes s1))) s1 L j w T1 Hj) as (s' & L' & E' & T' & Hs' & Hmv & Hsub).
      { pose proof (size_le _ _ (x_rep _ _ _ _ T1)). lia. }
      exists s', L'. split; [|split; [done|]].
      * destruct (decide (W ∖ {[w]} = ∅)) as [He|He].
        -- by rewrite (bind_exc _ _ _ _ _ E').
        -- by rewrite (bind_ok _ _ _ _ _ E').
      * split_and!; [|by eapply moved_trans|done]. intros H. apply Hs'. by apply single_flag.
    + apply Hno; [|by rewrite (bind_ok _ _ _ _ _ E)].
      intros (b & Hb)%(x_live _ _ _ _ T). rewrite Hw in Hb. by pose proof (stuck_path _ _ _ _ _ _ R Hj Hst Hb).
  - apply Hno.
    + intros (b & Hb)%(x_live _ _ _ _ T). eapply (falls_path s L w q r b []); [done|done|by rewrite app_nil_r].
    + destruct r as [|k r]; [by rewrite (bind_ok _ _ _ _ _ E)|by rewrite (bind_exc _ _ _ _ _ E)].
Qed.

(** ** All calls *)
Lemma call_moved o s L W : trep s L W -> single s L ->
  exists s' L', after (trie_call CTrie o s) = Some s' /\ trep s' L' (trie_step W o) /\ single s' L' /\
    ((o = TClear /\ (exists n, t_nodes s' = t_nodes s ++ [n]) /\ L' = {[length (t_nodes s) := []]}) \/
     (moved s L s' L' /\ (L ⊆ L' \/ L' ⊆ L))).
Proof.
  intros T Hs. assert (exists s' L', Some s = Some s' /\ trep s' L' W /\ single s' L' /\
    ((o = TClear /\ (exists n, t_nodes s' = t_nodes s ++ [n]) /\ L' = {[length (t_nodes s) := []]}) \/
     (moved s L s' L' /\ (L ⊆ L' \/ L' ⊆ L)))) as Hsame.
  { exists s, L. split_and!; try done. right. split; [apply moved_refl|by left]. }
  destruct o as [v|v|]; cbn [trie_call trie_step].
  - destruct v as [| |w| | |]; try exact Hsame. destruct (blank w) eqn:Hb.
    { unfold trie_insert, trie_validate. rewrite Hb. exact Hsame. }
    cbn [orb]. destruct (bad_b W w) eqn:Hbad.
    + apply bad_b_spec in Hbad. destruct (bad_fails _ _ _ _ T Hs Hbad) as (_ & _ & _ & H & _). rewrite H by done. exact Hsame.
    + destruct (trie_insert_moved s L W w T Hs Hb) as [(s' & L' & -> & T' & Hs' & Hmv & Hsub)|[_ Hf]].
      * exists s', L'. split_and!; try done. right. auto.
      * apply (falls_bad _ _ _ _ T Hs), bad_b_spec in Hf. congruence.
  - destruct v as [| |w| | |]; try exact Hsame.
    destruct (remove_moved s L W w T) as (s' & L' & E & T' & Hs' & Hmv & Hsub). exists s', L'. split_and!; auto.
    unfold bind. by destruct (trie_remove (PStr w) s).
  - eexists _, _. split; [done|]. destruct (trep_new_gen _ _ (rep_init s)) as [H1 H2]; [done| |].
    { cbn. by rewrite lookup_app_r, Nat.sub_diag by lia. }
    split; [exact H1|]. split; [exact H2|]. left. split; [done|]. split; [by eexists|done].
Qed.
