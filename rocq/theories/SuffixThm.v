(** * SuffixTrie: construction and queries *)
From Coq Require Import Sorted.
From stdpp Require Import gmap.
From Verif Require Import Base TrieModel TrieRep TrieSpec TrieThm TrieThm2 SuffixModel SuffixSpec.
Local Open Scope py_scope.

(** ** Labels *)
Definition label (w : word) (i : nat) : word := drop i w ++ MARK ++ py_str_nat i.
Definition labels_upto (w : word) (k : nat) : words := list_to_set (map (label w) (seq 0 k)).
Definition labels (w : word) : words := labels_upto w (S (length w)).
Lemma elem_labels_upto w k l : l ∈ labels_upto w k <-> exists i, i < k /\ l = label w i.
Proof.
  unfold labels_upto. rewrite elem_of_list_to_set, elem_of_list_fmap. setoid_rewrite elem_of_seq.
  split; [intros (i & -> & ?)|intros (i & ? & ->)]; exists i; (split; [|done || lia]); lia || done.
Qed.
Lemma elem_labels w l : l ∈ labels w <-> exists i, i <= length w /\ l = label w i.
Proof. unfold labels. rewrite elem_labels_upto. split; intros (i & ? & ?); exists i; (split; [lia|done]). Qed.
Lemma labels_S w k : labels_upto w (S k) = {[label w k]} ∪ labels_upto w k.
Proof.
  apply set_eq. intros l. rewrite elem_of_union, elem_of_singleton, !elem_labels_upto. split.
  - intros (i & Hi & ->). destruct (decide (i = k)) as [->|]; [by left|]. right. exists i. split; [lia|done].
  - intros [->|(i & Hi & ->)]; [exists k|exists i]; (split; [lia|done]).
Qed.
Lemma label_cons w i : label w i = drop i w ++ DOLLAR :: [32; 10230; 32]%N ++ py_str_nat i.
Proof. done. Qed.
Lemma no_dollar_drop w i : no_dollar w -> no_dollar (drop i w).
Proof. intros H Hin. apply H. rewrite <- (take_drop i w). apply elem_of_app. by right. Qed.

Lemma dollar_cut (a b x y : word) : no_dollar a -> no_dollar b ->
  a ++ DOLLAR :: x = b ++ DOLLAR :: y -> a = b /\ x = y.
Proof.
  revert b. induction a as [|c a IH]; intros [|d b] Ha Hb E; cbn in E.
  - by injection E as ->.
  - injection E as <- _. destruct Hb. left.
  - injection E as -> _. destruct Ha. left.
  - injection E as -> E. destruct (IH b) as [-> ->]; try done.
    + intros H. apply Ha. by right.
    + intros H. apply Hb. by right.
Qed.
(** No label is a prefix of another. *)
Lemma label_prefix w i j : no_dollar w -> i <= length w -> j <= length w ->
  label w i `prefix_of` label w j -> i = j.
Proof.
  intros Hw Hi Hj [t Ht]. rewrite !label_cons, <- !(assoc (++)) in Ht. cbn in Ht.
  apply dollar_cut in Ht as [Ht _]; [|by apply no_dollar_drop..].
  apply (f_equal length) in Ht. rewrite !drop_length in Ht. lia.
Qed.
Lemma label_inj w i j : no_dollar w -> i <= length w -> j <= length w -> label w i = label w j -> i = j.
Proof. intros Hw Hi Hj E. apply (label_prefix w); try done. by rewrite E. Qed.
(** A string without ["$"] begins a label if and only if it begins the suffix. *)
Lemma label_pattern w p i : no_dollar p -> p `prefix_of` label w i <-> p `prefix_of` drop i w.
Proof.
  intros Hp. rewrite label_cons. split.
  - intros [t Ht]. destruct (prefix_split _ _ _ _ Ht) as [(z & Hz & _)|(z & -> & Hz)]; [by exists z|].
    destruct z as [|c z]; [by exists []; rewrite !app_nil_r|]. injection Hz as <- _.
    destruct Hp. apply elem_of_app. right. left.
  - intros [t Ht]. rewrite Ht. eexists. by rewrite <- (assoc (++)).
Qed.
Lemma digits_no_brace u : no_brace (digits u).
Proof. induction u; cbn; intros H; try (apply elem_of_cons in H as [H|H]; [done|by apply IHu]). by apply elem_of_nil in H. Qed.
Lemma label_no_brace w i : no_brace w -> no_brace (label w i).
Proof.
  intros Hw. rewrite label_cons. intros [H|H]%elem_of_app.
  - apply Hw. rewrite <- (take_drop i w). apply elem_of_app. by right.
  - repeat (apply elem_of_cons in H as [H|H]; [done|]). by apply digits_no_brace in H.
Qed.
Lemma label_nil w i : label w i <> [].
Proof. rewrite label_cons. by destruct (drop i w). Qed.
Lemma strip_no_dollar w : no_dollar (strip_dollar w).
Proof. intros [H _]%elem_of_list_filter. done. Qed.
Lemma strip_id w : no_dollar w -> strip_dollar w = w.
Proof.
  unfold strip_dollar. induction w as [|c w IH]; intros H; [done|]. rewrite filter_cons_True.
  - f_equal. apply IH. intros ?. apply H. by right.
  - intros ->. apply H. left.
Qed.

(** ** Construction *)
(** Every live path is the root's, a label, or the point where two labels part. *)
Definition branching (L : gmap nat word) (W : words) : Prop :=
  forall i p, L !! i = Some p -> p = [] \/ p ∈ W \/
    exists x y u v, x <> y /\ p ++ x :: u ∈ W /\ p ++ y :: v ∈ W.
Notation shape s L W := (trepg False s L W (t_root s)).

Lemma branching_grow s L L' W w : shape s L W -> branching L W -> grows L L' w -> branching L' ({[w]} ∪ W).
Proof.
  intros T HB Hg i p [Hi|[->|(x & y & u & v & j & Hxy & -> & Hj)]]%Hg.
  - destruct (HB _ _ Hi) as [?|[?|(x & y & u & v & ? & ? & ?)]]; [by left|right; left; set_solver|].
    right. right. exists x, y, u, v. set_solver.
  - right. left. set_solver.
  - right. right. destruct (ext' _ _ _ _ _ T Hj) as (t & Ht); [by destruct p|].
    rewrite <- (assoc (++)) in Ht. exists x, y, u, (v ++ t). set_solver.
Qed.
Lemma suffix_add_ok s L W w i : shape s L W -> branching L W ->
  (exists s' L' x, suffix_add w i s = Ok x s' /\ shape s' L' ({[label w i]} ∪ W) /\
     branching L' ({[label w i]} ∪ W) /\ L ⊆ L' /\ L' !! x = Some (label w i)) \/
  (suffix_add w i s = Exc AttributeError s /\ exists q r, falls s L (label w i) q r).
Proof.
  intros T HB. unfold suffix_add.
  destruct (radix_insert_node_ok s L W (label w i) T (label_nil w i)) as [(s' & L' & x & E & T' & HL & Hx & Hg)|(E & Hf)].
  - left. unfold label in E at 1. rewrite (bind_ok _ _ _ _ _ E). destruct (x_node _ _ _ _ _ _ T' Hx) as (n & Hn).
    rewrite (bind_ok _ _ _ _ _ (set_word_eq _ _ _ _ Hn)).
    eexists _, L', x. split; [done|]. split; [by apply shape_flag|]. split; [by eapply branching_grow|]. done.
  - right. unfold label in E at 1. by rewrite (bind_exc _ _ _ _ _ E).
Qed.
Lemma suffix_loop_ok w : no_brace w -> forall cnt idx s L,
  shape s L (labels_upto w idx) -> branching L (labels_upto w idx) ->
  exists l s' L', suffix_loop w idx cnt s = Ok l s' /\ length l = cnt /\
    shape s' L' (labels_upto w (idx + cnt)) /\ branching L' (labels_upto w (idx + cnt)) /\ L ⊆ L' /\
    forall k x, l !! k = Some x -> L' !! x = Some (label w (idx + k)).
Proof.
  intros Hw. induction cnt as [|cnt IH]; intros idx s L T HB.
  - exists [], s, L. rewrite Nat.add_0_r. done.
  - cbn [suffix_loop].
    destruct (suffix_add_ok s L _ w idx T HB) as [(s1 & L1 & x & E & T1 & HB1 & HL1 & Hx)|(_ & q & r & Hf)].
    2:{ apply falls_brace in Hf. destruct Hf. by apply label_no_brace. }
    rewrite <- labels_S in T1, HB1. rewrite (bind_ok _ _ _ _ _ E).
    destruct (IH (S idx) s1 L1 T1 HB1) as (l & s2 & L2 & E2 & Hl & T2 & HB2 & HL2 & Hk).
    rewrite (bind_ok _ _ _ _ _ E2). exists (x :: l), s2, L2. rewrite <- plus_n_Sm. split_and!; try done.
    + cbn. by f_equal.
    + by etrans.
    + intros [|k] y; cbn.
      * intros [= <-]. rewrite Nat.add_0_r. by eapply lookup_weaken.
      * intros Hy. rewrite <- plus_n_Sm. by apply (Hk k).
Qed.
Lemma shape_new : shape trie_new {[0 := []]} (labels_upto [] 0) /\ branching {[0 := []]} (labels_upto [] 0).
Proof.
  split; [apply trep_shape, trep_new|]. intros i p [_ <-]%lookup_singleton_Some. by left.
Qed.

(** What a SuffixTrie of the word [w] (without ["$"]) looks like. *)
Record sinv (f : sfx) (w : word) (L : gmap nat word) : Prop := {
  i_dollar : no_dollar w;
  i_word : f_word f = w;
  i_shape : shape (f_rt f) L (labels w);
  i_branch : branching L (labels w);
  i_leaves : length (f_leaves f) = S (length w);
  i_leaf : forall k x, f_leaves f !! k = Some x -> L !! x = Some (label w k);
  i_array : f_array f = suffix_pairs w;
}.
Lemma validate_ok w s : w <> [] -> suffix_validate (PStr w) s = Ok w s.
Proof. by destruct w. Qed.
Lemma suffix_new_ok w : w <> [] -> no_brace w ->
  exists f L, suffix_new (PStr w) = Ok f tt /\ sinv f (strip_dollar w) L.
Proof.
  intros Hw Hb. assert (no_brace (strip_dollar w)) as Hb'.
  { intros [_ H]%elem_of_list_filter. by apply Hb. }
  destruct shape_new as [T HB].
  destruct (suffix_loop_ok (strip_dollar w) Hb' (S (length (strip_dollar w))) 0 trie_new {[0 := []]} T HB)
    as (l & s & L & E & Hl & T' & HB' & _ & Hk).
  unfold suffix_new, suffix_init. rewrite (bind_ok _ _ _ _ _ (validate_ok w _ Hw)).
  rewrite (bind_ok _ _ _ _ _ E). cbn [ret].
  eexists _, L. split; [done|]. split; cbn; try done. apply strip_no_dollar.
Qed.
(** A ["}"] in the word makes the constructor fail. *)
Lemma suffix_loop_brace w i0 : w !! i0 = Some RBRACE -> (forall i, i < i0 -> w !! i <> Some RBRACE) ->
  forall cnt idx s L, idx <= i0 -> i0 < idx + cnt ->
  shape s L (labels_upto w idx) -> branching L (labels_upto w idx) ->
  exists s', suffix_loop w idx cnt s = Exc AttributeError s'.
Proof.
  intros H0 Hfirst. induction cnt as [|cnt IH]; intros idx s L H1 H2 T HB; [lia|].
  cbn [suffix_loop].
  destruct (suffix_add_ok s L _ w idx T HB) as [(s1 & L1 & x & E & T1 & HB1 & HL1 & Hx)|(E & _)].
  2:{ rewrite (bind_exc _ _ _ _ _ E). by exists s. }
  destruct (decide (idx = i0)) as [->|Hne].
  - exfalso. pose proof (x_rep _ _ _ _ T) as R. unfold suffix_add in E.
    assert (exists r, label w i0 = RBRACE :: r) as (r & Hr).
    { unfold label. rewrite (drop_S _ _ _ H0). cbn. by eexists. }
    assert (forall j z, L !! j <> Some (RBRACE :: z)) as Hno.
    { intros j z Hj. destruct (ext' _ _ _ _ _ T Hj) as (t & Ht); [done|].
      apply elem_labels_upto in Ht as (i & Hi & Ht). unfold label in Ht.
      assert (i < length w) as Hlt by (apply lookup_lt_Some in H0; lia).
      destruct (lookup_lt_is_Some_2 _ _ Hlt) as (c & Hc). rewrite (drop_S _ _ _ Hc) in Ht. injection Ht as <- _.
      by apply (Hfirst i). }
    destruct (r_node _ _ R _ _ (r_root _ _ R)) as (nr & Hnr & _).
    assert (dget RBRACE (n_children nr) = None) as Hd.
    { destruct (dget RBRACE (n_children nr)) as [c|] eqn:Hd; [|done].
      destruct (child_of _ _ _ _ _ _ _ R (r_root _ _ R) Hnr (dget_in _ _ _ Hd)) as (m & z & _ & _ & _ & HL).
      by destruct (Hno c z). }
    assert (exists c z, r = c :: z) as (c & z & ->).
    { destruct r as [|c z]; [|by eauto]. exfalso. unfold label in Hr. apply (f_equal length) in Hr.
      rewrite (drop_S _ _ _ H0) in Hr. cbn in Hr. rewrite !app_length in Hr. cbn in Hr. lia. }
    assert (radix_insert_node (label w i0) s = Exc AttributeError s) as Ei.
    { unfold radix_insert_node. rewrite bool_decide_eq_false_2 by apply label_nil.
      rewrite (bind_ok _ _ _ tt s) by done. apply bind_exc. unfold follow_path.
      rewrite (bind_ok _ _ _ s s) by done. rewrite Hr. cbn [follow_loop length].
      rewrite (bind_ok _ _ _ (t_root s) s) by done. rewrite (bind_ok _ _ _ _ _ (get_child_eq _ _ _ RBRACE Hnr)), Hd.
      rewrite (bind_ok _ _ _ [RBRACE] s) by done. rewrite bool_decide_eq_true_2 by done. done. }
    unfold label in Ei at 1. rewrite (bind_exc _ _ _ _ _ Ei) in E. done.
  - rewrite <- labels_S in T1, HB1. rewrite (bind_ok _ _ _ _ _ E).
    destruct (IH (S idx) s1 L1) as (s2 & E2); [lia|lia|done|done|].
    rewrite (bind_exc _ _ _ _ _ E2). by eexists.
Qed.
Lemma first_at (w : word) c : c ∈ w -> exists i, w !! i = Some c /\ forall j, j < i -> w !! j <> Some c.
Proof.
  induction w as [|x w IH]; intros H; [by apply elem_of_nil in H|].
  destruct (decide (x = c)) as [->|Hne].
  - exists 0. split; [done|]. lia.
  - apply elem_of_cons in H as [H|H]; [done|]. destruct (IH H) as (i & Hi & Hj). exists (S i). split; [done|].
    intros [|j] Hlt; cbn; [congruence|]. apply Hj. lia.
Qed.
Lemma suffix_new_brace w : ~ no_brace w -> suffix_new (PStr w) = Exc AttributeError tt.
Proof.
  intros Hb. assert (RBRACE ∈ strip_dollar w) as Hin.
  { apply elem_of_list_filter. split; [done|]. by destruct (decide (RBRACE ∈ w)). }
  destruct (first_at _ _ Hin) as (i & Hi & Hj). destruct shape_new as [T HB].
  destruct (suffix_loop_brace _ _ Hi Hj (S (length (strip_dollar w))) 0 trie_new _ ltac:(lia)
     ltac:(apply lookup_lt_Some in Hi; lia) T HB) as (s' & E).
  unfold suffix_new, suffix_init. rewrite (bind_ok _ _ _ w trie_new).
  - by rewrite (bind_exc _ _ _ _ _ E).
  - apply validate_ok. intros ->. by apply elem_of_nil in Hin.
Qed.
