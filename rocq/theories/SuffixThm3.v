(** * SuffixTrie: the suffix array and the longest repeated substrings *)
From Coq Require Import Sorted.
From stdpp Require Import gmap.
From Verif Require Import Base TrieModel TrieRep TrieSpec TrieThm TrieThm2 TrieThm3 SuffixModel SuffixSpec SuffixThm SuffixThm2.
Local Open Scope py_scope.

(** ** Comparing strings *)
Lemma lex_cons x a b : lex_lt (x :: a) (x :: b) <-> lex_lt a b.
Proof.
  split.
  - intros [(z & t & E)|(c & u & v & a' & b' & Ea & Eb & Hlt)].
    + injection E as ->. left. by eexists _, _.
    + right. destruct c as [|d c]; cbn in Ea, Eb.
      * injection Ea as -> ->. injection Eb as -> ->. lia.
      * injection Ea as -> ->. injection Eb as ->. by eexists _, _, _, _, _.
  - intros [(z & t & ->)|(c & u & v & a' & b' & -> & -> & Hlt)].
    + left. by eexists _, _.
    + right. by eexists (x :: c), u, v, a', b'.
Qed.
Lemma str_ltb_lex : forall a b, str_ltb a b = true <-> lex_lt a b.
Proof.
  induction a as [|x a IH]; intros [|y b]; cbn.
  - split; [done|]. intros [(? & ? & ?)|([|] & ? & ? & ? & ? & ? & ? & ?)]; done.
  - split; [|done]. intros _. left. by eexists _, _.
  - split; [done|]. intros [(? & ? & ?)|([|] & ? & ? & ? & ? & ? & ? & ?)]; done.
  - destruct (N.ltb_spec x y) as [Hlt|Hge]; [|destruct (N.ltb_spec y x) as [Hlt|Hge']].
    + split; [|done]. intros _. right. by exists [], x, y, a, b.
    + split; [done|]. intros [(z & t & E)|(c & u & v & a' & b' & Ea & Eb & Hlt')].
      * injection E as -> _. lia.
      * destruct c as [|d c]; cbn in Ea, Eb.
        -- injection Ea as -> ->. injection Eb as -> ->. lia.
        -- injection Ea as -> _. injection Eb as -> _. lia.
    + assert (x = y) as -> by lia. rewrite IH. by rewrite lex_cons.
Qed.
Lemma lex_trans a b c : lex_lt a b -> lex_lt b c -> lex_lt a c.
Proof.
  rewrite <- !str_ltb_lex. revert b c. induction a as [|x a IH]; intros [|y b] [|z c]; cbn; try done.
  destruct (N.ltb_spec x y), (N.ltb_spec y x), (N.ltb_spec y z), (N.ltb_spec z y), (N.ltb_spec x z), (N.ltb_spec z x);
    intros Hab Hbc; first [done|lia|by eapply IH].
Qed.
Lemma lex_irrefl a : ~ lex_lt a a.
Proof.
  intros [(z & t & E)|(c & u & v & a' & b' & Ea & Eb & Hlt)].
  - apply (f_equal length) in E. rewrite app_length in E. cbn in E. lia.
  - rewrite Ea in Eb. apply app_inv_head in Eb. injection Eb as -> _. lia.
Qed.
Lemma lex_total a b : lex_lt a b \/ a = b \/ lex_lt b a.
Proof.
  rewrite <- !str_ltb_lex. revert b. induction a as [|x a IH]; intros [|y b]; cbn; auto.
  destruct (N.ltb_spec x y); destruct (N.ltb_spec y x); auto; try lia.
  assert (x = y) as -> by lia. destruct (IH b) as [?|[->|?]]; auto.
Qed.

(** ** sorted *)
Definition by_key (a b : nat * pystr) : Prop := lex_lt (snd a) (snd b).
Lemma insert_sorted_perm x l : insert_sorted x l ≡ₚ x :: l.
Proof.
  induction l as [|y l IH]; cbn; [done|]. destruct (str_ltb (snd x) (snd y)); [done|].
  rewrite IH. constructor.
Qed.
Lemma insert_sorted_sorted x l : snd x ∉ map snd l -> StronglySorted by_key l -> StronglySorted by_key (insert_sorted x l).
Proof.
  induction l as [|y l IH]; intros Hx Hs; cbn.
  - repeat constructor.
  - apply StronglySorted_inv in Hs as [Hs Hy]. cbn in Hx. apply not_elem_of_cons in Hx as [Hxy Hx].
    destruct (str_ltb (snd x) (snd y)) eqn:E.
    + apply str_ltb_lex in E. constructor; [by constructor|]. constructor; [done|].
      eapply Forall_impl; [done|]. intros z Hz. by eapply lex_trans.
    + constructor; [by apply IH|]. rewrite insert_sorted_perm. constructor; [|done].
      unfold by_key. destruct (lex_total (snd x) (snd y)) as [H|[H|H]]; [|done|done].
      apply str_ltb_lex in H. congruence.
Qed.
Lemma py_sorted_perm l : py_sorted l ≡ₚ l.
Proof.
  unfold py_sorted. assert (forall acc, fold_left (fun acc x => insert_sorted x acc) l acc ≡ₚ acc ++ l) as H; [|by rewrite H].
  induction l as [|x l IH]; intros acc; cbn; [by rewrite app_nil_r|].
  rewrite IH, insert_sorted_perm. cbn. by rewrite Permutation_middle.
Qed.
Lemma py_sorted_sorted l : NoDup (map snd l) -> StronglySorted by_key (py_sorted l).
Proof.
  unfold py_sorted. assert (forall acc, NoDup (map snd (acc ++ l)) -> StronglySorted by_key acc ->
    StronglySorted by_key (fold_left (fun acc x => insert_sorted x acc) l acc)) as H.
  { induction l as [|x l IH]; intros acc Hnd Hs; cbn; [done|]. apply IH.
    - eapply NoDup_Permutation_proper; [|exact Hnd]. apply fmap_Permutation.
      rewrite insert_sorted_perm. cbn. by rewrite Permutation_middle.
    - apply insert_sorted_sorted; [|done]. rewrite map_app in Hnd. apply NoDup_app in Hnd as (_ & Hd & _).
      intros Hin. apply (Hd _ Hin). cbn. left. }
  intros Hnd. apply H; [done|constructor].
Qed.

(** ** The suffix array *)
Lemma map_ss {A} (R : A -> A -> Prop) (S' : nat -> nat -> Prop) (g : A -> nat) l :
  StronglySorted R l -> (forall a b, a ∈ l -> b ∈ l -> R a b -> S' (g a) (g b)) -> StronglySorted S' (map g l).
Proof.
  induction 1 as [|a l Hs IH Ha]; intros H; cbn; constructor.
  - apply IH. intros x y Hx Hy. apply H; by right.
  - apply Forall_forall. intros y (b & -> & Hb)%elem_of_list_fmap. apply H; [left|by right|].
    by eapply (proj1 (Forall_forall _ _)) in Ha.
Qed.
Lemma pairs_elem w i k : (i, k) ∈ suffix_pairs w <->
  (i < length w /\ k = drop i w) \/ (i = length w /\ k = [DOLLAR]).
Proof.
  unfold suffix_pairs. rewrite elem_of_app, elem_of_list_fmap, elem_of_list_singleton. split.
  - intros [(j & [= -> ->] & Hj%elem_of_seq)|[= -> ->]]; [left; split; [lia|done]|by right].
  - intros [[Hi ->]|[-> ->]]; [left|by right]. exists i. split; [done|]. apply elem_of_seq. lia.
Qed.
Lemma pairs_fst w : map fst (suffix_pairs w) = seq 0 (S (length w)).
Proof.
  unfold suffix_pairs. rewrite map_app, map_map. cbn [map]. rewrite seq_S. f_equal.
  rewrite <- (map_id (seq 0 (length w))) at 2. by apply map_ext.
Qed.
Lemma pairs_keys w : no_dollar w -> NoDup (map snd (suffix_pairs w)).
Proof.
  intros Hw. unfold suffix_pairs. rewrite map_app, map_map. cbn [map]. apply NoDup_app. split; [|split].
  - apply NoDup_fmap_2_strong; [|apply NoDup_seq]. intros i j Hi%elem_of_seq Hj%elem_of_seq E.
    apply (f_equal length) in E. cbn in E. rewrite !drop_length in E. lia.
  - intros k (i & -> & _)%elem_of_list_fmap Hk%elem_of_list_singleton. cbn in Hk.
    apply (no_dollar_drop w i Hw). rewrite Hk. left.
  - apply NoDup_singleton.
Qed.
Lemma ss_before {A} (R1 R2 : A -> A -> Prop) l a b : StronglySorted R1 l -> StronglySorted R2 l ->
  a ∈ l -> b ∈ l -> a <> b -> (R1 a b /\ R2 a b) \/ (R1 b a /\ R2 b a).
Proof.
  intros H1 H2. induction l as [|c l IH]; intros Ha Hb Hne; [by apply elem_of_nil in Ha|].
  apply StronglySorted_inv in H1 as [H1 F1]. apply StronglySorted_inv in H2 as [H2 F2].
  rewrite Forall_forall in F1, F2.
  apply elem_of_cons in Ha as [->|Ha]; apply elem_of_cons in Hb as [->|Hb]; auto.
  - done.
Qed.
Lemma suffix_array_perm f w L : sinv f w L -> to_suffix_array f ≡ₚ seq 0 (S (length w)).
Proof.
  intros I. unfold to_suffix_array. rewrite (i_array _ _ _ I), py_sorted_perm. by rewrite pairs_fst.
Qed.
Lemma drop_cons_lt (w : word) i : i < length w -> exists c t, drop i w = c :: t /\ w !! i = Some c.
Proof.
  intros Hi. destruct (lookup_lt_is_Some_2 _ _ Hi) as (c & Hc). exists c, (drop (S i) w). split; [|done].
  by apply drop_S.
Qed.
Lemma suffix_array_ok f w L : sinv f w L ->
  is_suffix_array w (to_suffix_array f) <-> Forall (fun c => (36 < c)%N) w.
Proof.
  intros I. pose proof (i_dollar _ _ _ I) as Hw.
  pose proof (suffix_array_perm _ _ _ I) as Hp. unfold is_suffix_array.
  pose proof (py_sorted_sorted _ (pairs_keys w Hw)) as Hs.
  assert (forall a, a ∈ py_sorted (suffix_pairs w) <-> a ∈ suffix_pairs w) as Hel by (intros a; by rewrite py_sorted_perm).
  split.
  - intros [_ Hss]. apply Forall_forall. intros c (i & Hi)%elem_of_list_lookup.
    assert (c <> 36%N) as Hc36 by (intros ->; apply Hw; by eapply elem_of_list_lookup_2).
    destruct (decide (36 < c)%N) as [|Hc]; [done|]. exfalso.
    pose proof (lookup_lt_Some _ _ _ Hi) as Hlt.
    unfold to_suffix_array in Hss. rewrite (i_array _ _ _ I) in Hss.
    assert (StronglySorted (fun a b : nat * pystr => lex_lt (drop (fst a) w) (drop (fst b) w)) (py_sorted (suffix_pairs w))) as Hss'.
    { clear -Hss. induction (py_sorted (suffix_pairs w)) as [|a l IH]; [constructor|].
      cbn in Hss. apply StronglySorted_inv in Hss as [H1 H2]. constructor; [by apply IH|].
      apply Forall_forall. intros b Hb. rewrite Forall_forall in H2. apply H2. apply elem_of_list_fmap. by exists b. }
    destruct (ss_before _ _ _ (i, drop i w) (length w, [DOLLAR]) Hs Hss') as [[_ H]|[H _]].
    + apply Hel, pairs_elem. by left.
    + apply Hel, pairs_elem. by right.
    + intros [= E _]. lia.
    + cbn in H. rewrite (drop_ge w (length w)) in H by lia.
      destruct H as [(? & ? & E)|(z & ? & ? & ? & ? & _ & E & _)]; [by destruct (drop i w)|by destruct z].
    + unfold by_key in H. cbn in H. rewrite (drop_S _ _ _ Hi) in H.
      apply str_ltb_lex in H. cbn in H. unfold DOLLAR in H. destruct (N.ltb_spec 36 c); [lia|].
      destruct (N.ltb_spec c 36); [done|lia].
  - intros Hc. split; [done|]. unfold to_suffix_array. rewrite (i_array _ _ _ I).
    eapply map_ss; [exact Hs|]. intros [i k] [j k'] Hi%Hel%pairs_elem Hj%Hel%pairs_elem. unfold by_key. cbn.
    destruct Hi as [[Hi ->]|[-> ->]]; destruct Hj as [[Hj ->]|[-> ->]].
    + done.
    + intros H. exfalso. destruct (drop_cons_lt w i Hi) as (c & t & E & Hl). rewrite E in H.
      rewrite Forall_lookup in Hc. apply Hc in Hl. apply str_ltb_lex in H. cbn in H. unfold DOLLAR in H.
      destruct (N.ltb_spec c 36); [lia|]. destruct (N.ltb_spec 36 c); [done|lia].
    + intros _. rewrite (drop_ge w (length w)) by lia. destruct (drop_cons_lt w j Hj) as (c & t & -> & _).
      left. by exists c, t.
    + intros H. by apply lex_irrefl in H.
Qed.
