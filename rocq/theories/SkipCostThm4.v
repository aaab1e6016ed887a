(** * The towers after a history, for all coins at once *)
From iris.proofmode Require Import proofmode.
From Verif Require Import Base ListModel SkipModel SkipSpec SkipThm SkipThm2 SkipThm3 SkipCostModel SkipCostSpec SkipCostThm SkipCostThm2 TreapAvgSpec TreapAvgThm SkipCostThm3.

(** Towers that hold the number of an insertion instead of its heads. *)
Definition fill (hs : list nat) (B : towers) : towers := map (fun p => (p.1, hs !!! p.2)) B.
Lemma fill_elems hs B : elems (fill hs B) = elems B.
Proof. unfold elems, fill. rewrite map_map. done. Qed.
Lemma fill_length hs B : length (fill hs B) = length B.
Proof. apply map_length. Qed.
Lemma fill_tput hs x j B : tput x (hs !!! j) (fill hs B) = fill hs (tput x j B).
Proof.
  induction B as [|[y k] B IH]; [done|]. cbn [fill List.map tput fst snd]. destruct (num_ltb x y); [done|]. destruct (decide (x = y)); [done|].
  cbn [List.map fst snd]. f_equal. exact IH.
Qed.
Lemma fill_filter hs (P : num -> Prop) `{!forall x, Decision (P x)} B : filter (fun p => P p.1) (fill hs B) = fill hs (filter (fun p => P p.1) B).
Proof. induction B as [|[y k] B IH]; [done|]. cbn [fill List.map]. rewrite !filter_cons. cbn [fst snd]. destruct (decide (P y)); [|exact IH]. cbn [fill List.map fst snd]. f_equal. exact IH. Qed.
Lemma fill_delete hs n B : delete n (fill hs B) = fill hs (delete n B).
Proof. revert n. induction B as [|[y k] B IH]; intros [|n]; [done|done|done|]. cbn. f_equal. exact (IH n). Qed.
Lemma fill_tindex hs i B : tindex i (fill hs B) = tindex i B.
Proof. destruct i; cbn; rewrite ?fill_length; done. Qed.
Lemma fill_next hs o B : is_insert o = false -> tnext o (fill hs B) = fill hs (tnext o B).
Proof.
  destruct o as [v h|v|v|i|i| | | | |]; try done; intros _; cbn [tnext].
  - destruct v as [|x| | | |]; try done. exact (fill_filter hs (fun y => y <> x) B).
  - rewrite fill_tindex. destruct (tindex i B); [apply fill_delete|done].
Qed.
Lemma inserts_cons o os : inserts_of (o :: os) = (if is_insert o then 1 else 0) + inserts_of os.
Proof. unfold inserts_of. rewrite filter_cons. by destruct (is_insert o). Qed.
Lemma fill_history hs os : forall n B, length hs = n + inserts_of os ->
  tafter (with_heads os (drop n hs)) (fill hs B) = fill hs (tafter (with_heads os (seq n (inserts_of os))) B).
Proof.
  induction os as [|o os IH]; intros n B Hl; [done|]. rewrite inserts_cons in Hl |- *. destruct (is_insert o) eqn:Ei.
  - destruct o as [v h|v|v|i|i| | | | |]; try done. cbn [with_heads]. assert (n < length hs) as Hn by lia. rewrite (drop_S _ (hs !!! n) n); [|by apply list_lookup_lookup_total_lt].
    cbn [Nat.add]. change (seq n (S (inserts_of os))) with (n :: seq (S n) (inserts_of os)). cbn [with_heads tafter].
    assert (tnext (KInsert v (hs !!! n)) (fill hs B) = fill hs (tnext (KInsert v n) B)) as ->.
    { destruct v; try done. cbn [tnext]. apply fill_tput. }
    apply IH. lia.
  - assert (forall l, with_heads (o :: os) l = o :: with_heads os l) as HW by (intros l; by destruct o). rewrite !HW. cbn [tafter Nat.add]. rewrite fill_next //. apply IH. lia.
Qed.
(** Every insertion counts once. *)
Lemma sub_in {A} (l k : list A) : l `sublist_of` k -> forall x, x ∈ l -> x ∈ k.
Proof. intros H x Hx. eapply elem_of_submseteq; [exact Hx|]. by apply sublist_submseteq. Qed.
Lemma sublist_NoDup {A} (l k : list A) : l `sublist_of` k -> NoDup k -> NoDup l.
Proof.
  induction 1 as [|x l k Hs IH|x l k Hs IH]; [done|..]; intros [Hx Hk]%NoDup_cons; [|by apply IH]. apply NoDup_cons. split; [|by apply IH]. intros Hin. apply Hx. by eapply sub_in.
Qed.
Lemma Forall_sublist {A} (P : A -> Prop) (l k : list A) : l `sublist_of` k -> Forall P k -> Forall P l.
Proof. intros Hs H. rewrite !Forall_forall in H |- *. intros x Hx. apply H. by eapply sub_in. Qed.
Lemma sublist_filter {A} (P : A -> Prop) `{!forall x, Decision (P x)} (l : list A) : filter P l `sublist_of` l.
Proof. induction l as [|x l IH]; [done|]. rewrite filter_cons. destruct (decide (P x)); by constructor. Qed.
Definition fresh (n : nat) (B : towers) : Prop := NoDup (map snd B) /\ Forall (fun j => j < n) (map snd B).
Lemma fresh_sub n B B' : B' `sublist_of` B -> fresh n B -> fresh n B'.
Proof.
  intros Hs [H1 H2]. assert (map snd B' `sublist_of` map snd B) as Hs' by (by apply (fmap_sublist (B:=nat))). split; [by eapply sublist_NoDup|]. eapply Forall_sublist; done.
Qed.
Lemma tput_perm x j B : tput x j B = B \/ tput x j B ≡ₚ (x, j) :: B.
Proof.
  induction B as [|[y k] B IH]; [by right|]. cbn [tput]. destruct (num_ltb x y); [by right|]. destruct (decide (x = y)); [by left|].
  destruct IH as [E|E]; [left; by rewrite E|right]. rewrite E. apply Permutation_swap.
Qed.
Lemma fresh_put n x B : fresh n B -> fresh (S n) (tput x n B).
Proof.
  intros [H1 H2]. assert (Forall (fun j => j < S n) (map snd B)) as H3. { eapply Forall_impl; [exact H2|]. cbn. lia. }
  destruct (tput_perm x n B) as [->|Hp]; [by split|]. apply (fmap_Permutation snd) in Hp. split.
  - change (NoDup (snd <$> tput x n B)). rewrite Hp. apply NoDup_cons. split; [|done]. intros Hin. rewrite Forall_forall in H2. specialize (H2 n Hin). lia.
  - change (Forall (fun j => j < S n) (snd <$> tput x n B)). rewrite Hp. constructor; [cbn; lia|done].
Qed.
Lemma fresh_next n o B : is_insert o = false -> fresh n B -> fresh n (tnext o B).
Proof.
  intros Hi H. destruct o as [v h|v|v|i|i| | | | |]; try done; cbn [tnext].
  - destruct v; try done. eapply fresh_sub; [|done]. apply sublist_filter.
  - destruct (tindex i B); [|done]. eapply fresh_sub; [|done]. apply sublist_delete.
  - split; constructor.
Qed.
Lemma fresh_S n B : fresh n B -> fresh (S n) B.
Proof. intros [H1 H2]. split; [done|]. eapply Forall_impl; [exact H2|]. cbn. lia. Qed.
Lemma fresh_history os : forall n B, fresh n B -> fresh (n + inserts_of os) (tafter (with_heads os (seq n (inserts_of os))) B).
Proof.
  induction os as [|o os IH]; intros n B HB; [cbn; by rewrite Nat.add_0_r|]. rewrite inserts_cons. destruct (is_insert o) eqn:Ei.
  - destruct o as [v h|v|v|i|i| | | | |]; try done. cbn [Nat.add]. change (seq n (S (inserts_of os))) with (n :: seq (S n) (inserts_of os)). cbn [with_heads tafter].
    rewrite Nat.add_succ_r -Nat.add_succ_l. apply IH. destruct v; cbn [tnext]; try (by apply fresh_S). by apply fresh_put.
  - assert (forall l, with_heads (o :: os) l = o :: with_heads os l) as HW by (intros l; by destruct o). rewrite !HW. cbn [tafter Nat.add]. apply IH. by apply fresh_next.
Qed.
Definition owners (os : list skop) : towers := tafter (with_heads os (seq 0 (inserts_of os))) [].
Lemma owners_fill os hs : length hs = inserts_of os -> tafter (with_heads os hs) [] = fill hs (owners os).
Proof. intros Hl. pose proof (fill_history hs os 0 [] Hl) as E. by rewrite drop_0 in E. Qed.
Lemma owners_fresh os : fresh (inserts_of os) (owners os).
Proof. apply (fresh_history os 0 []). split; constructor. Qed.
Lemma with_heads_id os : exists hs, length hs = inserts_of os /\ with_heads os hs = os.
Proof.
  induction os as [|o os (hs & Hl & E)]; [by exists []|]. rewrite inserts_cons. destruct o as [v h|v|v|i|i| | | | |]; try (exists hs; split; [done|]; cbn; by rewrite E).
  exists (h :: hs). split; [cbn; by rewrite Hl|]. cbn. by rewrite E.
Qed.
Lemma owners_length os : length (owners os) = length (tafter os []).
Proof. destruct (with_heads_id os) as (hs & Hl & E). by rewrite -{2}E (owners_fill os hs Hl) fill_length. Qed.
Lemma with_heads_avoids os : forall hs, Forall avoids_neg_inf os -> Forall avoids_neg_inf (with_heads os hs).
Proof.
  induction os as [|o os IH]; intros hs H; [done|]. apply Forall_cons in H as [Ho H]. destruct o as [v h|v|v|i|i| | | | |]; try (constructor; [done|by apply IH]).
  cbn [with_heads]. destruct hs as [|q hs]; constructor; try done. by apply IH.
Qed.
Lemma fill_heads hs x B : heads_upto x (fill hs B) = map (fun j => hs !!! j) (heads_upto x B).
Proof.
  unfold heads_upto. pose proof (fill_filter hs (fun y => num_leb y x = true) B) as E. transitivity (map snd (fill hs (filter (fun p => num_leb p.1 x = true) B))); [f_equal; exact E|].
  unfold fill. by rewrite !map_map.
Qed.

(** ** The expectations *)
Definition right_steps (os : list skop) (x : num) (hs : list nat) : nat := visible (heads_upto x (tafter (with_heads os hs) [])).
Definition levels (os : list skop) (hs : list nat) : nat := theight (tafter (with_heads os hs) []).
Lemma expect_right os x : expectation_at_most (inserts_of os) (right_steps os x) (2 * (Nat.log2 (length (tafter os [])) + 1)).
Proof.
  intros H. set (js := heads_upto x (owners os)).
  assert (js `sublist_of` map snd (owners os)) as Hs by (apply (fmap_sublist (B:=nat)), sublist_filter).
  destruct (owners_fresh os) as [H1 H2].
  rewrite (sum_map_ext _ (fun hs => chance H hs * tops (map (fun j => hs !!! j) js))).
  2:{ intros hs [Hl _]%outcomes_elem. f_equal. unfold right_steps. by rewrite visible_tops (owners_fill os hs Hl) fill_heads. }
  etransitivity; [apply chance_tops; [by eapply sublist_NoDup|eapply Forall_sublist; done]|]. apply Nat.mul_le_mono_l, Nat.mul_le_mono_l, Nat.add_le_mono_r, Nat.log2_le_mono.
  apply sublist_length in Hs. by rewrite map_length owners_length in Hs.
Qed.
Lemma expect_levels os : expectation_at_most (inserts_of os) (fun hs => levels os hs - 1) (Nat.log2 (length (tafter os [])) + 2).
Proof.
  intros H. set (js := map snd (owners os)). destruct (owners_fresh os) as [H1 H2].
  rewrite (sum_map_ext _ (fun hs => chance H hs * max_list (map (fun j => hs !!! j) js))).
  2:{ intros hs [Hl _]%outcomes_elem. f_equal. unfold levels, theight. rewrite (owners_fill os hs Hl) /= Nat.sub_0_r. unfold fill, js. by rewrite !map_map. }
  etransitivity; [by apply chance_max|]. unfold js. by rewrite map_length owners_length.
Qed.
Lemma expect_add k f g a b : expectation_at_most k f a -> expectation_at_most k g b -> expectation_at_most k (fun hs => f hs + g hs) (a + b).
Proof.
  intros Hf Hg H. rewrite (sum_map_ext _ (fun hs => chance H hs * f hs + chance H hs * g hs)); [|intros; lia]. rewrite sum_map_add. specialize (Hf H). specialize (Hg H). lia.
Qed.
Lemma expect_le k f g a : (forall hs, length hs = k -> f hs <= g hs) -> expectation_at_most k g a -> expectation_at_most k f a.
Proof.
  intros Hle Hg H. etransitivity; [|apply Hg]. apply sum_map_le. intros hs [Hl _]%outcomes_elem. apply Nat.mul_le_mono_l. by apply Hle.
Qed.
Lemma expect_const k c : expectation_at_most k (fun _ => c) c.
Proof. intros H. rewrite (sum_map_ext _ (fun hs => c * chance H hs)); [|intros; lia]. rewrite sum_map_mul. pose proof (chance_total_le H k). nia. Qed.
Lemma expect_sum_heads os : expectation_at_most (inserts_of os) (fun hs => sum (map snd (tafter (with_heads os hs) []))) (length (tafter os [])).
Proof.
  intros H. set (js := map snd (owners os)). destruct (owners_fresh os) as [H1 H2].
  rewrite (sum_map_ext _ (fun hs => sum (map (fun j => chance H hs * (hs !!! j - 0)) js))).
  2:{ intros hs [Hl _]%outcomes_elem. rewrite sum_map_mul. f_equal. rewrite (owners_fill os hs Hl). unfold fill, js. rewrite !map_map. apply sum_map_ext. intros p _. cbn. by rewrite Nat.sub_0_r. }
  rewrite sum_swap. rewrite -owners_length -(map_length snd) Nat.mul_comm -sum_map_const. apply sum_map_le. intros j Hj. rewrite Forall_forall in H2. specialize (H2 j Hj).
  pose proof (chance_beyond H (inserts_of os) j 0 H2) as HB. change (2 ^ 0) with 1 in HB. by rewrite Nat.mul_1_l in HB.
Qed.
