(** * The work of building a search tree *)
From Coq Require Import Sorted.
From iris.proofmode Require Import proofmode.
From Verif Require Import Base NumOrd TreeModel TreeSpec BstModel BalModel BuildModel BstSpec BstSep BstRules BstZip BstDel BinThm BstPure BstThm AvlThm AvlProps SplayThm RbThm RbProps BuildProps
  HeapCostSpec HeapCostThm DepthSpec DepthThm DepthThm4 DepthThm5 BstAvgSpec TreapAvgSpec TreapAvgThm BstAvgThm BstAvgThm2 BuildCostSpec.

Lemma items_ops vs : item_ops (items vs) = inserts vs.
Proof. unfold item_ops, items, inserts. rewrite map_map. done. Qed.
Lemma items_numbers vs : all_numbers (items vs).
Proof. apply Forall_map, Forall_true. intros x. by eexists. Qed.
Lemma inserts_no_removals vs : no_removals (inserts vs).
Proof. apply Forall_map, Forall_true. done. Qed.
(** The tree that the constructor builds is that of the insertions. *)
Lemma tree_new_inserts c vs : exists rs s t, history c (inserts vs) = Some (rs, s) /\ tree_new c (items vs) = Ok s tt /\ shape s = Some t /\
  map p_val (inorder t) = set_after c (inserts vs) [].
Proof.
  destruct (insertions_set c (inserts vs) (inserts_no_removals vs)) as (rs & s & t & E & HA & Es & Hi). exists rs, s, t. split_and!; try done.
  unfold tree_new. rewrite (insert_all_calls c (items vs) _ rs s []); [done|apply items_numbers|by rewrite items_ops|by rewrite items_ops].
Qed.
Lemma building_tree c vs ks i v k : building_meets c vs ks -> vs !! i = Some v -> ks !! i = Some k ->
  exists rs s t, history c (inserts (take i vs)) = Some (rs, s) /\ shape s = Some t /\ path v (values t) = k /\
    map p_val (inorder t) = set_after c (inserts (take i vs)) [].
Proof.
  intros [_ H] Hv Hk. destruct (H i v k Hv Hk) as (s & t & E & Es & Hp). destruct (tree_new_inserts c (take i vs)) as (rs & s' & t' & E1 & E2 & E3 & E4).
  rewrite E in E2. injection E2 as <-. rewrite Es in E3. injection E3 as <-. by exists rs, s, t.
Qed.
Lemma building_exists c vs : exists ks, building_meets c vs ks.
Proof.
  induction vs as [|v vs IH] using rev_ind; [by exists []|]. destruct IH as (ks & Hl & H). destruct (tree_new_inserts c vs) as (rs & s & t & _ & E & Es & _).
  exists (ks ++ [path v (values t)]). split; [rewrite !app_length; cbn; lia|]. intros i w k Hw Hk.
  destruct (decide (i < length vs)) as [Hi|Hi].
  - rewrite lookup_app_l in Hw; [|done]. rewrite lookup_app_l in Hk; [|lia]. rewrite take_app_le; [|lia]. by apply H.
  - assert (i = length vs) as ->. { apply lookup_lt_Some in Hw. rewrite app_length in Hw. cbn in Hw. lia. }
    rewrite list_lookup_middle in Hw; [|done]. rewrite list_lookup_middle in Hk; [|lia]. injection Hw as <-. injection Hk as <-. rewrite take_app. by exists s, t.
Qed.
Lemma inserts_set c vs : NoDup vs -> length (set_after c (inserts vs) []) = length vs /\ forall x, x ∈ set_after c (inserts vs) [] <-> x ∈ vs.
Proof.
  intros Hnd. assert (forall x, x ∈ set_after c (inserts vs) [] <-> x ∈ vs) as H.
  { intros x. rewrite inserts_elem. rewrite elem_of_nil. tauto. }
  split; [|done]. apply Permutation_length, NoDup_Permutation; [|done|done]. apply inc_nodup, set_after_inc. constructor.
Qed.
(** ** From one insertion to all *)
Lemma sum_lower (f : nat -> nat) ks : (forall i k, ks !! i = Some k -> f i <= k) -> sum (map f (seq 0 (length ks))) <= sum ks.
Proof.
  induction ks as [|k ks IH] using rev_ind; intros H; [done|]. rewrite app_length seq_app map_app sum_app sum_snoc. cbn [length seq List.map].
  apply Nat.add_le_mono.
  - apply IH. intros i j Hj. apply H. rewrite lookup_app_l; [done|]. by eapply lookup_lt_Some.
  - cbn. specialize (H (length ks) k). rewrite list_lookup_middle in H; [|done]. specialize (H eq_refl). unfold id. lia.
Qed.
Lemma sum_upper (f : nat -> nat) ks : (forall i k, ks !! i = Some k -> k <= f i) -> sum ks <= sum (map f (seq 0 (length ks))).
Proof.
  induction ks as [|k ks IH] using rev_ind; intros H; [done|]. rewrite app_length seq_app map_app sum_app sum_snoc. cbn [length seq List.map].
  apply Nat.add_le_mono.
  - apply IH. intros i j Hj. apply H. rewrite lookup_app_l; [done|]. by eapply lookup_lt_Some.
  - cbn. specialize (H (length ks) k). rewrite list_lookup_middle in H; [|done]. specialize (H eq_refl). unfold id. lia.
Qed.
Lemma log_seq n : sum (map Nat.log2 (seq 0 (S n))) = log_sum n.
Proof.
  induction n as [|n IH]; [done|]. rewrite seq_S map_app sum_app IH. change (log_sum (S n)) with (Nat.log2 (S n) + log_sum n). cbn [List.map].
  rewrite /= /id. change (0 + S n) with (S n). lia.
Qed.
(** ** Trees in which every way to a leaf is long *)
Lemma path_balanced x t : height_balanced t -> increasing (inorder t) -> x ∉ inorder t -> nlevels t <= 2 * path x t.
Proof.
  induction t as [|l IHl y r IHr]; intros Hb Hi Hx; [done|]. cbn [height_balanced inorder nlevels path] in *. destruct Hb as (Hl & Hr & H1 & H2).
  apply inc_mid in Hi as (Hil & Hir & _ & _). rewrite elem_of_app elem_of_cons in Hx.
  rewrite decide_False; [|tauto]. destruct (num_ltb x y); [specialize (IHl Hl Hil ltac:(tauto))|specialize (IHr Hr Hir ltac:(tauto))]; lia.
Qed.
Lemma size_levels {A} (t : bin A) : length (inorder t) < 2 ^ nlevels t.
Proof.
  induction t as [|l IHl y r IHr]; [cbn; lia|]. cbn [inorder nlevels]. rewrite app_length Nat.pow_succ_r'. cbn [length].
  pose proof (Nat.pow_le_mono_r 2 (nlevels l) (Nat.max (nlevels l) (nlevels r)) ltac:(lia) ltac:(lia)).
  pose proof (Nat.pow_le_mono_r 2 (nlevels r) (Nat.max (nlevels l) (nlevels r)) ltac:(lia) ltac:(lia)). lia.
Qed.
Lemma levels_log {A} (t : bin A) : t <> Nil -> Nat.log2 (length (inorder t)) < nlevels t.
Proof.
  intros Ht. apply Nat.log2_lt_pow2; [|apply size_levels]. destruct t; [done|]. cbn. rewrite app_length. cbn. lia.
Qed.
Lemma balanced_values t : height_balanced t -> height_balanced (values t).
Proof.
  unfold values. induction t as [|l IHl y r IHr]; [done|]. cbn [bin_map height_balanced]. intros (? & ? & ? & ?). rewrite !nlevels_map. auto.
Qed.
Lemma path_blacks x t : forall n, has_blacks t n -> increasing (inorder (values t)) -> x ∉ inorder (values t) -> n <= path x (values t).
Proof.
  unfold values. induction t as [|l IHl y r IHr]; intros n Hb Hi Hx; cbn [has_blacks bin_map inorder path] in *; [lia|]. destruct Hb as (m & -> & B1 & B2).
  apply inc_mid in Hi as (Hil & Hir & _ & _). rewrite elem_of_app elem_of_cons in Hx. rewrite decide_False; [|tauto].
  destruct (num_ltb x (p_val y)); [specialize (IHl m B1 Hil ltac:(tauto))|specialize (IHr m B2 Hir ltac:(tauto))]; destruct (p_color y); lia.
Qed.
Lemma path_red_black x t : red_black t -> increasing (inorder (values t)) -> x ∉ inorder (values t) -> nlevels t <= 2 * path x (values t).
Proof.
  intros (Hc & Hn & n & Hb) Hi Hx. pose proof (rb_levels _ _ Hn Hb) as H. rewrite Hc in H. pose proof (path_blacks x t n Hb Hi Hx). lia.
Qed.
Lemma path_size x t : path x t <= length (inorder t).
Proof.
  induction t as [|l IHl y r IHr]; [done|]. cbn [path inorder]. rewrite app_length. cbn [length]. destruct (decide (x = y)); [lia|]. destruct (num_ltb x y); lia.
Qed.
(** What one insertion of a new value meets in a tree whose ways are all long. *)
Lemma values_increasing c os rs s t : no_removals os -> history c os = Some (rs, s) -> shape s = Some t -> inorder (values t) = set_after c os [] /\ increasing (inorder (values t)).
Proof.
  intros Hn E Es. destruct (insertions_set c os Hn) as (rs' & s' & t' & E' & _ & Es' & Hi). rewrite E in E'. injection E' as <- <-. rewrite Es in Es'. injection Es' as <-.
  assert (inorder (values t) = set_after c os []) as Ev by (unfold values; rewrite inorder_map; exact Hi). split; [done|]. rewrite Ev. apply set_after_inc. constructor.
Qed.
Lemma building_step c vs ks i k (ok : bin pay -> Prop) : NoDup vs -> building_meets c vs ks -> ks !! i = Some k ->
  (forall rs s t, history c (inserts (take i vs)) = Some (rs, s) -> shape s = Some t -> ok t) ->
  (forall x t, ok t -> increasing (inorder (values t)) -> x ∉ inorder (values t) -> nlevels t <= 2 * path x (values t)) ->
  Nat.log2 i <= 2 * k /\ exists t, ok t /\ length (inorder t) = i /\ k <= nlevels t.
Proof.
  intros Hnd H Hk Hok Hlong. pose proof (proj1 H) as Hl. pose proof (lookup_lt_Some _ _ _ Hk). destruct (lookup_lt_is_Some_2 vs i) as [v Hv]; [lia|].
  destruct (building_tree _ _ _ _ _ _ H Hv Hk) as (rs & s & t & E & Es & <- & Hi). specialize (Hok _ _ _ E Es).
  destruct (values_increasing _ _ _ _ _ (inserts_no_removals _) E Es) as [Ev Hinc].
  assert (NoDup (take i vs)) as Hnd'. { rewrite -(take_drop i vs) in Hnd. by apply NoDup_app in Hnd as [Hnd _]. }
  destruct (inserts_set c (take i vs) Hnd') as [Hlen Hel]. rewrite take_length in Hlen.
  assert (length (inorder t) = i) as Hsz. { rewrite -(map_length p_val) Hi Hlen. lia. }
  assert (v ∉ inorder (values t)) as Hnew.
  { rewrite Ev Hel. intros (j & Hj)%elem_of_list_lookup. apply lookup_take_Some in Hj as [Hj Hlt]. pose proof (NoDup_lookup _ _ _ _ Hnd Hj Hv). lia. }
  specialize (Hlong v t Hok Hinc Hnew). split.
  - assert (t = Nil \/ t <> Nil) as [->|Ht] by (destruct t; [by left|by right]); [cbn in Hsz; subst i; cbn; lia|]. pose proof (levels_log t Ht) as H1. rewrite Hsz in H1. lia.
  - exists t. split_and!; [done|done|]. rewrite -(nlevels_map p_val t). apply path_levels.
Qed.
Lemma log_lower (vs : list num) (ks : list nat) : length ks = length vs -> (forall i k, ks !! i = Some k -> Nat.log2 i <= 2 * k) -> log_sum (length vs - 1) <= 2 * sum ks.
Proof.
  intros Hl H. destruct vs as [|v vs]; [cbn; lia|]. cbn [length]. replace (S (length vs) - 1) with (length vs) by lia. rewrite -log_seq.
  replace (2 * sum ks) with (sum (map (Nat.mul 2) ks)). 2:{ clear. induction ks as [|k ks IH]; [done|]. cbn [List.map]. rewrite /= /id in IH |- *. lia. }
  cbn [length] in Hl. rewrite -Hl -(map_length (Nat.mul 2) ks). apply sum_lower. intros i k Hk. change (map (Nat.mul 2) ks) with (Nat.mul 2 <$> ks) in Hk. apply list_lookup_fmap_inv in Hk as (k' & -> & Hk'). by apply H.
Qed.
Lemma level_upper (vs : list num) (ks : list nat) b : length ks = length vs -> (forall i k, ks !! i = Some k -> k <= b) -> sum ks <= length vs * b.
Proof.
  intros <-. induction ks as [|k ks IH]; intros H; [done|]. cbn [length]. change (sum (k :: ks)) with (k + sum ks). pose proof (H 0 k eq_refl).
  specialize (IH (fun i k Hk => H (S i) k Hk)). lia.
Qed.
(** No constant is enough. *)
Lemma log_sum_beyond a : exists n, 2 * a * n < log_sum (n - 1).
Proof.
  exists (2 ^ (4 * a + 4)). set (m := 2 ^ (4 * a + 2)). assert (2 ^ (4 * a + 4) = 4 * m) as ->.
  { unfold m. replace (4 * a + 4) with (S (S (4 * a + 2))) by lia. rewrite !Nat.pow_succ_r'. lia. }
  pose proof (log_sum_ge m (3 * m - 1)) as H. unfold m in H at 3. rewrite Nat.log2_pow2 in H; [|lia]. assert (1 <= m) by (unfold m; pose proof (Nat.pow_nonzero 2 (4 * a + 2)); lia).
  replace (m + (3 * m - 1)) with (4 * m - 1) in H by lia. nia.
Qed.
Lemma increasing_take i (vs : list num) : increasing vs -> StronglySorted (fun a b => num_leb a b = true) (take i vs).
Proof.
  intros H. rewrite -(take_drop i vs) in H. apply inc_app in H as [H _]. revert H. generalize (take i vs). intros l H.
  induction H as [|x l Hl IH Hx]; constructor; [done|]. eapply Forall_impl; [exact Hx|]. cbn. unfold num_lt, num_leb. intros y Hy. apply negb_true_iff.
  destruct x, y; cbn in *; try done. apply Z.ltb_lt in Hy. apply Z.ltb_ge. lia.
Qed.
