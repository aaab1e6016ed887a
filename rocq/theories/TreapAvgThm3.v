(** * The average number of nodes on the way to a value in a treap *)
From Coq Require Import Sorted.
From iris.proofmode Require Import proofmode.
From Verif Require Import Base NumOrd TreeModel TreeSpec BstModel BalModel BstSpec BstSep BstRules BstZip BstPure BstThm AvlThm TreapThm TreapProps
  DepthSpec TreapAvgSpec TreapAvgThm TreapAvgThm2.
Local Open Scope py_scope.

Lemma perm_fst_eq {A B} (l : list (A * B)) : forall l', l ≡ₚ l' -> map fst l = map fst l' -> NoDup (map fst l) -> l = l'.
Proof.
  induction l as [|a l IH]; intros l' HP HE HN.
  { by apply Permutation_nil_l in HP. }
  destruct l' as [|b l']; [done|]. cbn [List.map] in HE, HN. injection HE as E HE. apply NoDup_cons in HN as [Hn HN].
  assert (a = b) as ->. { assert (a ∈ b :: l') as Ha by (rewrite -HP; by left). apply elem_of_cons in Ha as [?|Ha]; [done|].
    exfalso. apply Hn. rewrite HE. by apply elem_of_list_fmap_1. }
  f_equal. apply IH; try done. by eapply Permutation_cons_inv.
Qed.
Lemma split_at {B} x (l : list (num * B)) : increasing (map fst l) ->
  exists l1 l2, l = l1 ++ l2 /\ Forall (fun y => ~ num_lt x (fst y)) l1 /\ Forall (fun y => num_lt x (fst y)) l2.
Proof.
  induction l as [|y l IH]; intros H; [by exists [], []|]. cbn [List.map] in H. apply StronglySorted_inv in H as [H Hy].
  destruct (num_ltb x (fst y)) eqn:E.
  - exists [], (y :: l). split_and!; [done|constructor|]. constructor; [done|]. rewrite Forall_map in Hy. eapply Forall_impl; [exact Hy|]. intros z Hz. by eapply num_lt_trans.
  - destruct (IH H) as (l1 & l2 & -> & H1 & H2). exists (y :: l1), l2. split_and!; [done| |done]. constructor; [|done]. unfold num_lt. by rewrite E.
Qed.
Definition nodes_on_path (os : list top) (x : num) (ps : list nat) : nat :=
  match history CTreap (with_draws os ps) with
  | Some (_, s) => match shape s with Some t => path x (values t) | None => 0 end
  | None => 0
  end.
Lemma treap_with_draws os ps : default_priorities os -> insertions os <= length ps ->
  exists rs s t, history CTreap (with_draws os ps) = Some (rs, s) /\ shape s = Some t /\ heap_ordered t /\
    pairs_of t ≡ₚ map (drawn_for ps) (owners os 0 []) /\ map p_val (inorder t) = set_after CTreap os [].
Proof.
  intros Ho Hk. destruct (treap_history true (with_draws os ps) (with_draws_above os ps Ho Hk)) as [(rs & s & t & Eh & _ & Es & Et) H].
  destruct (H rs s t Eh Es) as (H1 & H2 & H3). exists rs, s, t. split_and!; try done.
  - rewrite H2. by rewrite -(owners_pairs ps os 0 []).
  - by rewrite H3 with_draws_set.
Qed.
Lemma average os x : default_priorities os ->
  let n := length (set_after CTreap os []) in
  101 * sum_list (map (nodes_on_path os x) (draws (insertions os))) <= 101 ^ insertions os * (n + 202 * (Nat.log2 n + 1)).
Proof.
  intros Ho. cbn zeta. set (S := set_after CTreap os []). set (k := insertions os). set (I0 := owners os 0 []).
  assert (increasing S) as HS by (apply set_after_inc; constructor).
  assert (forall ps, insertions os <= length ps -> exists rs s t I, history CTreap (with_draws os ps) = Some (rs, s) /\ shape s = Some t /\ heap_ordered t /\
    pairs_of t = map (drawn_for ps) I /\ I ≡ₚ I0 /\ map fst I = S /\ map p_val (inorder t) = S) as HT.
  { intros ps Hps. destruct (treap_with_draws os ps Ho Hps) as (rs & s & t & Eh & Es & Hh & Hp & Hi).
    apply Permutation_map_inv in Hp as (I & EI & HI). exists rs, s, t, I. split_and!; try done.
    rewrite -(drawn_for_fst ps) -EI /pairs_of map_map. done. }
  destruct (HT (replicate k 0)) as (_ & _ & _ & I & _ & _ & _ & _ & HI & HIS & _); [rewrite replicate_length; done|].
  destruct (split_at x I) as (Il & Ir & EI & HIl & HIr); [by rewrite HIS|].
  assert (forall ps, ps ∈ draws k -> nodes_on_path os x ps <= tops (map (fun j => ps !!! j) (map snd Il)) + tops (map (fun j => ps !!! j) (rev (map snd Ir)))) as HN.
  { intros ps [Hps _]%outcomes_elem. destruct (HT ps) as (rs & s & t & I' & Eh & Es & Hh & Hp & HI' & HIS' & Hi); [unfold k in Hps; lia|].
    assert (I' = I) as ->. { apply perm_fst_eq; [by rewrite HI' HI|by rewrite HIS HIS'|rewrite HIS']. by apply inc_NoDup. }
    unfold nodes_on_path. rewrite Eh Es. rewrite EI map_app in Hp. unfold pairs_of in Hp. apply map_eq_app in Hp as (l & r & El & E1 & E2).
    assert (map p_prio l = map fin (map (fun j => ps !!! j) (map snd Il))) as EL.
    { transitivity (map snd (map (fun y => (p_val y, p_prio y)) l)); [by rewrite map_map|]. rewrite E1 !map_map. done. }
    assert (map p_prio r = map fin (map (fun j => ps !!! j) (map snd Ir))) as ER.
    { transitivity (map snd (map (fun y => (p_val y, p_prio y)) r)); [by rewrite map_map|]. rewrite E2 !map_map. done. }
    pose proof (path_tops t x l r Hh) as H. rewrite Hi in H. specialize (H HS El).
    rewrite EL ER -map_rev -map_rev !ntops_fin in H. apply H.
    - assert (Forall (fun y : num * num => ~ num_lt x (fst y)) (map (fun y => (p_val y, p_prio y)) l)) as HF; [|by rewrite Forall_map in HF].
      rewrite E1. apply Forall_map. done.
    - assert (Forall (fun y : num * num => num_lt x (fst y)) (map (fun y => (p_val y, p_prio y)) r)) as HF; [|by rewrite Forall_map in HF].
      rewrite E2. apply Forall_map. done. }
  destruct (owners_ok os 0 []) as [HNd HK]; [constructor|constructor|]. fold I0 in HNd, HK. rewrite -HI in HNd. rewrite -HI in HK. rewrite EI in HNd, HK.
  rewrite map_app in HNd. apply NoDup_app in HNd as (Hnl & _ & Hnr). apply Forall_app in HK as [Hkl Hkr].
  assert (101 * sum (map (fun ps => tops (map (fun j => ps !!! j) (map snd Il))) (draws k)) <= 101 ^ k * (length Il + 101 * (Nat.log2 (length Il) + 1))) as H1.
  { rewrite -(map_length snd Il). apply sum_tops; [done|]. by apply Forall_map. }
  assert (101 * sum (map (fun ps => tops (map (fun j => ps !!! j) (rev (map snd Ir)))) (draws k)) <= 101 ^ k * (length Ir + 101 * (Nat.log2 (length Ir) + 1))) as H2.
  { rewrite -(map_length snd Ir) -(rev_length (map snd Ir)). apply sum_tops; [by apply NoDup_ListNoDup, NoDup_rev, NoDup_ListNoDup|]. apply Forall_rev. by apply Forall_map. }
  assert (length S = length Il + length Ir) as HL. { by rewrite -HIS map_length EI app_length. }
  assert (sum (map (nodes_on_path os x) (draws k)) <= sum (map (fun ps => tops (map (fun j => ps !!! j) (map snd Il))) (draws k)) + sum (map (fun ps => tops (map (fun j => ps !!! j) (rev (map snd Ir)))) (draws k))) as H3.
  { rewrite -sum_map_add. by apply sum_map_le. }
  pose proof (Nat.log2_le_mono (length Il) (length S) ltac:(lia)). pose proof (Nat.log2_le_mono (length Ir) (length S) ltac:(lia)).
  assert (101 ^ k * (length Il + 101 * (Nat.log2 (length Il) + 1)) + 101 ^ k * (length Ir + 101 * (Nat.log2 (length Ir) + 1)) <= 101 ^ k * (length S + 202 * (Nat.log2 (length S) + 1))) as H4.
  { rewrite -Nat.mul_add_distr_l. apply Nat.mul_le_mono_l. lia. }
  lia.
Qed.
