(** * The documented linear time of building a Treap from n items (C78)

    Specification: TreapBuildSpec.v, [draws] in TreapAvgSpec.v (C71_draws).  Model:
    BuildModel.v.  Proofs: TreapBuildThm.v. *)
From Coq Require Import Sorted.
From iris.proofmode Require Import proofmode.
From Verif Require Import Base NumOrd TreeModel TreeSpec BstModel BalModel BuildModel BstSpec BstPure DepthSpec
  TreapAvgSpec TreapAvgThm TreapAvgThm3 TreapAvgThm4 BuildCostThm TreapBuildSpec TreapBuildThm.

Lemma sum_met vs total : nodes_met vs total -> forall ps, ps ∈ draws (length vs) -> total ps = sum (map (met vs ps) (seq 0 (length vs))).
Proof. intros H ps Hps. destruct (H ps Hps) as (ks & Hk & <-). by rewrite (meets_met vs ps ks (draws_len _ _ Hps) Hk). Qed.
(** For every list and all draws the nodes met are determined. *)
Theorem C78_treap_defined vs : (exists total, nodes_met vs total) /\
  forall total total', nodes_met vs total -> nodes_met vs total' -> forall ps, ps ∈ draws (length vs) -> total' ps = total ps.
Proof.
  split.
  - exists (fun ps => sum (map (met vs ps) (seq 0 (length vs)))). intros ps Hps. eexists. split; [apply met_meets; by apply draws_len|done].
  - intros total total' H H' ps Hps. by rewrite (sum_met vs total H) // (sum_met vs total' H').
Qed.
Print Assumptions C78_treap_defined.

(** ** Values in increasing order: never more than 101 nodes for an item, however the draws
    come out, because the priorities on the way are different *)
Theorem C78_treap_sorted vs ps ks : increasing vs -> ps ∈ draws (length vs) -> drawn_building_meets vs ps ks ->
  Forall (fun k => k <= 101) ks /\ sum_list ks <= 101 * length vs.
Proof.
  intros Hinc Hps Hk. rewrite (meets_met vs ps ks (draws_len _ _ Hps) Hk).
  assert (Forall (fun k => k <= 101) (map (met vs ps) (seq 0 (length vs)))) as HF.
  { apply Forall_map, Forall_forall. intros i [_ Hi]%elem_of_seq. by apply sorted_met. }
  split; [done|]. etrans; [apply (sum_map_le _ (fun _ => 101)); intros i [_ Hi]%elem_of_seq; by apply sorted_met|]. rewrite sum_map_const seq_length. lia.
Qed.
Print Assumptions C78_treap_sorted.

(** ** Two increasing runs, the second below the first: on average over the draws every item
    of the second run meets at least [length bs / 101] nodes *)
Theorem C78_treap_two_runs xs bs total : increasing (xs ++ bs) -> nodes_met (bs ++ xs) total ->
  let n := length (bs ++ xs) in
  length xs * length bs * 101 ^ n <= 101 * sum_list (map total (draws n)).
Proof.
  intros Hinc Ht n. change (sum_list ?l) with (sum l).
  transitivity (101 * sum (map (fun ps => length xs * hundreds (take (length bs) ps)) (draws n))).
  - rewrite sum_map_mul. pose proof (hundreds_total (length bs) (length xs)) as H. rewrite -app_length in H. fold n in H. nia.
  - apply Nat.mul_le_mono_l, sum_map_le. intros ps Hps. rewrite (sum_met _ _ Ht ps Hps). rewrite app_length seq_app map_app sum_app.
    etrans; [|apply Nat.le_add_l]. rewrite Nat.add_0_l.
    pose proof (sum_map_const (hundreds (take (length bs) ps)) (seq (length bs) (length xs))) as HC. rewrite seq_length in HC. rewrite -HC. apply sum_map_le. intros i Hi%elem_of_seq.
    pose proof (second_met xs bs ps (i - length bs) Hinc Hps ltac:(lia)) as H. by replace (length bs + (i - length bs)) with i in H by lia.
Qed.
Print Assumptions C78_treap_two_runs.
(** ** In any order: on average at most [n/101 + 2 log2 n + 2] nodes for an item *)
Theorem C78_treap_average vs total : nodes_met vs total -> let n := length vs in
  101 * sum_list (map total (draws n)) <= 101 ^ n * (n * (n + 202 * (Nat.log2 n + 1))).
Proof.
  intros Ht n. change (sum_list ?l) with (sum l). rewrite (sum_map_ext total (fun ps => sum (map (met vs ps) (seq 0 n))) (draws n)); [|intros ps Hps; by apply sum_met].
  rewrite sum_swap -sum_map_mul. etrans; [apply (sum_map_le _ (fun _ => 101 ^ n * (n + 202 * (Nat.log2 n + 1)))); intros i [_ Hi]%elem_of_seq; by apply met_average|].
  rewrite sum_map_const seq_length. lia.
Qed.
Print Assumptions C78_treap_average.

Lemma inc_seq n : forall j, increasing (map (fun i => Fin (Z.of_nat i)) (seq j n)).
Proof.
  induction n as [|n IH]; intros j; [constructor|]. cbn [seq List.map]. constructor; [apply IH|]. apply Forall_map, Forall_forall.
  intros i Hi%elem_of_seq. apply Z.ltb_lt. lia.
Qed.
(** The documentation promises time O(n) (treap.py:177-179): not even on average. *)
Theorem C78_treap_linear_refuted : ~ linear_building_on_average.
Proof.
  intros (a & Ha). set (m := 202 * a + 1). set (xs := map (fun i => Fin (Z.of_nat i)) (seq 0 m)). set (bs := map (fun i => Fin (Z.of_nat i)) (seq m m)).
  assert (increasing (xs ++ bs)) as Hinc. { unfold xs, bs. rewrite -map_app -(seq_app m m 0). apply inc_seq. }
  destruct (proj1 (C78_treap_defined (bs ++ xs))) as (total & Ht). pose proof (C78_treap_two_runs xs bs total Hinc Ht) as H. pose proof (Ha _ _ Ht) as H'. cbn zeta in H, H'.
  assert (length (bs ++ xs) = m + m) as E by (rewrite app_length; unfold bs, xs; by rewrite !map_length !seq_length).
  assert (length xs = m) as E1 by (unfold xs; by rewrite !map_length !seq_length). assert (length bs = m) as E2 by (unfold bs; by rewrite !map_length !seq_length).
  rewrite E1 E2 E in H. rewrite E in H'. revert H H'. generalize (sum_list (map total (draws (m + m)))). intros S H H'.
  assert (0 < 101 ^ (m + m)) as HX by (apply Nat.neq_0_lt_0, Nat.pow_nonzero; done). revert H H' HX. generalize (101 ^ (m + m)). intros X H H' HX.
  assert (101 * S <= 101 * (a * (m + m) * X)) as H2 by lia. assert (m * m * X <= (202 * a * m) * X) as H3 by lia.
  apply Nat.mul_le_mono_pos_r in H3; [|done]. assert (202 * a * m < m * m); [|lia]. apply Nat.mul_lt_mono_pos_r; unfold m; lia.
Qed.
Print Assumptions C78_treap_linear_refuted.

(** Cases that meet the hypotheses: 6, 7, 8, 9 and then 1, 2, 3, with some draws. *)
Definition C78_drawn (vs : list num) (ps : list nat) : list (option nat) :=
  map (fun i => match tree_new CTreap (drawn_items (take i vs) (take i ps)) with Ok s _ => match shape s, vs !! i with Some t, Some v => Some (path v (values t)) | _, _ => None end | _ => None end) (seq 0 (length vs)).
Example C78_treap_example : increasing (map Fin [1; 2; 3; 6; 7; 8; 9]%Z) /\
  C78_drawn (map Fin [6; 7; 8; 9; 1; 2; 3]%Z) [100; 100; 7; 100; 5; 100; 8] = map Some [0; 1; 1; 2; 3; 4; 4] /\
  C78_drawn (map Fin [1; 2; 3; 6; 7; 8; 9]%Z) [9; 8; 7; 6; 5; 4; 3] = map Some [0; 1; 2; 3; 4; 5; 6].
Proof.
  split_and!; [|by vm_compute..]. unfold increasing. cbn [List.map]. repeat (apply SSorted_cons; [|repeat (apply Forall_cons_2; [done|]); apply Forall_nil_2]). apply SSorted_nil.
Qed.
