(** * The documented linear time of building a search tree from n items (C78)

    Specification: BuildCostSpec.v.  Model: BuildModel.v.  Proofs: BuildCostThm.v. *)
From Coq Require Import Sorted.
From iris.proofmode Require Import proofmode.
From Verif Require Import Base NumOrd TreeModel TreeSpec BstModel BalModel BuildModel BstSpec BstSep BstThm AvlThm AvlProps RbThm RbProps BuildProps
  HeapCostSpec HeapCostThm DepthSpec DepthThm DepthThm4 DepthThm5 BstAvgSpec TreapAvgSpec TreapAvgThm BstAvgThm BstAvgThm2 BuildCostSpec BuildCostThm.

(** For every class and every list the nodes met are determined. *)
Theorem C78_defined c vs : exists ks, building_meets c vs ks /\ forall ks', building_meets c vs ks' -> ks' = ks.
Proof.
  destruct (building_exists c vs) as (ks & H). exists ks. split; [done|]. intros ks' H'. pose proof (proj1 H) as Hl. pose proof (proj1 H') as Hl'.
  apply list_eq. intros i. destruct (ks !! i) as [k|] eqn:Hk.
  - pose proof (lookup_lt_Some _ _ _ Hk). destruct (lookup_lt_is_Some_2 vs i) as [v Hv]; [lia|]. destruct (lookup_lt_is_Some_2 ks' i) as [k' Hk']; [lia|]. rewrite Hk'.
    destruct (proj2 H i v k Hv Hk) as (s & t & E & Es & Hp). destruct (proj2 H' i v k' Hv Hk') as (s' & t' & E' & Es' & Hp').
    rewrite E in E'. injection E' as <-. rewrite Es in Es'. injection Es' as <-. by rewrite -Hp -Hp'.
  - apply lookup_ge_None in Hk. apply lookup_ge_None. lia.
Qed.
Print Assumptions C78_defined.

(** ** BST: at most n(n-1)/2 nodes, and exactly as many for increasing values *)
Theorem C78_bst vs ks : building_meets CBST vs ks ->
  2 * sum_list ks <= length vs * (length vs - 1) /\ (increasing vs -> 2 * sum_list ks = length vs * (length vs - 1)).
Proof.
  intros H. pose proof (proj1 H) as Hl. rewrite -Hl -sum_seq. split.
  - apply Nat.mul_le_mono_l. rewrite -(map_id (seq 0 (length ks))). apply sum_upper. intros i k Hk.
    pose proof (lookup_lt_Some _ _ _ Hk). destruct (lookup_lt_is_Some_2 vs i) as [v Hv]; [lia|].
    destruct (building_tree _ _ _ _ _ _ H Hv Hk) as (rs & s & t & E & Es & <- & Hi). etrans; [apply path_size|].
    unfold values. rewrite inorder_map Hi. pose proof (set_after_length CBST (inserts (take i vs)) []) as Hs. unfold inserts in Hs at 2. rewrite map_length take_length in Hs. cbn [length] in Hs. lia.
  - intros Hinc. assert (ks = seq 0 (length vs)) as ->; [|by rewrite seq_length].
    destruct (C78_defined CBST vs) as (ks0 & H0 & Hu). rewrite (Hu ks H). symmetry. apply Hu. split; [apply seq_length|].
    intros i v k Hv Hk. pose proof (proj2 (walks_meet vs) i v k Hv) as Hw. rewrite walks_sorted // in Hw.
    destruct (Hw Hk) as (rs & s & t & E & Es & Hp). destruct (tree_new_inserts CBST (take i vs)) as (rs' & s' & t' & E1 & E2 & E3 & _). rewrite E in E1. injection E1 as <- <-. by exists s, t.
Qed.
Print Assumptions C78_bst.

(** ** AVL: at least half of log2 1 + ... + log2 (n-1) nodes, in whatever order different
    values come, and at most [n (2 log2 n + 1)] *)
Theorem C78_avl vs ks : NoDup vs -> building_meets CAVL vs ks -> let n := length vs in
  log_sum (n - 1) <= 2 * sum_list ks /\ sum_list ks <= n * (2 * Nat.log2 n + 1).
Proof.
  intros Hnd H n. pose proof (proj1 H) as Hl.
  assert (forall i k, ks !! i = Some k -> Nat.log2 i <= 2 * k /\ exists t : bin pay, height_balanced t /\ length (inorder t) = i /\ k <= nlevels t) as Hs.
  { intros i k Hk. eapply building_step; [done|done|done| |].
    - intros rs s t E Es. by destruct (C26_balanced_after_insertions _ _ _ _ (inserts_no_removals _) E Es).
    - intros x t Hb Hi Hx. rewrite -(nlevels_map p_val t). by apply path_balanced; [apply balanced_values|..]. }
  split; [apply log_lower; [done|]; intros i k Hk; by destruct (Hs i k Hk)|]. apply level_upper; [done|]. intros i k Hk. pose proof (lookup_lt_Some _ _ _ Hk).
  destruct (Hs i k Hk) as (_ & t & Hb & Hsz & Hk'). pose proof (balanced_levels t Hb) as Hb'. rewrite Hsz in Hb'. pose proof (Nat.log2_le_mono (i + 1) n ltac:(unfold n; lia)). lia.
Qed.
Print Assumptions C78_avl.
(** ** RedBlackTree: the same for values in increasing order *)
Theorem C78_red_black vs ks : increasing vs -> building_meets CRB vs ks -> let n := length vs in
  log_sum (n - 1) <= 2 * sum_list ks /\ sum_list ks <= n * (2 * Nat.log2 n).
Proof.
  intros Hinc H n. pose proof (proj1 H) as Hl. pose proof (inc_nodup _ Hinc) as Hnd.
  assert (forall i k, ks !! i = Some k -> Nat.log2 i <= 2 * k /\ exists t, red_black t /\ length (inorder t) = i /\ k <= nlevels t) as Hs.
  { intros i k Hk. eapply building_step; [done|done|done| |].
    - intros rs s t E Es. destruct (C33_increasing_insertions_partial (take i vs) rs s t) as [Hr _]; [by apply increasing_take|done|done|done].
    - intros x t Hb Hi Hx. by apply path_red_black. }
  split; [apply log_lower; [done|]; intros i k Hk; by destruct (Hs i k Hk)|]. apply level_upper; [done|]. intros i k Hk. pose proof (lookup_lt_Some _ _ _ Hk).
  destruct (Hs i k Hk) as (_ & t & Hb & Hsz & Hk'). pose proof (rb_height t Hb) as Hb'. rewrite Hsz in Hb'. pose proof (Nat.log2_le_mono (i + 1) n ltac:(unfold n; lia)). lia.
Qed.
Print Assumptions C78_red_black.

(** The documentation promises time O(n) (bst.py:302, avl.py:203, red_black_tree.py:222). *)
Theorem C78_linear_refuted c : c = CBST \/ c = CAVL \/ c = CRB -> ~ linear_building c.
Proof.
  intros Hc (a & Ha).
  assert (forall n, increasing (map (fun i => Fin (Z.of_nat i)) (seq 0 n))) as Hinc.
  { assert (forall n j, increasing (map (fun i => Fin (Z.of_nat i)) (seq j n))) as Hs; [|done]. induction n as [|n IH]; intros j; [constructor|].
    cbn [seq List.map]. constructor; [apply IH|]. apply Forall_map, Forall_forall. intros i Hi%elem_of_seq. apply Z.ltb_lt. lia. }
  assert (exists n, forall ks, building_meets c (map (fun i => Fin (Z.of_nat i)) (seq 0 n)) ks -> a * n < sum_list ks) as (n & Hn).
  { destruct Hc as [->|[->| ->]].
    - exists (2 * a + 2). intros ks [_ H]%C78_bst. specialize (H (Hinc _)). rewrite map_length seq_length in H. replace (2 * a + 2 - 1) with (2 * a + 1) in H by lia. nia.
    - destruct (log_sum_beyond a) as (n & Hn). exists n. intros ks [H _]%C78_avl; [|apply inc_nodup, Hinc]. rewrite map_length seq_length in H. lia.
    - destruct (log_sum_beyond a) as (n & Hn). exists n. intros ks [H _]%C78_red_black; [|apply Hinc]. rewrite map_length seq_length in H. lia. }
  destruct (building_exists c (map (fun i => Fin (Z.of_nat i)) (seq 0 n))) as (ks & Hk). specialize (Hn _ Hk). specialize (Ha _ _ Hk). rewrite map_length seq_length in Ha. lia.
Qed.
Print Assumptions C78_linear_refuted.

(** The hypotheses are met: the numbers 1, ..., 7 in three classes. *)
Definition C78_values : list num := map Fin [1; 2; 3; 4; 5; 6; 7]%Z.
Definition C78_met (c : tcls) (vs : list num) : list (option nat) :=
  map (fun i => match tree_new c (items (take i vs)) with Ok s _ => match shape s, vs !! i with Some t, Some v => Some (path v (values t)) | _, _ => None end | _ => None end) (seq 0 (length vs)).
Example C78_example : increasing C78_values /\ C78_met CBST C78_values = map Some [0; 1; 2; 3; 4; 5; 6] /\
  C78_met CAVL C78_values = map Some [0; 1; 2; 2; 3; 3; 3] /\ C78_met CRB C78_values = map Some [0; 1; 2; 2; 3; 3; 4].
Proof. split_and!; [|by vm_compute..]. unfold increasing, C78_values. cbn [List.map]. repeat (apply SSorted_cons; [|repeat (apply Forall_cons_2; [done|]); apply Forall_nil_2]). apply SSorted_nil. Qed.
