(** * The documented linear time of building a SplayTree from n items (C78)

    Specification: BuildCostSpec.v, [orders] in BstAvgSpec.v (C76_orders).  Model:
    BuildModel.v.  Proofs: SplayBuildThm.v. *)
From Coq Require Import Sorted Factorial.
From iris.proofmode Require Import proofmode.
From Verif Require Import Base NumOrd TreeModel TreeSpec BstModel BalModel BuildModel BstSpec BstPure DepthSpec
  HeapCostSpec TreapAvgThm BstAvgSpec BstAvgThm BuildCostSpec BuildCostThm SplayBuildThm.

(** Of the [n!] orders of [n] values, those whose building meets at most [w] nodes are at
    most [2 ^ (2 w + n)]: the turns taken on the ways tell the order. *)
Theorem C78_splay_orders vs w ps : NoDup vs -> NoDup ps ->
  (forall p, p ∈ ps -> p ≡ₚ vs /\ exists ks, building_meets CSplay p ks /\ sum_list ks <= w) ->
  length ps <= 2 ^ (2 * w + length vs).
Proof.
  intros Hnd Hps H. apply few_orders; [done|done|]. intros p Hp. destruct (H p Hp) as (HP & ks & Hk & Hw). split; [done|].
  rewrite -(way_met p ks); [done|by rewrite HP|done].
Qed.
Print Assumptions C78_splay_orders.
(** So some order of any [n] values meets at least [(log2 1 + ... + log2 n - n) / 2] nodes. *)
Theorem C78_splay vs : NoDup vs ->
  exists p ks, p ≡ₚ vs /\ building_meets CSplay p ks /\ log_sum (length vs) <= 2 * sum_list ks + length vs.
Proof.
  intros Hnd. set (cost := fun p => sum (map (fun i => length (way p i)) (seq 0 (length p)))).
  assert (forall p, p ∈ orders vs -> p ≡ₚ vs) as Hp by (intros p; by apply orders_elem).
  assert (exists p, p ∈ orders vs /\ forall q, q ∈ orders vs -> cost q <= cost p) as (p & Hpo & Hmax).
  { assert (vs ∈ orders vs) as Hin by (by apply orders_elem). revert Hin. generalize (orders vs). intros l Hin.
    assert (l <> []) as Hl by (intros ->; by apply elem_of_nil in Hin). clear Hin. induction l as [|a l IH]; [done|]. destruct l as [|b l].
    - exists a. split; [by left|]. intros q ->%elem_of_list_singleton. done.
    - destruct (IH ltac:(done)) as (m & Hm & Hmax). destruct (Nat.le_gt_cases (cost a) (cost m)) as [Hle|Hgt].
      + exists m. split; [by right|]. intros q [->|Hq]%elem_of_cons; [done|by apply Hmax].
      + exists a. split; [by left|]. intros q [->|Hq]%elem_of_cons; [done|]. specialize (Hmax q Hq). lia. }
  destruct (building_exists CSplay p) as (ks & Hk). assert (NoDup p) as Hndp by (by rewrite (Hp p Hpo)). exists p, ks. split_and!; [by apply Hp|done|].
  change (sum_list ks) with (sum ks). rewrite (way_met p ks Hndp Hk). fold (cost p).
  assert (length (orders vs) <= 2 ^ (2 * cost p + length vs)) as Hc.
  { apply (few_orders vs (cost p)); [done|by apply orders_nodup|]. intros q Hq. split; [by apply Hp|by apply Hmax]. }
  rewrite /orders orders_length // in Hc. pose proof (fact_log (length vs)) as Hf.
  apply (Nat.pow_le_mono_r_iff 2); [lia|]. lia.
Qed.
Print Assumptions C78_splay.
(** The documentation promises time O(n) (splay_tree.py:58-60). *)
Theorem C78_splay_linear_refuted : ~ linear_building CSplay.
Proof.
  intros (a & Ha). destruct (log_sum_beyond (a + 1)) as (n & Hn). set (vs := map (fun i => Fin (Z.of_nat i)) (seq 0 n)).
  assert (NoDup vs) as Hnd. { apply NoDup_fmap_2; [|apply NoDup_seq]. intros i j [= E]. lia. }
  assert (length vs = n) as Hl by (unfold vs; by rewrite map_length seq_length).
  destruct (C78_splay vs Hnd) as (p & ks & HP & Hk & H). rewrite Hl in H. specialize (Ha p ks Hk). rewrite (Permutation_length HP) Hl in Ha.
  assert (log_sum (n - 1) <= log_sum n) as Hm. { destruct n as [|n]; [done|]. cbn [Nat.sub]. rewrite Nat.sub_0_r. change (log_sum (S n)) with (Nat.log2 (S n) + log_sum n). lia. }
  lia.
Qed.
Print Assumptions C78_splay_linear_refuted.

(** The hypotheses are met: two orders of 1, ..., 6 and the nodes they meet. *)
Example C78_splay_example : let met vs := map (fun i => match tree_new CSplay (items (take i vs)) with Ok s _ => match shape s, vs !! i with Some t, Some v => Some (path v (values t)) | _, _ => None end | _ => None end) (seq 0 (length vs)) in
  met (map Fin [1; 2; 3; 4; 5; 6]%Z) = map Some [0; 1; 1; 1; 1; 1] /\ met (map Fin [1; 4; 2; 6; 3; 5]%Z) = map Some [0; 1; 2; 2; 3; 3].
Proof. split; by vm_compute. Qed.
