(** * C80: the documented O(h) of RedBlackTree.get_height

    Model: BuildModel.v (the constructor), LookModel.v. *)
From Coq Require Import Sorted.
From iris.proofmode Require Import proofmode.
From Verif Require Import Base NumOrd TreeModel TreeSpec TreeThm BinThm LookModel LookThm BstModel BalModel BuildModel BstSpec BstSep BstThm AvlThm AvlProps RbThm RbProps BuildProps
  HeapCostSpec HeapCostThm DepthSpec DepthThm DepthThm4 DepthThm5 BstAvgSpec TreapAvgSpec TreapAvgThm BstAvgThm BstAvgThm2 BuildCostSpec BuildCostThm.

(** No a h + b, h the height, bounds the nodes that get_height visits in a RedBlackTree. *)
Theorem C80_red_black_height_refuted a b : exists vs s t, tree_new CRB (items vs) = Ok s tt /\ shape s = Some t
  /\ a * tree_height (view t) + b < (tree_height_c (view t)).2.
Proof.
  destruct (beyond_log (2 * a) (b + 1)) as (m & Hm). set (n := 2 ^ m - 1). set (vs := map (fun i => Fin (Z.of_nat i)) (seq 0 n)).
  assert (1 <= 2 ^ m) as Hp by (apply Nat.le_succ_l, Nat.neq_0_lt_0, Nat.pow_nonzero; lia).
  assert (forall n j, StronglySorted (fun x y => num_leb x y = true) (map (fun i => Fin (Z.of_nat i)) (seq j n))) as Hs.
  { clear. induction n as [|n IH]; intros j; [constructor|].
    cbn [seq List.map]. constructor; [apply IH|]. apply Forall_map, Forall_forall. intros i Hi%elem_of_seq. unfold num_leb, num_ltb. cbn.
    destruct (Z.ltb_spec (Z.of_nat i) (Z.of_nat j)); [lia|done]. }
  assert (NoDup vs) as Hnd. { apply NoDup_fmap_2; [intros i j [= ?]; lia|apply NoDup_seq]. }
  destruct (tree_new_inserts CRB vs) as (rs & s & t & E & En & Es & Hi). exists vs, s, t. split_and!; [done|done|].
  destruct (C33_increasing_insertions_partial vs rs s t (Hs _ _) E Es) as [_ Hl].
  destruct (inserts_set CRB vs Hnd) as [Hlen _].
  assert (length (inorder t) = n) as Hsz. { rewrite -(map_length p_val) Hi Hlen. unfold vs. by rewrite map_length seq_length. }
  assert (forall t : bin pay, length (inorder t) = length (bin_nodes t)) as Hin.
  { clear. induction t as [|l IHl d r IHr]; [done|]. cbn. rewrite !app_length. cbn. rewrite IHl IHr. lia. }
  rewrite Hsz in Hl. replace (n + 1) with (2 ^ m) in Hl by (unfold n; lia). rewrite Nat.log2_pow2 in Hl; [|lia].
  rewrite bin_height_spec. destruct (view t) as [x|] eqn:Ev.
  - cbn [tree_height_c]. rewrite node_height_same. cbn [snd]. rewrite (view_nodes _ _ Ev) -Hin Hsz.
    assert (a * Nat.pred (nlevels t) <= a * (2 * m)) by (apply Nat.mul_le_mono_l; lia). unfold n. lia.
  - apply view_nil in Ev as ->. cbn in Hsz. unfold n in Hsz. lia.
Qed.
Print Assumptions C80_red_black_height_refuted.
