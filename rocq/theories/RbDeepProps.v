(** * How deep a RedBlackTree is (C77)

    Specification: [path] and [values] in DepthSpec.v (C70_needs says that [path x] is the
    number of nested calls that [x in t] makes); [valid_throughout] and
    [keeps_valid_throughout] in RbInsSpec.v.  Model: BstModel.v, BalModel.v.  Proofs:
    RbDeepThm.v, RbThm.v. *)
From Coq Require Import Sorted.
From iris.proofmode Require Import proofmode.
From Verif Require Import Base NumOrd TreeModel TreeSpec BstModel BalModel BstSpec RbSpec RbInsSpec BstSep BstRules BstZip BstDel BinThm BstPure BstThm AvlThm SplayThm RbThm RbProps RbProps3
  DepthSpec DepthThm RbDeepThm.

(** The property: the number of nodes on the way to any value is at most a constant times the
    logarithm of the number of values, after all insertions. *)
Definition logarithmic : Prop := exists c, forall vs x rs s t,
  history CRB (inserts vs) = Some (rs, s) -> shape s = Some t ->
  path x (values t) <= c * (Nat.log2 (length (inorder t) + 1) + 1).

(** It holds with constant 2 as long as the tree is a red-black tree after each call, that is,
    for every history of calls that the code gets right. *)
Theorem C77_valid_partial os : keeps_valid_throughout os ->
  exists rs s t, history CRB os = Some (rs, s) /\ shape s = Some t /\ map p_val (inorder t) = set_after CRB os [] /\
    forall x, path x (values t) <= 2 * Nat.log2 (length (inorder t) + 1).
Proof.
  intros H. apply C33_histories_iff in H. destruct (H os [] ltac:(by rewrite app_nil_r)) as (rs & s & t & E & Es & _ & Hi & Hk).
  exists rs, s, t. split_and!; try done. intros x. pose proof (rb_height t Hk). pose proof (path_levels x (values t)).
  assert (nlevels (values t) = nlevels t) as E2; [|lia]. clear. unfold values. induction t as [|l IHl y r IHr]; [done|]. cbn. by rewrite IHl IHr.
Qed.
Print Assumptions C77_valid_partial.

(** [zigzag n] is M, 0, -1, 6, 5 and then, for k = 0, ..., n - 1, 6k+3, 6k+2, 6k+1, 6k+12,
    6k+11, 6k+4, where M = 6n+7: 6n+5 values.  In the RedBlackTree of these insertions the way
    to -1 goes through 4n+2 nodes. *)
Theorem C77_zigzag n : exists rs s t, history CRB (inserts (zigzag n)) = Some (rs, s) /\ shape s = Some t /\
  length (zigzag n) = 6 * n + 5 /\ length (inorder t) = 6 * n + 5 /\ path (Fin (-1)) (values t) = 4 * n + 2.
Proof.
  destruct (zigzag_deep n) as (rs & s & t & E1 & E2 & E3 & E4). exists rs, s, t. split_and!; try done. apply zigzag_length.
Qed.
Print Assumptions C77_zigzag.

Lemma pow_above c : exists n, c * (Nat.log2 (6 * n + 5 + 1) + 1) < 4 * n + 2.
Proof.
  set (k := c + 3). exists (2 ^ (2 * k) - 1). pose proof (Nat.pow_gt_lin_r 2 k ltac:(lia)) as Hk.
  assert (2 ^ (2 * k) = 2 ^ k * 2 ^ k) as E by (rewrite -Nat.pow_add_r; f_equal; lia). pose proof (Nat.pow_nonzero 2 (2 * k) ltac:(done)) as Hp.
  replace (6 * (2 ^ (2 * k) - 1) + 5 + 1) with (6 * 2 ^ (2 * k)) by lia.
  rewrite Nat.log2_mul_pow2; [|lia|lia]. change (Nat.log2 6) with 2. nia.
Qed.
Theorem C77_logarithmic_refuted : ~ logarithmic.
Proof.
  intros [c H]. destruct (pow_above c) as [n Hn]. destruct (zigzag_deep n) as (rs & s & t & E1 & E2 & E3 & E4).
  specialize (H _ (Fin (-1)) _ _ _ E1 E2). rewrite E3 E4 in H. lia.
Qed.
Print Assumptions C77_logarithmic_refuted.

(** Seventeen values, ten nodes.  A history that keeps the tree valid: C33_histories_example
    (RbProps3.v). *)
Example C77_example : exists rs s t, history CRB (inserts (map Fin [19; 0; -1; 6; 5; 3; 2; 1; 12; 11; 4; 9; 8; 7; 18; 17; 10]%Z)) = Some (rs, s) /\
  shape s = Some t /\ path (Fin (-1)) (values t) = 10.
Proof. eexists _, _, _. split_and!; by vm_compute. Qed.
