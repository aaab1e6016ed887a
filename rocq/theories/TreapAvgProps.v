(** * How deep a Treap with random priorities is on average (C71)

    Specification: TreapAvgSpec.v; [path] and [values] in DepthSpec.v, where C70_needs says
    that [path x] is the number of nested calls [x in t] makes.  Model: BstModel.v,
    BalModel.v.  Proofs: TreapAvgThm.v (counting), TreapAvgThm2.v, TreapAvgThm3.v (any
    history), TreapAvgThm4.v (increasing values). *)
From Coq Require Import Sorted.
From iris.proofmode Require Import proofmode.
From Verif Require Import Base NumOrd TreeModel TreeSpec BstModel BalModel BstSpec BstSep BstRules BstZip BstPure BstThm AvlThm TreapThm TreapProps
  DepthSpec TreapAvgSpec TreapAvgThm TreapAvgThm2 TreapAvgThm3 TreapAvgThm4.

(** [draws k] lists every outcome of [k] calls of [random.randint(0, 100)] exactly once. *)
Theorem C71_draws k : (forall ps, ps ∈ draws k <-> length ps = k /\ Forall (fun p => p <= 100) ps) /\
  NoDup (draws k) /\ length (draws k) = 101 ^ k.
Proof.
  split_and!; [|apply outcomes_nodup|apply outcomes_length]. intros ps. unfold draws. rewrite outcomes_elem.
  assert (Forall (fun p => p < 101) ps <-> Forall (fun p => p <= 100) ps) as ->; [|done]. split; intros H; (eapply Forall_impl; [exact H|]); cbn; lia.
Qed.
Print Assumptions C71_draws.

(** Any history (removals included) of a Treap whose priorities are drawn: the average, over
    all outcomes of the draws, of the number of nodes on the way to [x] is at most
    [n/101 + 2 log2 n + 2], where [n] is the number of values in the treap at the end. *)
Theorem C71_average os x : default_priorities os ->
  let n := length (set_after CTreap os []) in
  exists nodes : list nat -> nat,
    (forall ps, ps ∈ draws (insertions os) -> exists rs s t,
       history CTreap (with_draws os ps) = Some (rs, s) /\ shape s = Some t /\ length (inorder t) = n /\ path x (values t) = nodes ps) /\
    101 * sum_list (map nodes (draws (insertions os))) <= 101 ^ insertions os * (n + 202 * (Nat.log2 n + 1)).
Proof.
  intros Ho n. exists (nodes_on_path os x). split; [|by apply average]. intros ps [Hps _]%outcomes_elem.
  destruct (treap_with_draws os ps Ho) as (rs & s & t & Eh & Es & _ & _ & Hi); [lia|]. exists rs, s, t. split_and!; try done.
  - unfold n. by rewrite -Hi map_length.
  - unfold nodes_on_path. by rewrite Eh Es.
Qed.
Print Assumptions C71_average.
(** So up to 101 values it is at most [2 log2 n + 3]. *)
Theorem C71_average_small os x : default_priorities os ->
  let n := length (set_after CTreap os []) in n <= 101 ->
  exists nodes : list nat -> nat,
    (forall ps, ps ∈ draws (insertions os) -> exists rs s t,
       history CTreap (with_draws os ps) = Some (rs, s) /\ shape s = Some t /\ length (inorder t) = n /\ path x (values t) = nodes ps) /\
    sum_list (map nodes (draws (insertions os))) <= 101 ^ insertions os * (2 * Nat.log2 n + 3).
Proof.
  intros Ho n Hn. destruct (C71_average os x Ho) as (nodes & H1 & H2). exists nodes. split; [done|]. fold n in H2.
  assert (101 ^ insertions os * (n + 202 * (Nat.log2 n + 1)) <= 101 ^ insertions os * (101 * (2 * Nat.log2 n + 3))) as H3 by (apply Nat.mul_le_mono_l; lia).
  lia.
Qed.
Print Assumptions C71_average_small.

Lemma path_first t : forall v l, inorder t = v :: l -> increasing (v :: l) -> path v t = left_branch t.
Proof.
  induction t as [|a IHa y b IHb]; intros v l E Hinc; [done|]. cbn [inorder] in E. cbn [path left_branch]. destruct (inorder a) as [|w k] eqn:Ea.
  - injection E as -> _. rewrite decide_True //. destruct a as [|a1 z a2]; [done|]. cbn in Ea. by destruct (inorder a1).
  - injection E as -> <-. pose proof Hinc as H. change (v :: k ++ y :: inorder b) with ((v :: k) ++ y :: inorder b) in H.
    apply inc_app in H as (Hk & _ & H). assert (num_lt v y) as Hvy by (apply H; [by left|by left]).
    rewrite decide_False; [|intros ->; by apply (num_lt_irrefl y)]. unfold num_lt in Hvy. rewrite Hvy. by rewrite (IHa v k).
Qed.
(** But when the values are inserted in increasing order the average is at least [n/101]:
    every value with the highest priority stays above the smallest value. *)
Theorem C71_sorted v vs : increasing (v :: vs) ->
  let os := inserts (v :: vs) in let n := length (v :: vs) in
  exists nodes : list nat -> nat,
    (forall ps, ps ∈ draws n -> exists rs s t,
       history CTreap (with_draws os ps) = Some (rs, s) /\ shape s = Some t /\ map p_val (inorder t) = v :: vs /\ path v (values t) = nodes ps) /\
    n * 101 ^ n <= 101 * sum_list (map nodes (draws n)).
Proof.
  intros Hinc os n. exists (nodes_on_path os v).
  assert (forall ps, ps ∈ draws n -> exists rs s t, history CTreap (with_draws os ps) = Some (rs, s) /\ shape s = Some t /\
     map p_val (inorder t) = v :: vs /\ path v (values t) = nodes_on_path os v ps /\ hundreds ps <= nodes_on_path os v ps) as H.
  { intros ps [Hl HR]%outcomes_elem. destruct (increasing_run (v :: vs) ps tst0 Nil Hl HR rep0 Hinc) as (rs & s & T & Ec & Hr & Hi & Hb); [constructor|].
    exists rs, s, (bin_map snd T). assert (shape s = Some (bin_map snd T)) as Es by (by apply rep_shape).
    assert (map p_val (inorder (bin_map snd T)) = v :: vs) as Hv. { fold (pin T). rewrite -ino_pin Hi. done. }
    assert (path v (values (bin_map snd T)) = left_branch T) as Ep.
    { unfold values. rewrite (path_first _ v vs); [by rewrite !left_branch_map| |done]. by rewrite inorder_vals Hi. }
    unfold nodes_on_path, history. unfold os. rewrite Ec Es. split_and!; try done. rewrite Ep. cbn in Hb. done. }
  split.
  - intros ps Hps. destruct (H ps Hps) as (rs & s & t & H1 & H2 & H3 & H4 & _). by exists rs, s, t.
  - rewrite -sum_hundreds. apply Nat.mul_le_mono_l, sum_map_le. intros ps Hps. by destruct (H ps Hps) as (_ & _ & _ & _ & _ & _ & _ & ?).
Qed.
Print Assumptions C71_sorted.
(** So no multiple of [log2 n] bounds the average. *)
Theorem C71_logarithmic_refuted c : exists os x, default_priorities os /\
  let n := length (set_after CTreap os []) in insertions os = n /\
  exists nodes : list nat -> nat,
    (forall ps, ps ∈ draws n -> exists rs s t,
       history CTreap (with_draws os ps) = Some (rs, s) /\ shape s = Some t /\ length (inorder t) = n /\ path x (values t) = nodes ps) /\
    101 ^ n * (c * (Nat.log2 n + 1)) < sum_list (map nodes (draws n)).
Proof.
  set (j := 404 * c). set (vs := map (fun i => Fin (Z.of_nat i)) (seq 0 (2 ^ j))).
  assert (increasing vs) as Hinc.
  { assert (forall n m, increasing (map (fun i => Fin (Z.of_nat i)) (seq m n))) as HQ; [|apply HQ]. induction n as [|n IH]; intros m; [constructor|]. rewrite -cons_seq. cbn [List.map]. constructor; [apply IH|].
    apply Forall_map, Forall_forall. intros i [Hi _]%elem_of_seq. unfold num_lt. cbn. apply Z.ltb_lt. lia. }
  assert (length vs = 2 ^ j) as Hlen by (unfold vs; by rewrite map_length seq_length).
  assert (2 ^ j <> 0) as Hj by (by apply Nat.pow_nonzero).
  destruct vs as [|v vs'] eqn:Evs; [exfalso; apply Hj; by rewrite -Hlen|].
  destruct (C71_sorted v vs' Hinc) as (nodes & H1 & H2). exists (inserts (v :: vs')), v.
  assert (forall l, default_priorities (inserts l)) as HD. { intros l. apply Forall_map, Forall_true. done. }
  assert (forall l, insertions (inserts l) = length l) as HI. { induction l as [|y l IH]; [done|]. change (S (insertions (inserts l)) = S (length l)). by rewrite IH. }
  assert (set_after CTreap (inserts (v :: vs')) [] = v :: vs') as HS.
  { destruct (H1 (replicate (length (v :: vs')) 0)) as (rs & s & t & Eh & Es & Hi & _).
    { apply outcomes_elem. split; [by rewrite replicate_length|]. apply Forall_replicate. lia. }
    destruct (treap_with_draws (inserts (v :: vs')) (replicate (length (v :: vs')) 0) (HD _)) as (rs' & s' & t' & Eh' & Es' & _ & _ & Hi').
    { by rewrite HI replicate_length. }
    rewrite Eh in Eh'. injection Eh' as <- <-. rewrite Es in Es'. injection Es' as <-. by rewrite -Hi' Hi. }
  split; [done|]. cbn zeta. rewrite HS. split; [by rewrite HI|]. exists nodes. split.
  - intros ps Hps. destruct (H1 ps Hps) as (rs & s & t & ? & ? & Ht & ?). exists rs, s, t. split_and!; try done. by rewrite -Ht map_length.
  - rewrite Hlen in H2 |- *. rewrite Nat.log2_pow2; [|lia]. set (X := 101 ^ 2 ^ j) in *.
    assert (0 < X) as HX. { unfold X. apply Nat.neq_0_lt_0, Nat.pow_nonzero. done. }
    assert (101 * (c * (j + 1)) < 2 ^ j) as Hc.
    { assert (2 ^ j = 2 ^ (202 * c) * 2 ^ (202 * c)) as ->. { rewrite -Nat.pow_add_r. f_equal. unfold j. lia. }
      pose proof (Nat.pow_gt_lin_r 2 (202 * c) ltac:(lia)) as Hg. unfold j. clear -Hg. generalize dependent (2 ^ (202 * c)). intros Y Hg.
      assert ((202 * c + 1) * (202 * c + 1) <= Y * Y) by (apply Nat.mul_le_mono; lia). nia. }
    nia.
Qed.
Print Assumptions C71_logarithmic_refuted.

Example C71_example_average : let os := [TInsert (PInt 5) (Drawn 0); TInsert (PInt 2) (Drawn 0); TRemove (PInt 5); TContains (PInt 2); TInsert (PInt 8) (Drawn 0)] in
  default_priorities os /\ insertions os = 3 /\ length (set_after CTreap os []) = 2 /\
  exists rs s t, history CTreap (with_draws os [30; 70; 70]) = Some (rs, s) /\ shape s = Some t /\ path (Fin 2) (values t) = 2.
Proof. split_and!; [repeat constructor|done|done|]. eexists _, _, _. split_and!; by vm_compute. Qed.
Example C71_example_sorted : increasing (map Fin [1; 2; 3; 4]%Z) /\
  exists rs s t, history CTreap (with_draws (inserts (map Fin [1; 2; 3; 4]%Z)) [100; 7; 100; 100]) = Some (rs, s) /\ shape s = Some t /\
    path (Fin 1) (values t) = 3.
Proof. split; [repeat constructor|]. eexists _, _, _. split_and!; by vm_compute. Qed.
