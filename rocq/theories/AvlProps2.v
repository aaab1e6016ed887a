(** * C26, continued: the height of an AVL tree is logarithmic *)
From Verif Require Import Base NumOrd ListModel TreeModel TreeSpec BstModel BalModel BstSpec BstPure BstThm AvlProps BuildProps.
Local Open Scope py_scope.

Fixpoint fib (n : nat) : nat := match n with 0 => 0 | S n' => match n' with 0 => 1 | S m => fib n' + fib m end end.
Lemma fib_SS n : fib (S (S n)) = fib (S n) + fib n.
Proof. done. Qed.
Lemma fib_pos n : 1 <= fib (S n).
Proof. induction n as [|n IH]; [done|]. rewrite fib_SS. lia. Qed.
Lemma fib_step n : fib n <= fib (S n).
Proof. destruct n; [cbn; lia|]. rewrite fib_SS. lia. Qed.
Lemma fib_mono a b : a <= b -> fib a <= fib b.
Proof. induction 1 as [|b _ IH]; [done|]. etrans; [exact IH|apply fib_step]. Qed.
Lemma balanced_fib {A} (t : bin A) : height_balanced t -> fib (nlevels t + 2) <= length (inorder t) + 1.
Proof.
  induction t as [|l IHl x r IHr]; intros H; [cbn; lia|]. cbn [height_balanced] in H. destruct H as (Hl & Hr & H1 & H2).
  specialize (IHl Hl). specialize (IHr Hr). cbn [nlevels inorder]. rewrite app_length. cbn [length].
  replace (S (Nat.max (nlevels l) (nlevels r)) + 2) with (S (S (Nat.max (nlevels l) (nlevels r) + 1))) by lia. rewrite fib_SS.
  destruct (Nat.max_spec (nlevels l) (nlevels r)) as [[Hlt E]|[Hle E]]; rewrite E.
  - assert (fib (nlevels r + 1) <= fib (nlevels l + 2)) by (apply fib_mono; lia).
    replace (S (nlevels r + 1)) with (nlevels r + 2) by lia. lia.
  - assert (fib (nlevels l + 1) <= fib (nlevels r + 2)) by (apply fib_mono; lia).
    replace (S (nlevels l + 1)) with (nlevels l + 2) by lia. lia.
Qed.
Lemma fib_square n : 2 ^ n <= fib (n + 2) * fib (n + 2) /\ 2 ^ n <= 2 * (fib (n + 2) * fib (n + 1)).
Proof.
  induction n as [|n [IH1 IH2]]; [cbn; lia|]. replace (S n + 2) with (S (S (n + 1))) by lia. replace (S n + 1) with (n + 2) by lia.
  rewrite fib_SS. replace (S (n + 1)) with (n + 2) by lia. pose proof (fib_mono (n + 1) (n + 2) ltac:(lia)).
  rewrite Nat.pow_succ_r'. set (a := fib (n + 2)) in *. set (b := fib (n + 1)) in *. split; nia.
Qed.
Lemma levels_length {A} (t : bin A) : length (inorder t) + 1 <= 2 ^ nlevels t.
Proof.
  induction t as [|l IHl x r IHr]; [done|]. cbn [nlevels inorder]. rewrite app_length. cbn [length]. rewrite Nat.pow_succ_r'.
  pose proof (Nat.pow_le_mono_r 2 (nlevels l) (Nat.max (nlevels l) (nlevels r)) ltac:(lia) ltac:(lia)).
  pose proof (Nat.pow_le_mono_r 2 (nlevels r) (Nat.max (nlevels l) (nlevels r)) ltac:(lia) ltac:(lia)). lia.
Qed.
Lemma avl_height_len os : no_removals os -> set_after CAVL os [] <> [] ->
  exists rs s h n, history CAVL (os ++ [THeight; TLen]) = Some (rs ++ [OInt (Z.of_nat h); OInt (Z.of_nat n)], s) /\
    n = length (set_after CAVL os []) /\ fib (h + 3) <= n + 1 /\ n + 1 <= 2 ^ (h + 1).
Proof.
  intros H Hne. destruct (C26_insertions_implement_a_set os H) as (rs & s & t & E & HA & Ht & Hin).
  destruct (C26_balanced_after_insertions os rs s t H E Ht) as [HB _].
  assert (t <> Nil) as Hnil by (intros ->; cbn in Hin; congruence).
  destruct (C26_get_height os rs s t H E Ht Hnil) as (s1 & E1).
  destruct (C26_insertions_implement_a_set (os ++ [THeight; TLen])) as (rs' & s' & t' & E' & HA' & _).
  { apply Forall_app. split; [done|]. by repeat constructor. }
  unfold history in *. rewrite calls_app, E in E' |- *. cbn [calls] in *. rewrite E1 in E' |- *.
  destruct (call CAVL TLen s1) as [[r2 s2]|]; [|done]. injection E' as <- <-.
  apply answers_app in HA' as (r1 & r3 & Er & _ & HA2 & Hlen). apply app_inj_1 in Er as [<- <-].
  2:{ rewrite Hlen. by rewrite (answers_length _ _ _ _ HA). }
  destruct HA2 as (_ & Hr2 & _). cbn [answer next] in Hr2. subst r2.
  exists rs, s2, (nlevels t - 1), (length (set_after CAVL os [])). split; [done|]. split; [done|].
  assert (length (set_after CAVL os []) = length (inorder t)) as -> by (by rewrite <- Hin, map_length).
  pose proof (balanced_fib t HB) as H1. pose proof (levels_length t) as H2. destruct t as [|l x r]; [done|]. cbn [nlevels] in *.
  rewrite Nat.sub_succ, Nat.sub_0_r. replace (Nat.max (nlevels l) (nlevels r) + 3) with (S (Nat.max (nlevels l) (nlevels r)) + 2) by lia.
  split; [done|]. by replace (Nat.max (nlevels l) (nlevels r) + 1) with (S (Nat.max (nlevels l) (nlevels r))) by lia.
Qed.
(** The height [h] (in edges) and the number [n] of elements that the tree reports satisfy
    fib(h+3) <= n+1 <= 2^(h+1), after any insertions, searches and other queries. *)
Theorem C26_height_fibonacci os : no_removals os -> set_after CAVL os [] <> [] ->
  exists rs s h n, history CAVL (os ++ [THeight; TLen]) = Some (rs ++ [OInt (Z.of_nat h); OInt (Z.of_nat n)], s) /\
    fib (h + 3) <= n + 1 /\ n + 1 <= 2 ^ (h + 1).
Proof. intros H Hne. destruct (avl_height_len os H Hne) as (rs & s & h & n & E & _ & ? & ?). by exists rs, s, h, n. Qed.
Print Assumptions C26_height_fibonacci.
(** Hence the height is at most twice the logarithm (to base 2) of [n + 1]. *)
Theorem C26_height_logarithmic os : no_removals os -> set_after CAVL os [] <> [] ->
  exists rs s h n, history CAVL (os ++ [THeight; TLen]) = Some (rs ++ [OInt (Z.of_nat h); OInt (Z.of_nat n)], s) /\
    n = length (set_after CAVL os []) /\ 2 ^ (h + 1) <= (n + 1) * (n + 1) /\ h <= 2 * Nat.log2 (n + 1).
Proof.
  intros H Hne. destruct (avl_height_len os H Hne) as (rs & s & h & n & E & Hn & Hf & _). exists rs, s, h, n. split; [done|]. split; [done|].
  destruct (fib_square (h + 1)) as [Hq _]. replace (h + 1 + 2) with (h + 3) in Hq by lia.
  assert (2 ^ (h + 1) <= (n + 1) * (n + 1)) as Hb by nia. split; [done|].
  apply Nat.log2_le_mono in Hb. rewrite Nat.log2_pow2 in Hb by lia.
  pose proof (Nat.log2_mul_above (n + 1) (n + 1) ltac:(lia) ltac:(lia)). lia.
Qed.
Print Assumptions C26_height_logarithmic.
(** Ascending insertions, the worst case of a plain BST. *)
Example C26_height_example : let os := inserts (map Fin [1; 2; 3; 4; 5; 6; 7; 8]%Z) in
  no_removals os /\ set_after CAVL os [] <> [] /\
  option_map (fun p => drop 8 p.1) (history CAVL (os ++ [THeight; TLen])) = Some [OInt 3; OInt 8].
Proof. cbv zeta. split; [by repeat constructor|]. split; [by vm_compute|]. by vm_compute. Qed.
