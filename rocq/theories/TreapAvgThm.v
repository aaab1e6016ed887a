(** * Counting over all draws *)
From iris.proofmode Require Import proofmode.
From Verif Require Import Base TreapAvgSpec.

Notation sum l := (sum_list l).
Lemma sum_cons x l : sum (x :: l) = x + sum l.
Proof. done. Qed.
Lemma sum_snoc l x : sum (l ++ [x]) = sum l + x.
Proof. induction l as [|y l IH]; cbn; [unfold id; lia|]. rewrite IH. lia. Qed.
Lemma sum_app l1 l2 : sum (l1 ++ l2) = sum l1 + sum l2.
Proof. induction l1 as [|x l1 IH]; cbn; [done|]. rewrite IH. lia. Qed.
Lemma sum_map_add {A} (f g : A -> nat) l : sum (map (fun x => f x + g x) l) = sum (map f l) + sum (map g l).
Proof. induction l as [|x l IH]; cbn; [done|]. rewrite IH. lia. Qed.
Lemma sum_map_mul {A} c (f : A -> nat) l : sum (map (fun x => c * f x) l) = c * sum (map f l).
Proof. induction l as [|x l IH]; cbn; [lia|]. rewrite IH. lia. Qed.
Lemma sum_map_le {A} (f g : A -> nat) l : (forall x, x ∈ l -> f x <= g x) -> sum (map f l) <= sum (map g l).
Proof.
  induction l as [|x l IH]; cbn; [done|]. intros H. pose proof (H x (elem_of_list_here _ _)).
  assert (sum (map f l) <= sum (map g l)); [|lia]. apply IH. intros y Hy. apply H. by right.
Qed.
Lemma sum_map_ext {A} (f g : A -> nat) l : (forall x, x ∈ l -> f x = g x) -> sum (map f l) = sum (map g l).
Proof. intros H. apply Nat.le_antisymm; apply sum_map_le; intros x Hx; by rewrite H. Qed.
Lemma sum_map_const {A} c (l : list A) : sum (map (fun _ => c) l) = length l * c.
Proof. induction l; cbn; lia. Qed.
Lemma sum_swap {A B} (f : A -> B -> nat) l m :
  sum (map (fun x => sum (map (f x) m)) l) = sum (map (fun y => sum (map (fun x => f x y) l)) m).
Proof.
  induction l as [|x l IH]; cbn.
  - induction m; cbn; lia.
  - rewrite IH -sum_map_add. done.
Qed.
Lemma sum_flat_map {A} (f : A -> nat) (g : nat -> list A) l :
  sum (map f (flat_map g l)) = sum (map (fun p => sum (map f (g p))) l).
Proof. induction l as [|p l IH]; cbn; [done|]. rewrite map_app sum_app IH. done. Qed.
Lemma sum_outcomes_S R k (f : list nat -> nat) :
  sum (map f (outcomes R (S k))) = sum (map (fun p => sum (map (fun ps => f (p :: ps)) (outcomes R k))) (seq 0 R)).
Proof. cbn [outcomes]. rewrite sum_flat_map. apply sum_map_ext. intros p _. by rewrite map_map. Qed.

(** ** The enumeration *)
Lemma outcomes_elem R k : forall ps, ps ∈ outcomes R k <-> length ps = k /\ Forall (fun p => p < R) ps.
Proof.
  induction k as [|k IH]; intros ps; cbn [outcomes].
  - rewrite elem_of_list_singleton. split; [by intros ->|]. intros [H _]. by destruct ps.
  - rewrite elem_of_list_In in_flat_map. setoid_rewrite <- elem_of_list_In. setoid_rewrite elem_of_seq. split.
    + intros (p & Hp & H). apply elem_of_list_fmap in H as (qs & -> & H). apply IH in H as [<- H]. split; [done|]. constructor; [lia|done].
    + destruct ps as [|p ps]; intros [Hl H]; [done|]. apply Forall_cons in H as [Hp H]. exists p. split; [lia|].
      apply elem_of_list_fmap. exists ps. split; [done|]. apply IH. cbn in Hl. split; [lia|done].
Qed.
Lemma outcomes_length R k : length (outcomes R k) = R ^ k.
Proof.
  induction k as [|k IH]; cbn [outcomes]; [done|]. cbn [Nat.pow].
  assert (forall l, length (flat_map (fun p => map (cons p) (outcomes R k)) l) = length l * R ^ k) as H.
  { induction l as [|p l IHl]; cbn [flat_map length]; [done|]. rewrite app_length map_length IHl IH. lia. }
  rewrite H seq_length. done.
Qed.
Lemma outcomes_nodup R k : NoDup (outcomes R k).
Proof.
  induction k as [|k IH]; cbn [outcomes]; [apply NoDup_singleton|]. generalize (NoDup_seq 0 R). generalize (seq 0 R). intros l Hl.
  induction Hl as [|p l Hp Hl IHl]; cbn [flat_map]; [constructor|]. apply NoDup_app. split_and!; [|..|done].
  - apply NoDup_fmap_2; [|done]. by intros ? ? [= ->].
  - intros x H1 H2. apply elem_of_list_fmap in H1 as (qs & -> & _). apply elem_of_list_In, in_flat_map in H2 as (p' & Hp' & H2).
    apply elem_of_list_In, elem_of_list_fmap in H2 as (? & [= -> _] & _). by apply Hp, elem_of_list_In.
Qed.

(** ** Independence *)
Definition prod (l : list nat) : nat := foldr Nat.mul 1 l.
Lemma prod_app l1 l2 : prod (l1 ++ l2) = prod l1 * prod l2.
Proof. unfold prod. induction l1 as [|x l1 IH]; cbn; [lia|]. rewrite IH. lia. Qed.
Lemma prod_perm l1 l2 : l1 ≡ₚ l2 -> prod l1 = prod l2.
Proof. unfold prod. induction 1; cbn; try lia. Qed.
Lemma prod_const c l : Forall (eq c) l -> prod l = c ^ length l.
Proof. unfold prod. induction 1 as [|x l -> H IH]; cbn; [done|]. rewrite IH. done. Qed.
(** Weights [w j] for the draw [j], counted from [n]. *)
Fixpoint weight (w : nat -> nat -> nat) (n : nat) (ps : list nat) : nat :=
  match ps with [] => 1 | p :: ps => w n p * weight w (S n) ps end.
Lemma sum_weight R w k : forall n,
  sum (map (weight w n) (outcomes R k)) = prod (map (fun j => sum (map (w j) (seq 0 R))) (seq n k)).
Proof.
  induction k as [|k IH]; intros n; [done|]. rewrite sum_outcomes_S. change (seq n (S k)) with (n :: seq (S n) k); rewrite map_cons. rewrite /prod /= -/(prod _) -IH.
  rewrite Nat.mul_comm -sum_map_mul. apply sum_map_ext. intros p _. cbn [weight]. rewrite sum_map_mul. lia.
Qed.
Lemma weight_one w ps : forall n, (forall j, j < length ps -> w (n + j) (ps !!! j) = 1) -> weight w n ps = 1.
Proof.
  induction ps as [|p ps IH]; intros n H; [done|]. cbn [weight]. pose proof (H 0 ltac:(cbn; lia)) as H0. rewrite Nat.add_0_r in H0. cbn in H0. rewrite H0 IH; [done|].
  intros j Hj. specialize (H (S j) ltac:(cbn; lia)). by rewrite Nat.add_succ_r in H.
Qed.

(** ** How often a draw is the largest of some *)
Lemma sum_ones R (P : nat -> bool) c : c <= R -> (forall v, v < R -> P v = (v <? c)) -> sum (map (fun v => if P v then 1 else 0) (seq 0 R)) = c.
Proof.
  intros Hc H. revert c Hc H. induction R as [|R IH]; intros c Hc H; [cbn; lia|].
  rewrite seq_S map_app. cbn [List.map]. change (0 + R) with R. rewrite sum_snoc (H R (Nat.lt_succ_diag_r R)). destruct (R <? c) eqn:E; [apply Nat.ltb_lt in E|apply Nat.ltb_ge in E].
  - rewrite (IH R); [lia|lia|]. intros v Hv. rewrite H; [|lia]. apply eq_true_iff_eq. rewrite !Nat.ltb_lt. lia.
  - rewrite (IH c); [lia|lia|]. intros v Hv. apply H. lia.
Qed.
(** The draw [i] is at least each of the draws [js]. *)
Definition top_of (i : nat) (js : list nat) (ps : list nat) : bool := forallb (fun j => ps !!! j <=? ps !!! i) js.
Definition wt (i : nat) (js : list nat) (v j p : nat) : nat :=
  if decide (j = i) then (if p =? v then 1 else 0) else if decide (j ∈ js) then (if p <=? v then 1 else 0) else 1.
Lemma top_count R k i js : NoDup (i :: js) -> Forall (fun j => j < k) (i :: js) ->
  sum (map (fun ps => if top_of i js ps then 1 else 0) (outcomes R k)) <= sum (map (fun v => S v ^ length js * R ^ (k - S (length js))) (seq 0 R)).
Proof.
  intros Hnd Hk.
  assert (exists rest, seq 0 k ≡ₚ i :: js ++ rest /\ (forall j, j ∈ rest -> j ∉ i :: js)) as (rest & Hp & Hrest).
  { exists (filter (fun j => j ∉ i :: js) (seq 0 k)). split; [|by intros j [? _]%elem_of_list_filter].
    apply NoDup_Permutation.
    - apply NoDup_seq.
    - change (NoDup ((i :: js) ++ filter (fun j => j ∉ i :: js) (seq 0 k))). apply NoDup_app. split_and!; [done| |apply NoDup_filter, NoDup_seq].
      intros x Hx [? _]%elem_of_list_filter. done.
    - intros x. change (x ∈ seq 0 k <-> x ∈ (i :: js) ++ filter (fun j => j ∉ i :: js) (seq 0 k)). rewrite elem_of_app elem_of_list_filter elem_of_seq.
      rewrite Forall_forall in Hk. specialize (Hk x). destruct (decide (x ∈ i :: js)); [|split; [|tauto]; intros; right; split; [done|lia]].
      split; [tauto|]. intros _. specialize (Hk e). lia. }
  assert (length rest = k - S (length js)) as Hlen.
  { apply Permutation_length in Hp. rewrite seq_length /= app_length in Hp. lia. }
  transitivity (sum (map (fun v => sum (map (weight (wt i js v) 0) (outcomes R k))) (seq 0 R))).
  - rewrite sum_swap. apply sum_map_le. intros ps [Hl Hr]%outcomes_elem. destruct (top_of i js ps) eqn:E; [|lia].
    rewrite Forall_cons in Hk. destruct Hk as [Hi _].
    assert (ps !!! i < R) as Hv. { rewrite Forall_lookup in Hr. apply (Hr i). apply list_lookup_lookup_total_lt. lia. }
    assert (weight (wt i js (ps !!! i)) 0 ps = 1) as HW.
    { apply weight_one. intros j Hj. rewrite Nat.add_0_l. unfold wt. destruct (decide (j = i)) as [->|]; [by rewrite Nat.eqb_refl|].
      destruct (decide (j ∈ js)) as [Hjs|]; [|done]. unfold top_of in E. rewrite forallb_forall in E. rewrite E; [done|]. by apply elem_of_list_In. }
    assert (exists l1 l2, seq 0 R = l1 ++ (ps !!! i) :: l2) as (l1 & l2 & ->). { apply elem_of_list_split, elem_of_seq. lia. }
    rewrite map_app sum_app. cbn [List.map]. change (1 <= sum (map (fun y => weight (wt i js y) 0 ps) l1) + (weight (wt i js (ps !!! i)) 0 ps + sum (map (fun y => weight (wt i js y) 0 ps) l2))). lia.
  - apply sum_map_le. intros v [_ Hv]%elem_of_seq. rewrite sum_weight. apply NoDup_cons in Hnd as [Hi Hnd].
    rewrite (prod_perm _ _ (fmap_Permutation _ _ _ Hp)). change (fmap ?f ?l) with (map f l). cbn [List.map]. rewrite map_app.
    unfold prod. cbn [foldr]. fold (prod (map (fun j => sum (map (wt i js v j) (seq 0 R))) js ++ map (fun j => sum (map (wt i js v j) (seq 0 R))) rest)).
    rewrite prod_app.
    assert (sum (map (wt i js v i) (seq 0 R)) = 1) as ->.
    { rewrite (sum_map_ext _ (fun p => (if p <? S v then 1 else 0) - (if p <? v then 1 else 0))).
      2:{ intros p _. unfold wt. rewrite decide_True //. destruct (p =? v) eqn:E; [apply Nat.eqb_eq in E|apply Nat.eqb_neq in E];
          destruct (p <? S v) eqn:E1; destruct (p <? v) eqn:E2; rewrite ?Nat.ltb_lt ?Nat.ltb_ge in E1 E2; lia. }
      assert (sum (map (fun p => if p <? S v then 1 else 0) (seq 0 R)) = S v) as H1 by (apply sum_ones; [lia|done]).
      assert (sum (map (fun p => if p <? v then 1 else 0) (seq 0 R)) = v) as H2 by (apply sum_ones; [lia|done]).
      assert (sum (map (fun p => (if p <? S v then 1 else 0) - (if p <? v then 1 else 0)) (seq 0 R)) + sum (map (fun p => if p <? v then 1 else 0) (seq 0 R)) = S v); [|lia].
      transitivity (sum (map (fun p => if p <? S v then 1 else 0) (seq 0 R))); [|done]. rewrite -sum_map_add. apply sum_map_ext. intros p _. destruct (p <? S v) eqn:E1; destruct (p <? v) eqn:E2; rewrite ?Nat.ltb_lt ?Nat.ltb_ge in E1 E2; lia. }
    rewrite (prod_const (S v) (map _ js)). 2:{ apply Forall_forall. intros y Hy. apply elem_of_list_fmap in Hy as (j & -> & Hj). symmetry.
      rewrite (sum_map_ext _ (fun p => if p <? S v then 1 else 0)); [apply sum_ones; [lia|done]|]. intros p _. unfold wt. rewrite decide_False; [|by intros ->]. by rewrite decide_True. }
    rewrite (prod_const R (map _ rest)). 2:{ apply Forall_forall. intros y Hy. apply elem_of_list_fmap in Hy as (j & -> & Hj). symmetry.
      apply Hrest in Hj. apply not_elem_of_cons in Hj as [? ?]. rewrite (sum_map_ext _ (fun _ => 1)); [by rewrite sum_map_const seq_length Nat.mul_1_r|].
      intros p _. unfold wt. rewrite decide_False //. by rewrite decide_False. }
    rewrite !map_length Hlen. lia.
Qed.
(** [1^m + ... + R^m] is at most [R^m + R^(m+1)/(m+1)]. *)
Lemma pow_step q m : q ^ S m + S m * q ^ m <= S q ^ S m.
Proof.
  induction m as [|m IH]; [cbn; lia|]. change (S q ^ S (S m)) with (S q * S q ^ S m).
  assert (S q * (q ^ S m + S m * q ^ m) <= S q * S q ^ S m) as H by (apply Nat.mul_le_mono_l; done).
  change (q ^ S (S m)) with (q * q ^ S m). change (q ^ S m) with (q * q ^ m) in *. nia.
Qed.
Lemma power_sum R m : S m * sum (map (fun v => v ^ m) (seq 0 R)) <= R ^ S m.
Proof.
  induction R as [|R IH]; [cbn; lia|]. rewrite seq_S map_app. cbn [List.map]. change (0 + R) with R. rewrite sum_snoc. pose proof (pow_step R m). lia.
Qed.
Lemma power_sum_S R m : S m * sum (map (fun v => S v ^ m) (seq 0 R)) <= R ^ S m + S m * R ^ m.
Proof.
  assert (sum (map (fun v => S v ^ m) (seq 0 R)) <= sum (map (fun v => v ^ m) (seq 0 R)) + R ^ m) as H.
  { clear. induction R as [|R IH]; [cbn; lia|]. rewrite seq_S !map_app. cbn [List.map]. change (0 + R) with R. rewrite !sum_snoc. lia. }
  pose proof (power_sum R m). nia.
Qed.

(** ** Harmonic sums *)
Lemma harmonic g K N : (forall m, m < N -> S m * g m <= K) -> sum (map g (seq 0 N)) <= K * (Nat.log2 N + 1).
Proof.
  revert g K. induction N as [N IH] using (well_founded_induction Nat.lt_wf_0); intros g K H.
  destruct (decide (N < 2)) as [HN|HN].
  - destruct N as [|[|N]]; [|pose proof (H 0 ltac:(lia)); cbn in *; unfold id; lia|lia]. cbn. lia.
  - set (h := N / 2). assert (0 < h < N /\ N <= 2 * h + 1) as [Hh1 Hh2].
    { pose proof (Nat.div_mod N 2 ltac:(lia)). pose proof (Nat.mod_upper_bound N 2 ltac:(lia)). unfold h. lia. }
    replace N with (h + (N - h)) at 1 by lia. rewrite seq_app map_app sum_app.
    assert (Nat.log2 N = S (Nat.log2 h)) as HL.
    { pose proof (Nat.div_mod N 2 ltac:(lia)) as E. fold h in E. pose proof (Nat.mod_upper_bound N 2 ltac:(lia)).
      destruct (decide (N mod 2 = 0)) as [E0|E0].
      - replace N with (2 * h) by lia. rewrite Nat.log2_double; lia.
      - replace N with (2 * h + 1) by lia. rewrite Nat.log2_succ_double; lia. }
    pose proof (IH h ltac:(lia) g K ltac:(intros; apply H; lia)) as H1.
    assert (sum (map g (seq (0 + h) (N - h))) <= K) as H2; [|rewrite HL; nia].
    assert (S h * sum (map g (seq (0 + h) (N - h))) <= (N - h) * K) as H2.
    { replace ((N - h) * K) with (sum (map (fun _ => K) (seq (0 + h) (N - h)))) by (by rewrite sum_map_const seq_length).
      rewrite -sum_map_mul. apply sum_map_le. intros m [Hm1 Hm2]%elem_of_seq. pose proof (H m ltac:(lia)). nia. }
    nia.
Qed.

(** ** Weak maxima of the rest of a list *)
Fixpoint tops (l : list nat) : nat :=
  match l with [] => 0 | p :: l' => (if forallb (fun q => q <=? p) l' then 1 else 0) + tops l' end.
Lemma sum_tops R k js : NoDup js -> Forall (fun j => j < k) js ->
  R * sum (map (fun ps => tops (map (fun j => ps !!! j) js)) (outcomes R k)) <= R ^ k * (length js + R * (Nat.log2 (length js) + 1)).
Proof.
  intros Hnd Hk. set (G m := sum (map (fun v => S v ^ m * R ^ (k - S m)) (seq 0 R))).
  assert (sum (map (fun ps => tops (map (fun j => ps !!! j) js)) (outcomes R k)) <= sum (map G (seq 0 (length js)))) as H1.
  { clear -Hnd Hk. induction js as [|i js IH].
    - cbn [tops List.map]. rewrite sum_map_const. cbn. lia.
    - assert (length js < length (i :: js)) as _ by (cbn; lia). cbn [length]. rewrite seq_S map_app. cbn [List.map]. rewrite sum_snoc.
      pose proof (top_count R k i js Hnd Hk) as HT. apply NoDup_cons in Hnd as [_ Hnd]. apply Forall_cons in Hk as [_ Hk]. specialize (IH Hnd Hk).
      change (0 + length js) with (length js). unfold G at 2.
      rewrite (sum_map_ext _ (fun ps => (if top_of i js ps then 1 else 0) + tops (map (fun j => ps !!! j) js))).
      2:{ intros ps _. cbn [tops List.map]. f_equal. unfold top_of. clear. induction js as [|j js IH]; [done|]. cbn [forallb List.map]. destruct (ps !!! j <=? ps !!! i); cbn; [done|]. done. }
      rewrite sum_map_add. lia. }
  assert (length js <= k) as Hlk.
  { rewrite -(seq_length k 0). apply submseteq_length, NoDup_submseteq; [done|]. intros x Hx. rewrite Forall_forall in Hk. apply elem_of_seq. specialize (Hk x Hx). lia. }
  assert (forall m, m < length js -> S m * (R * G m) <= R ^ S k + S m * R ^ k) as H2.
  { intros m Hm. unfold G. rewrite (sum_map_ext _ (fun v => R ^ (k - S m) * S v ^ m)); [|intros; lia]. rewrite sum_map_mul.
    pose proof (power_sum_S R m) as HP. set (X := sum (map (fun v => S v ^ m) (seq 0 R))) in *.
    assert (R ^ k = R ^ (k - S m) * R ^ S m) as E1. { rewrite -Nat.pow_add_r. f_equal. lia. }
    change (R ^ S k) with (R * R ^ k). rewrite E1. change (R ^ S m) with (R * R ^ m) in HP |- *. set (Y := R ^ (k - S m)). set (Z1 := R ^ m) in *.
    assert (Y * R * (S m * X) <= Y * R * (R * Z1 + S m * Z1)) by (apply Nat.mul_le_mono_l; done). nia. }
  assert (sum (map (fun m => R * G m - R ^ k) (seq 0 (length js))) <= R ^ S k * (Nat.log2 (length js) + 1)) as H3.
  { apply harmonic. intros m Hm. specialize (H2 m Hm). rewrite Nat.mul_sub_distr_l. lia. }
  assert (R * sum (map G (seq 0 (length js))) <= sum (map (fun m => R * G m - R ^ k) (seq 0 (length js))) + length js * R ^ k) as H4.
  { pose proof (sum_map_const (R ^ k) (seq 0 (length js))) as E. rewrite seq_length in E. rewrite -E -sum_map_mul -sum_map_add. apply sum_map_le. intros. lia. }
  change (R ^ S k) with (R * R ^ k) in H3. nia.
Qed.
