(** * Averages over the coins *)
From iris.proofmode Require Import proofmode.
From Verif Require Import Base ListModel SkipModel SkipSpec SkipCostSpec TreapAvgSpec TreapAvgThm.

Lemma tuples_outcomes H k : tuples H k = outcomes H k.
Proof. done. Qed.
Lemma visible_tops l : visible l = tops l.
Proof.
  induction l as [|h l IH]; [done|]. cbn [visible tops]. rewrite IH. f_equal.
  assert (bool_decide (Forall (fun h' => h' <= h) l) = forallb (fun q => q <=? h) l) as ->; [|done]. clear. apply eq_true_iff_eq.
  rewrite bool_decide_eq_true forallb_forall Forall_forall. setoid_rewrite Nat.leb_le. setoid_rewrite elem_of_list_In. done.
Qed.
Definition coin (H p : nat) : nat := 2 ^ (H - p).
Lemma chance_weight H hs : forall n, chance H hs = weight (fun _ => coin H) n hs.
Proof. induction hs as [|h hs IH]; intros n; [done|]. cbn [chance weight]. by rewrite (IH (S n)). Qed.
Lemma chance_mult H w hs : forall n, chance H hs * weight w n hs = weight (fun j p => coin H p * w j p) n hs.
Proof. induction hs as [|h hs IH]; intros n; [done|]. cbn [chance weight]. rewrite -(IH (S n)). unfold coin. lia. Qed.

(** ** One insertion *)
Lemma coin_le H v : v < H -> sum (map (fun p => if p <=? v then coin H p else 0) (seq 0 H)) + coin H v = 2 ^ S H.
Proof.
  revert v. induction H as [|H IH]; intros v Hv; [lia|]. rewrite seq_S map_app. cbn [List.map]. rewrite sum_snoc. change (0 + H) with H.
  assert (sum (map (fun p => if p <=? v then coin (S H) p else 0) (seq 0 H)) = 2 * sum (map (fun p => if p <=? v then coin H p else 0) (seq 0 H))) as ->.
  { rewrite -sum_map_mul. apply sum_map_ext. intros p [_ Hp]%elem_of_seq. destruct (p <=? v); [|lia]. unfold coin. replace (S H - p) with (S (H - p)) by lia. done. }
  destruct (decide (v < H)) as [H1|H1].
  - rewrite (proj2 (Nat.leb_gt H v)); [|lia]. specialize (IH v H1). unfold coin in *. replace (S H - v) with (S (H - v)) by lia. rewrite (Nat.pow_succ_r' 2 (S H)) (Nat.pow_succ_r' 2 (H - v)). lia.
  - assert (v = H) as -> by lia. rewrite Nat.leb_refl. unfold coin. replace (S H - H) with 1 by lia.
    destruct H as [|H]; [cbn; lia|]. specialize (IH H ltac:(lia)). unfold coin in IH. replace (S H - H) with 1 in IH by lia. rewrite (Nat.pow_succ_r' 2 (S (S H))).
    rewrite (sum_map_ext _ (fun p => if p <=? H then 2 ^ (S H - p) else 0)); [cbn [Nat.pow] in *; lia|]. intros p [_ Hp]%elem_of_seq. rewrite !(proj2 (Nat.leb_le _ _)); [done|lia|lia].
Qed.
Lemma coin_all H : sum (map (coin H) (seq 0 H)) + 2 = 2 ^ S H.
Proof.
  destruct H as [|H]; [done|]. pose proof (coin_le (S H) H ltac:(lia)) as E. unfold coin at 2 in E. replace (S H - H) with 1 in E by lia. change (2 ^ 1) with 2 in E. rewrite -E.
  f_equal. apply sum_map_ext. intros p [_ Hp]%elem_of_seq. rewrite (proj2 (Nat.leb_le _ _)); [done|lia].
Qed.
Definition upto (H v : nat) : nat := 2 ^ S H - 2 ^ (H - v).
Lemma pow_grow a b m : a <= b -> a ^ S m + S m * ((b - a) * a ^ m) <= b ^ S m.
Proof.
  intros Hab. induction m as [|m IH]; [cbn; lia|]. change (b ^ S (S m)) with (b * b ^ S m).
  assert (b * (a ^ S m + S m * ((b - a) * a ^ m)) <= b * b ^ S m) as H by (apply Nat.mul_le_mono_l; done).
  change (a ^ S (S m)) with (a * a ^ S m). change (a ^ S m) with (a * a ^ m) in *. set (d := b - a) in *. replace b with (a + d) in H by (unfold d; lia). replace (b * b ^ S m) with ((a + d) * b ^ S m) by (unfold d; f_equal; lia).
  nia.
Qed.
Lemma upto_step H v : v < H -> coin H v = 2 * (upto H (S v) - upto H v) /\ upto H v <= upto H (S v).
Proof.
  intros Hv. unfold upto, coin. replace (H - v) with (S (H - S v)) by lia. rewrite (Nat.pow_succ_r' 2 (H - S v)).
  assert (2 * 2 ^ (H - S v) <= 2 ^ S H). { rewrite -Nat.pow_succ_r'. apply Nat.pow_le_mono_r; lia. } lia.
Qed.
Lemma coin_power_sum H m : S m * sum (map (fun v => coin H v * upto H v ^ m) (seq 0 H)) <= 2 * (2 ^ S H) ^ S m.
Proof.
  assert (forall n, n <= H -> S m * sum (map (fun v => coin H v * upto H v ^ m) (seq 0 n)) <= 2 * upto H n ^ S m) as HQ.
  { induction n as [|n IH]; intros Hn; [change (S m * 0 <= 2 * upto H 0 ^ S m); rewrite Nat.mul_0_r; apply Nat.le_0_l|]. rewrite seq_S map_app. cbn [List.map]. rewrite sum_snoc. change (0 + n) with n. specialize (IH ltac:(lia)).
    destruct (upto_step H n ltac:(lia)) as [E Hle]. pose proof (pow_grow _ _ m Hle) as HG. rewrite E. generalize dependent (sum (map (fun v => coin H v * upto H v ^ m) (seq 0 n))). intros X IH.
    generalize dependent (upto H (S n) ^ S m). generalize dependent (upto H n ^ S m). generalize dependent (upto H n ^ m). generalize (upto H (S n) - upto H n). clear. intros d a b IH c HG. nia. }
  etransitivity; [by apply HQ|]. apply Nat.mul_le_mono_l, Nat.pow_le_mono_l. unfold upto. lia.
Qed.
(** Heads beyond [g]. *)
Lemma coin_beyond H g : 2 ^ g * sum (map (fun p => coin H p * (p - g)) (seq 0 H)) <= 2 ^ S H.
Proof.
  destruct (decide (H <= g)) as [Hg|Hg].
  - rewrite (sum_map_ext _ (fun _ => 0)); [rewrite sum_map_const; lia|]. intros p [_ Hp]%elem_of_seq. replace (p - g) with 0 by lia. lia.
  - assert (forall c, sum (map (fun p => coin (g + c) p * (p - g)) (seq 0 (g + c))) + 2 * c + 2 = 2 ^ S c) as HQ.
    { induction c as [|c IH].
      - rewrite (sum_map_ext _ (fun _ => 0)); [rewrite sum_map_const; cbn; lia|]. intros p [_ Hp]%elem_of_seq. replace (p - g) with 0 by lia. lia.
      - rewrite (Nat.add_succ_r g c) seq_S map_app. cbn [List.map]. rewrite sum_snoc. change (0 + (g + c)) with (g + c).
        assert (sum (map (fun p => coin (S (g + c)) p * (p - g)) (seq 0 (g + c))) = 2 * sum (map (fun p => coin (g + c) p * (p - g)) (seq 0 (g + c)))) as ->.
        { rewrite -sum_map_mul. apply sum_map_ext. intros p [_ Hp]%elem_of_seq. unfold coin. replace (S (g + c) - p) with (S (g + c - p)) by lia. rewrite Nat.pow_succ_r'. lia. }
        unfold coin at 2. replace (S (g + c) - (g + c)) with 1 by lia. replace (g + c - g) with c by lia. rewrite (Nat.pow_succ_r' 2 (S c)). change (2 ^ 1) with 2. lia. }
    replace H with (g + (H - g)) by lia. specialize (HQ (H - g)). set (c := H - g) in *. replace (2 ^ S (g + c)) with (2 ^ g * 2 ^ S c) by (rewrite -Nat.pow_add_r; f_equal; lia).
    apply Nat.mul_le_mono_l. lia.
Qed.

(** ** Several insertions *)
Lemma prod_le l D : Forall (fun x => x <= D) l -> prod l <= D ^ length l.
Proof. unfold prod. induction 1 as [|x l Hx H IH]; cbn; [done|]. by apply Nat.mul_le_mono. Qed.
Lemma split_seq i js k : NoDup (i :: js) -> Forall (fun j => j < k) (i :: js) ->
  exists rest, seq 0 k ≡ₚ i :: js ++ rest /\ (forall j, j ∈ rest -> j ∉ i :: js) /\ length rest = k - S (length js).
Proof.
  intros Hnd Hk.
  assert (exists rest, seq 0 k ≡ₚ i :: js ++ rest /\ (forall j, j ∈ rest -> j ∉ i :: js)) as (rest & Hp & Hrest).
  { exists (filter (fun j => j ∉ i :: js) (seq 0 k)). split; [|by intros j [? _]%elem_of_list_filter].
    apply NoDup_Permutation.
    - apply NoDup_seq.
    - change (NoDup ((i :: js) ++ filter (fun j => j ∉ i :: js) (seq 0 k))). apply NoDup_app. split_and!; [done| |apply NoDup_filter, NoDup_seq].
      intros x Hx [? _]%elem_of_list_filter. done.
    - intros x. change (x ∈ seq 0 k <-> x ∈ (i :: js) ++ filter (fun j => j ∉ i :: js) (seq 0 k)). rewrite elem_of_app elem_of_list_filter elem_of_seq.
      rewrite Forall_forall in Hk. specialize (Hk x). destruct (decide (x ∈ i :: js)); [|split; [|tauto]; intros; right; split; [done|lia]].
      split; [tauto|]. intros _. specialize (Hk e). lia. }
  exists rest. split_and!; [done|done|]. apply Permutation_length in Hp. rewrite seq_length /= app_length in Hp. lia.
Qed.
Lemma top_chance H k i js : NoDup (i :: js) -> Forall (fun j => j < k) (i :: js) ->
  sum (map (fun hs => chance H hs * (if top_of i js hs then 1 else 0)) (tuples H k)) <=
  sum (map (fun v => coin H v * upto H v ^ length js * (2 ^ S H) ^ (k - S (length js))) (seq 0 H)).
Proof.
  intros Hnd Hk. destruct (split_seq i js k Hnd Hk) as (rest & Hp & Hrest & Hlen). rewrite tuples_outcomes.
  transitivity (sum (map (fun v => sum (map (fun hs => chance H hs * weight (wt i js v) 0 hs) (outcomes H k))) (seq 0 H))).
  - rewrite sum_swap. apply sum_map_le. intros ps [Hl Hr]%outcomes_elem. destruct (top_of i js ps) eqn:E; [|lia].
    rewrite Forall_cons in Hk. destruct Hk as [Hi _].
    assert (ps !!! i < H) as Hv. { rewrite Forall_lookup in Hr. apply (Hr i). apply list_lookup_lookup_total_lt. lia. }
    assert (weight (wt i js (ps !!! i)) 0 ps = 1) as HW.
    { apply weight_one. intros j Hj. rewrite Nat.add_0_l. unfold wt. destruct (decide (j = i)) as [->|]; [by rewrite Nat.eqb_refl|].
      destruct (decide (j ∈ js)) as [Hjs|]; [|done]. unfold top_of in E. rewrite forallb_forall in E. rewrite E; [done|]. by apply elem_of_list_In. }
    assert (exists l1 l2, seq 0 H = l1 ++ (ps !!! i) :: l2) as (l1 & l2 & ->). { apply elem_of_list_split, elem_of_seq. lia. }
    rewrite map_app sum_app map_cons sum_cons HW. lia.
  - apply sum_map_le. intros v [_ Hv]%elem_of_seq.
    rewrite (sum_map_ext _ (weight (fun j p => coin H p * wt i js v j p) 0)); [|intros; by rewrite -chance_mult].
    rewrite sum_weight. apply NoDup_cons in Hnd as [Hi Hnd].
    rewrite (prod_perm _ _ (fmap_Permutation _ _ _ Hp)). change (fmap ?f ?l) with (map f l). rewrite map_cons map_app.
    unfold prod. cbn [foldr]. fold (prod (map (fun j => sum (map (fun p => coin H p * wt i js v j p) (seq 0 H))) js ++ map (fun j => sum (map (fun p => coin H p * wt i js v j p) (seq 0 H))) rest)).
    rewrite prod_app.
    assert (sum (map (fun p => coin H p * wt i js v i p) (seq 0 H)) = coin H v) as ->.
    { assert (exists l1 l2, seq 0 H = l1 ++ v :: l2) as (l1 & l2 & El). { apply elem_of_list_split, elem_of_seq. lia. }
      assert (v ∉ l1 /\ v ∉ l2) as [H1 H2]. { pose proof (NoDup_seq 0 H) as HN. rewrite El in HN. apply NoDup_app in HN as (_ & HN & HN2). apply NoDup_cons in HN2 as [? _]. split; [|done]. intros ?. by apply (HN v); [|left]. }
      rewrite El map_app sum_app map_cons sum_cons.
      assert (forall l, v ∉ l -> sum (map (fun p => coin H p * wt i js v i p) l) = 0) as HZ.
      { intros l Hl. rewrite (sum_map_ext _ (fun _ => 0)); [by rewrite sum_map_const; lia|]. intros p Hpl. unfold wt. rewrite decide_True //. rewrite (proj2 (Nat.eqb_neq p v)); [lia|]. by intros ->. }
      rewrite !HZ //. unfold wt. rewrite decide_True // Nat.eqb_refl. lia. }
    rewrite (prod_const (upto H v) (map _ js)). 2:{ apply Forall_forall. intros y Hy. apply elem_of_list_fmap in Hy as (j & -> & Hj).
      pose proof (coin_le H v Hv) as E. unfold upto. rewrite (sum_map_ext _ (fun p => if p <=? v then coin H p else 0)); [unfold coin at 2 in E; lia|]. intros p _. unfold wt. rewrite decide_False; [|by intros ->]. rewrite decide_True //. destruct (p <=? v); lia. }
    rewrite map_length -Nat.mul_assoc. apply Nat.mul_le_mono_l, Nat.mul_le_mono_l. rewrite -Hlen -(map_length (fun j => sum (map (fun p => coin H p * wt i js v j p) (seq 0 H))) rest). apply prod_le.
    apply Forall_forall. intros y Hy. apply elem_of_list_fmap in Hy as (j & -> & Hj). apply Hrest in Hj. apply not_elem_of_cons in Hj as [? ?].
    rewrite (sum_map_ext _ (coin H)); [pose proof (coin_all H); lia|]. intros p _. unfold wt. rewrite decide_False // decide_False //. lia.
Qed.
Lemma chance_tops H k js : NoDup js -> Forall (fun j => j < k) js ->
  sum (map (fun hs => chance H hs * tops (map (fun j => hs !!! j) js)) (tuples H k)) <= 2 ^ (S H * k) * (2 * (Nat.log2 (length js) + 1)).
Proof.
  intros Hnd Hk. set (D := 2 ^ S H). set (G m := sum (map (fun v => coin H v * upto H v ^ m * D ^ (k - S m)) (seq 0 H))).
  assert (length js <= k) as Hlk.
  { rewrite -(seq_length k 0). apply submseteq_length, NoDup_submseteq; [done|]. intros x Hx. rewrite Forall_forall in Hk. apply elem_of_seq. specialize (Hk x Hx). lia. }
  assert (sum (map (fun hs => chance H hs * tops (map (fun j => hs !!! j) js)) (tuples H k)) <= sum (map G (seq 0 (length js)))) as H1.
  { clear -Hnd Hk. induction js as [|i js IH].
    - rewrite (sum_map_ext _ (fun _ => 0)); [rewrite sum_map_const; cbn; lia|]. intros hs _. cbn. lia.
    - cbn [length]. rewrite seq_S map_app map_cons sum_snoc.
      pose proof (top_chance H k i js Hnd Hk) as HT. apply NoDup_cons in Hnd as [_ Hnd]. apply Forall_cons in Hk as [_ Hk]. specialize (IH Hnd Hk).
      change (0 + length js) with (length js). unfold G at 2.
      rewrite (sum_map_ext _ (fun ps => chance H ps * (if top_of i js ps then 1 else 0) + chance H ps * tops (map (fun j => ps !!! j) js))).
      2:{ intros ps _. rewrite -Nat.mul_add_distr_l. f_equal. cbn [tops List.map]. f_equal. unfold top_of. clear. induction js as [|j js IH]; [done|]. cbn [forallb List.map]. destruct (ps !!! j <=? ps !!! i); cbn; [done|]. done. }
      rewrite sum_map_add. unfold D. lia. }
  etransitivity; [exact H1|]. replace (2 ^ (S H * k)) with (D ^ k) by (unfold D; by rewrite -Nat.pow_mul_r). replace (D ^ k * (2 * (Nat.log2 (length js) + 1))) with (2 * D ^ k * (Nat.log2 (length js) + 1)) by lia.
  apply harmonic. intros m Hm. unfold G. rewrite (sum_map_ext _ (fun v => D ^ (k - S m) * (coin H v * upto H v ^ m))); [|intros; lia]. rewrite sum_map_mul.
  pose proof (coin_power_sum H m) as HP. fold D in HP. replace (D ^ k) with (D ^ (k - S m) * D ^ S m) by (rewrite -Nat.pow_add_r; f_equal; lia).
  generalize dependent (sum (map (fun v => coin H v * upto H v ^ m) (seq 0 H))). generalize (D ^ (k - S m)). generalize (D ^ S m). clear. intros a b c HP.
  replace (S m * (b * c)) with (b * (S m * c)) by lia. replace (2 * (b * a)) with (b * (2 * a)) by lia. by apply Nat.mul_le_mono_l.
Qed.
(** The heads beyond [g] of one insertion. *)
Lemma chance_beyond H k j g : j < k -> 2 ^ g * sum (map (fun hs => chance H hs * (hs !!! j - g)) (tuples H k)) <= 2 ^ (S H * k).
Proof.
  intros Hj. destruct (split_seq j [] k) as (rest & Hp & Hrest & Hlen); [apply NoDup_singleton|by apply Forall_singleton|]. cbn [app length] in *.
  set (w := fun i p : nat => if decide (i = j) then p - g else 1).
  assert (forall hs n, n <= j < n + length hs -> weight w n hs = hs !!! (j - n) - g) as HW.
  { induction hs as [|h hs IH]; intros n Hn; [cbn in Hn; lia|]. cbn [weight length] in *. unfold w at 1. destruct (decide (n = j)) as [->|].
    - rewrite Nat.sub_diag. assert (forall hs n, j < n -> weight w n hs = 1) as H1; [|rewrite H1; [cbn; lia|lia]]. clear. induction hs as [|h hs IH]; intros n Hn; [done|]. cbn [weight]. rewrite IH; [|lia]. unfold w. rewrite decide_False; lia.
    - rewrite (IH (S n)); [|lia]. replace (j - n) with (S (j - S n)) by lia. rewrite Nat.mul_1_l. done. }
  rewrite (sum_map_ext _ (weight (fun i p => coin H p * w i p) 0)).
  2:{ intros hs [Hl _]%outcomes_elem. rewrite -chance_mult HW; [|lia]. by rewrite Nat.sub_0_r. }
  rewrite tuples_outcomes sum_weight. rewrite (prod_perm _ _ (fmap_Permutation _ _ _ Hp)). change (fmap ?f ?l) with (map f l). rewrite map_cons.
  unfold prod. cbn [foldr]. fold (prod (map (fun i => sum (map (fun p => coin H p * w i p) (seq 0 H))) rest)).
  replace (2 ^ (S H * k)) with (2 ^ S H * (2 ^ S H) ^ length rest).
  2:{ rewrite -Nat.pow_mul_r -Nat.pow_add_r. f_equal. rewrite Hlen. nia. }
  rewrite Nat.mul_assoc. apply Nat.mul_le_mono.
  - pose proof (coin_beyond H g) as HB. erewrite sum_map_ext; [exact HB|]. intros p _. unfold w. by rewrite decide_True.
  - rewrite -(map_length (fun i => sum (map (fun p => coin H p * w i p) (seq 0 H))) rest). apply prod_le. apply Forall_forall. intros y Hy. apply elem_of_list_fmap in Hy as (i & -> & Hi).
    apply Hrest in Hi. rewrite (sum_map_ext _ (coin H)); [pose proof (coin_all H); lia|]. intros p _. unfold w. rewrite decide_False; [lia|]. intros ->. apply Hi. by left.
Qed.
Lemma chance_total H k : sum (map (chance H) (tuples H k)) = (2 ^ S H - 2) ^ k.
Proof.
  rewrite tuples_outcomes (sum_map_ext _ (weight (fun _ => coin H) 0)); [|intros; by rewrite -chance_weight]. rewrite sum_weight. rewrite (prod_const (2 ^ S H - 2)).
  - by rewrite map_length seq_length.
  - apply Forall_forall. intros y Hy. apply elem_of_list_fmap in Hy as (j & -> & Hj). pose proof (coin_all H). lia.
Qed.
Lemma chance_total_le H k : sum (map (chance H) (tuples H k)) <= 2 ^ (S H * k).
Proof. rewrite chance_total Nat.pow_mul_r. apply Nat.pow_le_mono_l. lia. Qed.
Lemma max_beyond g (l : list nat) : max_list l <= g + sum (map (fun h => h - g) l).
Proof. induction l as [|h l IH]; [cbn; lia|]. rewrite map_cons sum_cons. change (max_list (h :: l)) with (h `max` max_list l). lia. Qed.
Lemma chance_max H k js : Forall (fun j => j < k) js ->
  sum (map (fun hs => chance H hs * max_list (map (fun j => hs !!! j) js)) (tuples H k)) <= 2 ^ (S H * k) * (Nat.log2 (length js) + 2).
Proof.
  intros Hk. destruct (decide (length js = 0)) as [E0|E0].
  { destruct js; [|done]. rewrite (sum_map_ext _ (fun _ => 0)); [rewrite sum_map_const; lia|]. intros hs _. cbn. lia. }
  set (g := Nat.log2 (length js)). set (X := 2 ^ (S H * k)).
  transitivity (sum (map (fun hs => chance H hs * g + sum (map (fun j => chance H hs * (hs !!! j - g)) js)) (tuples H k))).
  - apply sum_map_le. intros hs _. rewrite sum_map_mul -Nat.mul_add_distr_l. apply Nat.mul_le_mono_l. etransitivity; [apply (max_beyond g)|]. rewrite map_map. done.
  - rewrite sum_map_add. rewrite (sum_map_ext (fun hs => chance H hs * g) (fun hs => g * chance H hs)); [|intros; lia]. rewrite sum_map_mul sum_swap.
    pose proof (chance_total_le H k) as HT. fold X in HT.
    assert (2 ^ g * sum (map (fun j => sum (map (fun hs => chance H hs * (hs !!! j - g)) (tuples H k))) js) <= length js * X) as HS.
    { rewrite -sum_map_mul -(sum_map_const X js). apply sum_map_le. intros j Hj. apply chance_beyond. rewrite Forall_forall in Hk. by apply Hk. }
    assert (length js <= 2 * 2 ^ g) as HL. { pose proof (Nat.log2_spec (length js) ltac:(lia)) as [_ Hs]. fold g in Hs. rewrite Nat.pow_succ_r' in Hs. lia. }
    assert (2 ^ g <> 0) as Hg by (by apply Nat.pow_nonzero). generalize dependent (sum (map (fun j => sum (map (fun hs => chance H hs * (hs !!! j - g)) (tuples H k))) js)). intros S HS.
    assert (S <= 2 * X). { apply (Nat.mul_le_mono_pos_l _ _ (2 ^ g)); [lia|]. etransitivity; [exact HS|]. nia. }
    generalize dependent (sum (map (chance H) (tuples H k))). intros T HT. nia.
Qed.
