(** * The work of a SkipList is logarithmic on average (C72)

    Specification: SkipCostSpec.v (and SkipSpec.v).  Model: SkipModel.v; SkipCostModel.v is
    its search with the steps counted.  Proofs: SkipCostThm.v, SkipCostThm2.v (the steps of
    one search), SkipCostThm3.v (expectations), SkipCostThm4.v (histories). *)
From iris.proofmode Require Import proofmode.
From Verif Require Import Base ListModel SkipModel SkipSpec SkipThm SkipThm2 SkipThm3 SkipCostModel SkipCostSpec SkipCostThm SkipCostThm2 TreapAvgSpec TreapAvgThm SkipCostThm3 SkipCostThm4.
Local Open Scope py_scope.

(** The search that counts is the search of the model, for every state and value. *)
Theorem C72_same_search self v s : (let! r := search_c self v in ret r.1) s = search self v s.
Proof. apply search_erase. Qed.
Print Assumptions C72_same_search.

(** What the search for [x], with which [x in s], [s.insert(x)] and [s.remove(x)] begin, does
    after any history: it goes to the right once for every value up to [x] that no taller
    value hides from [x], and down from the top to the lowest level, or to the top of the
    tower of [x]. *)
Theorem C72_steps os x : Forall avoids_neg_inf os -> x <> NegInf ->
  exists rs s r right down, khistory os = Some (rs, s) /\ search_c 0 (PNum x) s = Ok (r, (right, down)) s /\
    let A := tafter os [] in
    right = visible (heads_upto x A) /\
    (x ∉ elems A -> down = theight A - 1) /\ (forall h, (x, h) ∈ A -> down = theight A - 1 - h).
Proof.
  intros Ho Hx. destruct (history_ok os Ho) as (s & E & HG). destruct (good_count 0 s _ x HG Hx) as (r & d & Es & H1 & H2).
  eexists _, s, r, _, d. split_and!; try done.
Qed.
Print Assumptions C72_steps.

(** [tuples H k] are all the outcomes with less than [H] heads at each of [k] insertions, each
    once; what they leave out of the total probability 1 vanishes as [H] grows: their share
    is [(1 - 2^-H)^k]. *)
Theorem C72_chances H k : (forall hs, hs ∈ tuples H k <-> length hs = k /\ Forall (fun h => h < H) hs) /\ NoDup (tuples H k) /\
  (forall hs, hs ∈ tuples H k -> chance H hs * 2 ^ (sum_list (map S hs)) = 2 ^ (S H * k)) /\
  sum_list (map (chance H) (tuples H k)) = (2 ^ S H - 2) ^ k.
Proof.
  split_and!; [apply outcomes_elem|apply outcomes_nodup| |apply chance_total]. intros hs [<- Hr]%outcomes_elem.
  induction Hr as [|h hs Hh Hr IH]; [cbn; by rewrite Nat.mul_0_r|]. rewrite map_cons sum_cons. cbn [chance length]. rewrite Nat.mul_succ_r (Nat.add_comm (S H * length hs)).
  rewrite (Nat.pow_add_r 2 (S h)) (Nat.pow_add_r 2 (S H)) -IH. replace (2 ^ S H) with (2 ^ (H - h) * 2 ^ S h) by (rewrite -Nat.pow_add_r; f_equal; lia). lia.
Qed.
Print Assumptions C72_chances.

(** The expected number of steps, to the right and down together, is at most
    [3 log2 n + 4] for every history and every [x], where [n] is the number of elements. *)
Theorem C72_expected_steps os x : Forall avoids_neg_inf os -> x <> NegInf ->
  let n := length (tafter os []) in
  exists steps : list nat -> nat,
    (forall hs, length hs = inserts_of os -> exists rs s r right down, khistory (with_heads os hs) = Some (rs, s) /\ length (tafter (with_heads os hs) []) = n /\
       search_c 0 (PNum x) s = Ok (r, (right, down)) s /\ steps hs = right + down) /\
    expectation_at_most (inserts_of os) steps (3 * Nat.log2 n + 4).
Proof.
  intros Ho Hx n.
  exists (fun hs => right_steps os x hs + match khistory (with_heads os hs) with Some (_, s) => match search_c 0 (PNum x) s with Ok (_, (_, d)) _ => d | _ => 0 end | None => 0 end).
  assert (forall hs, length hs = inserts_of os -> exists rs s r down, khistory (with_heads os hs) = Some (rs, s) /\
     search_c 0 (PNum x) s = Ok (r, (right_steps os x hs, down)) s /\ down <= levels os hs - 1) as HS.
  { intros hs Hl. destruct (C72_steps (with_heads os hs) x (with_heads_avoids _ _ Ho) Hx) as (rs & s & r & right & down & E & Es & -> & H1 & H2).
    exists rs, s, r, down. split_and!; try done. unfold levels. destruct (decide (x ∈ elems (tafter (with_heads os hs) []))) as [Hin|Hni]; [|by rewrite H1].
    apply elem_of_list_fmap in Hin as ([y h] & -> & Hin). rewrite (H2 h Hin). lia. }
  split.
  - intros hs Hl. destruct (HS hs Hl) as (rs & s & r & down & E & Es & _). exists rs, s, r, (right_steps os x hs), down. rewrite E Es. split_and!; try done.
    by rewrite (owners_fill os hs Hl) fill_length owners_length.
  - replace (3 * Nat.log2 n + 4) with (2 * (Nat.log2 n + 1) + (Nat.log2 n + 2)) by lia. apply expect_add; [apply expect_right|].
    eapply expect_le; [|apply expect_levels]. intros hs Hl. destruct (HS hs Hl) as (rs & s & r & down & E & Es & Hd). by rewrite E Es.
Qed.
Print Assumptions C72_expected_steps.
(** The expected answer of [get_height] is at most [log2 n + 3]. *)
Theorem C72_expected_height os : Forall avoids_neg_inf os ->
  let n := length (tafter os []) in
  exists height : list nat -> nat,
    (forall hs, length hs = inserts_of os -> exists rs, option_map fst (khistory (with_heads os hs ++ [KHeight])) = Some (rs ++ [KNat (height hs)])) /\
    expectation_at_most (inserts_of os) height (Nat.log2 n + 3).
Proof.
  intros Ho n. exists (levels os). split.
  - intros hs Hl. destruct (history_ok (with_heads os hs ++ [KHeight])) as (s & E & _).
    { apply Forall_app. split; [by apply with_heads_avoids|]. by constructor. }
    rewrite E tanswers_app. eexists. done.
  - replace (Nat.log2 n + 3) with ((Nat.log2 n + 2) + 1) by lia. eapply expect_le; [|apply expect_add; [apply expect_levels|apply (expect_const _ 1)]]. intros hs _. cbv beta. lia.
Qed.
Print Assumptions C72_expected_height.
(** The towers have at most one promotion per element on average. *)
Theorem C72_expected_promotions os : expectation_at_most (inserts_of os) (fun hs => sum_list (map snd (tafter (with_heads os hs) []))) (length (tafter os [])).
Proof. apply expect_sum_heads. Qed.
Print Assumptions C72_expected_promotions.
(** The average is needed: without heads a search passes every smaller value. *)
Theorem C72_unlucky os x : Forall avoids_neg_inf os -> x <> NegInf -> Forall (fun p => p.2 = 0) (tafter os []) ->
  exists rs s r, khistory os = Some (rs, s) /\ search_c 0 (PNum x) s = Ok (r, (length (filter (fun y => num_leb y x = true) (elems (tafter os []))), 0)) s.
Proof.
  intros Ho Hx H0. destruct (C72_steps os x Ho Hx) as (rs & s & r & right & down & E & Es & -> & H1 & H2).
  set (A := tafter os []) in *. assert (theight A = 1) as HT.
  { unfold theight. f_equal. clear -H0. induction H0 as [|p l Hp Hl IH]; [done|]. rewrite map_cons. change (p.2 `max` max_list (map snd l) = 0). by rewrite IH Hp. }
  assert (down = 0) as ->. { destruct (decide (x ∈ elems A)) as [Hin|Hni]; [|by rewrite H1 // HT]. apply elem_of_list_fmap in Hin as ([y h] & -> & Hin). rewrite (H2 h Hin) HT. lia. }
  exists rs, s, r. split; [done|]. rewrite Es. f_equal. f_equal. f_equal. clear -H0. unfold heads_upto, elems. induction H0 as [|[y h] A Hp HA IH]; [done|]. cbn in Hp. subst h.
  rewrite map_cons !filter_cons. cbn [fst]. destruct (decide (num_leb y x = true)); [|done]. rewrite map_cons. cbn [visible length snd]. rewrite IH bool_decide_eq_true_2 //.
  apply Forall_forall. intros h Hin. apply elem_of_list_fmap in Hin as (p & -> & Hin). apply elem_of_list_filter in Hin as [_ Hin]. rewrite Forall_forall in HA. by rewrite (HA p Hin).
Qed.
Print Assumptions C72_unlucky.

Definition C72_ops : list skop := [KInsert (PInt 20) 2; KInsert (PInt 77) 1; KRemove (PInt 3); KInsert (PInt 10) 0; KInsert (PInt 6) 0; KContains (PInt 6); KInsert (PInt 2) 0; KRemove (PInt 10)].
Example C72_example : Forall avoids_neg_inf C72_ops /\ Fin 77 <> NegInf /\ length (tafter C72_ops []) = 4 /\ inserts_of C72_ops = 5 /\
  exists rs s r, khistory C72_ops = Some (rs, s) /\ search_c 0 (PNum (Fin 77)) s = Ok (r, (2, 1)) s.
Proof. split_and!; [repeat constructor; done|done|done|done|]. eexists _, _, _. split; [by vm_compute|]. by vm_compute. Qed.
Example C72_example_absent : exists rs s r, khistory (with_heads C72_ops [0; 0; 0; 1; 0]) = Some (rs, s) /\ search_c 0 (PNum (Fin 50)) s = Ok (r, (2, 1)) s.
Proof. eexists _, _, _. split; [by vm_compute|]. by vm_compute. Qed.
Example C72_example_chances : tuples 2 2 = [[0; 0]; [0; 1]; [1; 0]; [1; 1]] /\ map (chance 2) (tuples 2 2) = [16; 8; 8; 4] /\ 2 ^ (3 * 2) = 64.
Proof. done. Qed.
