(** * C74: how far slicing walks: proofs *)
From Verif Require Import Base ListModel ListSpec ListThm WalkModel WalkSpec WalkThm WalkThm2.
Local Open Scope py_scope.

Lemma tk_slice_loop out ind : forall n z p c s, takes s (slice_loop_c out ind n z p c) n.
Proof.
  induction n; intros; cbn [slice_loop_c]; [apply tk_ret|]. apply tk_tick.
  do 3 (apply tk_lfb; intros). apply IHn.
Qed.
Lemma tk_slice o start stop step s k n : a_list s o k n ->
  takes s (getitem_c o (ISlice start stop step))
    (if is_cll k then 0 else if Z.eqb (default 1%Z step) 0 then 0
     else Z.to_nat (List.last (slice_indices n start stop (default 1%Z step)) (-1) + 1)%Z).
Proof.
  intros H. pose proof H as (ob & Hob & Hk & Hn). unfold getitem_c. tobj Hob. 
  destruct (o_cls ob) eqn:Ek; cbn [is_cll].
  3: { unfold cll_getitem_c. tobj Hob. tsame. destruct (Nat.eqb _ _); apply tk_raise. }
  all: unfold ll_getitem_c; tobj Hob; tsame; destruct (Z.eqb _ 0); [apply tk_raise|];
    apply tk_lfb; intros; apply tk_end; apply tk_slice_loop.
Qed.

Lemma clamp_start_bound n st x : (0 <= n)%Z ->
  clamp_start n st x = slice_bound n st x (if bool_decide (st < 0) then n - 1 else 0)%Z.
Proof.
  intros Hn. unfold clamp_start, slice_bound. destruct x as [z|]; repeat case_bool_decide; repeat case_match; lia.
Qed.
Lemma clamp_stop_bound n st x : (0 <= n)%Z ->
  clamp_stop n st x = slice_bound n st x (if bool_decide (st < 0) then -1 else n)%Z.
Proof.
  intros Hn. unfold clamp_stop, slice_bound. destruct x as [z|]; repeat case_bool_decide; repeat case_match; lia.
Qed.
Lemma range_len_iff a b st j : st <> 0%Z ->
  j < range_len a b st <-> if bool_decide (st < 0)%Z then (b < a + Z.of_nat j * st)%Z else (a + Z.of_nat j * st < b)%Z.
Proof.
  intros Hst. unfold range_len. case_bool_decide as Hs.
  - rewrite (proj2 (Z.ltb_ge 0 st)) by lia. destruct (Z.ltb_spec b a) as [H|H]; [|split; [lia|nia]].
    assert (0 <= (a - b - 1) / (- st))%Z as H0 by (apply Z.div_pos; lia). split; intros Hj.
    + pose proof (Z.mul_div_le (a - b - 1) (- st) ltac:(lia)). nia.
    + assert (Z.of_nat j <= (a - b - 1) / (- st))%Z; [|lia]. apply Z.div_le_lower_bound; nia.
  - rewrite (proj2 (Z.ltb_lt 0 st)) by lia. destruct (Z.ltb_spec a b) as [H|H]; [|split; [lia|nia]].
    assert (0 <= (b - a - 1) / st)%Z as H0 by (apply Z.div_pos; lia). split; intros Hj.
    + pose proof (Z.mul_div_le (b - a - 1) st ltac:(lia)). nia.
    + assert (Z.of_nat j <= (b - a - 1) / st)%Z; [|lia]. apply Z.div_le_lower_bound; nia.
Qed.
Lemma selected_iff n start stop st i : st <> 0%Z ->
  selected n start stop st i <->
  exists j, j < range_len (clamp_start (Z.of_nat n) st start) (clamp_stop (Z.of_nat n) st stop) st
            /\ i = (clamp_start (Z.of_nat n) st start + Z.of_nat j * st)%Z.
Proof.
  intros Hst. unfold selected. cbv zeta. rewrite <- clamp_start_bound by lia.
  pose proof (clamp_stop_bound (Z.of_nat n) st stop ltac:(lia)) as Hb.
  split.
  - intros [(j & ->) H]. exists j. split; [|done]. apply range_len_iff; [done|]. revert H. rewrite Hb. by case_bool_decide.
  - intros (j & Hj & ->). split; [by exists j|]. apply range_len_iff in Hj; [|done]. revert Hj. rewrite Hb. by case_bool_decide.
Qed.
Lemma last_range a b st d : List.last (range_list a b st) d =
  match range_len a b st with 0 => d | S j => (a + Z.of_nat j * st)%Z end.
Proof.
  unfold range_list. destruct (range_len a b st) as [|j]; [done|]. rewrite seq_S, map_app. apply last_last.
Qed.
Lemma selected_range n start stop st i : st <> 0%Z -> selected n start stop st i -> (0 <= i < Z.of_nat n)%Z.
Proof.
  intros Hst. unfold selected. cbv zeta. intros [(j & ->) H]. revert H. unfold slice_bound.
  case_bool_decide; destruct start, stop; repeat case_bool_decide; nia.
Qed.
Lemma slice_walk n start stop st : st <> 0%Z ->
  let m := Z.to_nat (List.last (slice_indices n start stop st) (-1) + 1)%Z in
  m <= n /\ (forall i, selected n start stop st i -> ~ selected n start stop st (i + st)%Z -> m = Z.to_nat (i + 1)%Z)
  /\ ((forall i, ~ selected n start stop st i) -> m = 0).
Proof.
  intros Hst. cbv zeta. unfold slice_indices. rewrite last_range. set (a := clamp_start _ _ _). set (L := range_len _ _ _).
  split_and!.
  - destruct L as [|j] eqn:E; [cbn; lia|]. assert (selected n start stop st (a + Z.of_nat j * st)%Z) as H.
    { apply selected_iff; [done|]. exists j. fold a L. split; [lia|done]. }
    apply selected_range in H; [lia|done].
  - intros i Hi Hn. apply selected_iff in Hi as (j & Hj & ->); [|done]. fold a L in Hj |- *.
    assert (L = S j) as ->; [|done]. destruct (Nat.eq_dec L (S j)) as [|Hne]; [done|]. exfalso. apply Hn.
    apply selected_iff; [done|]. exists (S j). fold a L. split; [lia|]. lia.
  - intros Hn. destruct L as [|j] eqn:E; [done|]. exfalso. apply (Hn (a + Z.of_nat j * st)%Z). apply selected_iff; [done|].
    exists j. fold a L. split; [lia|done].
Qed.
