(** * Lists exactly as they are: proofs *)
From Verif Require Import Base ListModel ListRep ListCore ListCore2 ListSpec ListPure ListOps ListOps2 ListRun ListOps3 ListSim ListThm ListExactSpec.
Local Open Scope py_scope.

(** ** Slices with a negative step *)
Section Neg.
Context (vs : list pyval) (start stop : option Z) (st : Z) (Hst : (st < 0)%Z).
Let n := Z.of_nat (length vs).
Let a := clamp_start n st start.
Let b := clamp_stop n st stop.
Let ind := slice_indices (length vs) start stop st.
Lemma neg_start : a = slice_bound n st start (n - 1) /\ (-1 <= a < Z.max n 0 \/ a = -1)%Z.
Proof.
  unfold a, clamp_start, slice_bound. rewrite (proj2 (Z.ltb_lt st 0)), (bool_decide_eq_true_2 (st < 0)%Z) by done.
  assert (0 <= n)%Z by (unfold n; lia). destruct start as [z|]; [|lia].
  destruct (Z.ltb_spec z 0); [rewrite bool_decide_eq_true_2 by done|rewrite bool_decide_eq_false_2 by lia].
  - destruct (Z.ltb_spec (z + n) 0); lia.
  - destruct (Z.leb_spec n z); lia.
Qed.
Lemma neg_stop : b = slice_bound n st stop (-1) /\ (-1 <= b)%Z.
Proof.
  unfold b, clamp_stop, slice_bound. rewrite (proj2 (Z.ltb_lt st 0)), (bool_decide_eq_true_2 (st < 0)%Z) by done.
  assert (0 <= n)%Z by (unfold n; lia). destruct stop as [z|]; [|lia].
  destruct (Z.ltb_spec z 0); [rewrite bool_decide_eq_true_2 by done|rewrite bool_decide_eq_false_2 by lia].
  - destruct (Z.ltb_spec (z + n) 0); lia.
  - destruct (Z.leb_spec n z); lia.
Qed.
Let L := range_len a b st.
Lemma neg_len j : (b < a + Z.of_nat j * st)%Z <-> j < L.
Proof.
  unfold L, range_len. rewrite (proj2 (Z.ltb_ge 0 st)) by lia. destruct (Z.ltb_spec b a) as [H|H]; [|split; [nia|lia]].
  assert (0 <= (a - b - 1) / (- st))%Z as H0 by (apply Z.div_pos; lia).
  split; intros Hj.
  - assert (Z.of_nat j <= (a - b - 1) / (- st))%Z; [|lia]. apply Z.div_le_lower_bound; nia.
  - assert (Z.of_nat j <= (a - b - 1) / (- st))%Z as Hq by lia.
    pose proof (Z.mul_div_le (a - b - 1) (- st) ltac:(lia)). nia.
Qed.
Lemma neg_in z : z ∈ ind -> exists j, j < L /\ z = (a + Z.of_nat j * st)%Z /\ (0 <= z < n)%Z.
Proof.
  unfold ind, slice_indices, range_list. fold n a b L. intros (j & -> & Hj)%elem_of_list_fmap. apply elem_of_seq in Hj.
  exists j. assert (j < L) as Hl by lia. split; [done|]. split; [done|]. pose proof (proj2 (neg_len j) Hl).
  destruct neg_start as [_ ?], neg_stop as [_ ?]. nia.
Qed.
Lemma neg_le : L <= length vs.
Proof.
  destruct L as [|k] eqn:E; [lia|]. assert (k < L) as H%neg_len by lia. destruct neg_start as [_ ?], neg_stop as [_ ?].
  assert (Z.of_nat k <= - (Z.of_nat k * st))%Z by nia. assert (Z.of_nat k < n)%Z; [|unfold n in *; lia]. lia.
Qed.
Lemma py_slice_neg : py_slice vs start stop st = flat_map (fun i => at_list vs (Z.to_nat i)) ind.
Proof.
  unfold py_slice. cbv zeta. rewrite (bool_decide_eq_true_2 (st < 0)%Z) by done.
  fold n. rewrite <- (proj1 neg_start), <- (proj1 neg_stop).
  unfold ind, slice_indices, range_list. fold n a b L.
  pose proof neg_le as HL. replace (length vs) with (L + (length vs - L)) by lia.
  rewrite seq_app, flat_map_app.
  assert (flat_map (fun j : nat => if bool_decide (b < a + Z.of_nat j * st)%Z
     then match vs !! Z.to_nat (a + Z.of_nat j * st) with Some v => [v] | None => [] end else []) (seq (0 + L) (length vs - L)) = []) as ->.
  { assert (Forall (fun j => L <= j) (seq (0 + L) (length vs - L))) as HF by (apply Forall_seq; lia).
    induction HF as [|j l Hj _ IH]; [done|]. cbn [flat_map]. rewrite bool_decide_eq_false_2; [done|]. rewrite neg_len. lia. }
  rewrite app_nil_r. assert (Forall (fun j => j < L) (seq 0 L)) as HF by (apply Forall_seq; lia).
  induction HF as [|j l Hj _ IH]; [done|]. cbn [flat_map map]. rewrite IH. rewrite bool_decide_eq_true_2 by (by apply neg_len). done.
Qed.
Lemma pick_last m : forall c vs', (forall z, z ∈ ind -> c + Z.of_nat m <= z)%Z -> (c + Z.of_nat m)%Z ∈ ind ->
  pick ind (S m) c vs' = match vs' !! m with Some v => [v] | None => [] end.
Proof.
  induction m as [|m IH]; intros c [|v vs'] Hle Hin; try done.
  - cbn. rewrite existsb_elem, bool_decide_eq_true_2; [by destruct vs'|]. by replace (c + Z.of_nat 0)%Z with c in Hin by lia.
  - change (pick ind (S (S m)) c (v :: vs')) with (if existsb (Z.eqb c) ind then v :: pick ind (S m) (c + 1) vs' else pick ind (S m) (c + 1) vs').
    rewrite existsb_elem, bool_decide_eq_false_2.
    + rewrite IH; [done| |]; replace (c + 1 + Z.of_nat m)%Z with (c + Z.of_nat (S m))%Z by lia; done.
    + intros Hc%Hle. lia.
Qed.
Lemma slice_pick_neg :
  let k := Z.to_nat (List.last ind (-1)%Z + 1) in
  pick ind k 0 vs = taken_slice vs start stop st /\ k <= length vs.
Proof.
  cbv zeta. unfold taken_slice. rewrite bool_decide_eq_true_2 by done. rewrite py_slice_neg.
  destruct (decide (ind = [])) as [E|E]; [rewrite E; by split; [|cbn; lia]|].
  destruct (exists_last E) as (l & m & El).
  assert (m ∈ ind) as Hm by (rewrite El; set_solver). pose proof (neg_in _ Hm) as (jm & Hjm & Em & Hm0).
  assert (forall z, z ∈ ind -> m <= z)%Z as Hmin.
  { intros z Hz. destruct (neg_in _ Hz) as (j & Hj & -> & _).
    assert (m = (a + Z.of_nat (L - 1) * st)%Z) as ->; [|nia].
    assert (last ind = Some m) as Hl by (rewrite El; by rewrite last_snoc).
    revert Hl. unfold ind, slice_indices, range_list. fold n a b L. replace L with (S (L - 1)) at 1 by lia.
    rewrite seq_S, map_app. cbn [map]. rewrite last_snoc. intros [= <-]. done. }
  assert (List.last ind (-1)%Z = m) as Hl by (rewrite El; apply last_last). rewrite Hl.
  split; [|unfold n in *; lia].
  replace (Z.to_nat (m + 1)) with (S (Z.to_nat m)) by lia. rewrite (pick_last (Z.to_nat m) 0 vs).
  2:{ intros z Hz%Hmin. lia. }
  2:{ replace (0 + Z.of_nat (Z.to_nat m))%Z with m by lia. done. }
  rewrite El, flat_map_app. cbn [flat_map]. rewrite app_nil_r. unfold at_list.
  destruct (lookup_lt_is_Some_2 vs (Z.to_nat m)) as [v Hv]; [unfold n in *; lia|]. rewrite Hv. by rewrite last_snoc.
Qed.
End Neg.

Lemma slice_spec_neg k s o g start stop st : rep k s o g -> is_cll k = false -> (st < 0)%Z ->
  wp (ll_getitem o (ISlice start stop (Some st))) (fun r s' => exists c, r = GList c /\
     created k s c (taken_slice (vals g) start stop st) s') s.
Proof.
  intros Hr Hcll Hst. destruct (obj_eq Hr) as (ob & Hob & Hk & Hlen & Hhd & _).
  unfold ll_getitem. wget_obj Hob. apply wp_bind.
  eapply wp_intro.
  { unfold check_index. erewrite bind_ok by (by apply get_obj_ok). done. }
  cbn [default from_option id]. rewrite (proj2 (Z.eqb_neq st 0)) by lia. rewrite Hk, Hlen.
  apply wp_bind. eapply wp_mono; [apply create_instance_spec|].
  intros c s1 (-> & Hr1 & Hm1 & Hl1 & Hn1). cbn beta.
  destruct (slice_pick_neg (vals g) start stop st Hst) as [Hp Hle]. rewrite map_length in Hp, Hle.
  assert (rep k s1 o g) as Hr'.
  { eapply rep_frame; [exact Hr|exact Hm1|set_solver|set_solver]. }
  destruct (decide (g = [])) as [->|Hne].
  { cbn [length] in *. assert (Z.to_nat (List.last (slice_indices 0 start stop st) (-1)%Z + 1) = 0) as H0 by lia.
    rewrite H0. cbn [slice_loop]. apply wp_bind, wp_ret, wp_ret. eexists. split; [done|].
    rewrite H0 in Hp. assert (taken_slice (vals ([] : list gn)) start stop st = []) as -> by (symmetry; exact Hp).
    eapply created_from_appended; [done|done|done|]. by apply appended_refl. }
  rewrite Hhd, <- (endp_hd k) by done. apply wp_bind.
  eapply wp_mono.
  { eapply (slice_loop_spec k _ _ _ _ _ g s1 []); [by eapply rep_seg|exact Hle|done|by left|set_solver|by eapply rep_stored_list]. }
  intros ? s2 Ha. apply wp_ret. eexists. split; [done|]. rewrite <- Hp.
  by eapply created_from_appended.
Qed.
Lemma slicing_one k c w op out w' :
  Rel [] (mcls k) c w -> slicing_step k w op = Some (out, w') ->
  exists c', model_step k c op = Some (out, c') /\ Rel [] (mcls k) c' w'.
Proof.
  intros HR Hs.
  assert ((exists x start stop step, op = LGet x (ASlice start stop step) /\ k <> Circular) \/ slicing_step k w op = spec_step k w op)
    as [(x & start & stop & step & -> & Hk)|E].
  { destruct op as [| | | | | | | | | | | | | | | |x i| | | | | | | ]; try by right. destruct i as [|p q r|]; [by right| |by right].
    destruct k; [left; by eexists _, _, _, _..|by right]. }
  2:{ rewrite E in Hs. by eapply sim_one. }
  assert (slicing_step k w (LGet x (ASlice start stop step)) = (vs ← content w x;
      if bool_decide (default 1 step = 0)%Z then Some (RExc ValueError, w)
      else Some (RNew 1, w ++ [Some (taken_slice vs start stop (default 1 step)%Z)]))) as E by (by destruct k).
  rewrite E in Hs. clear E. destruct (content w x) as [vs|] eqn:Hx; cbn [mbind option_bind] in Hs; [|done].
  destruct (decide (default 1 step < 0)%Z) as [Hneg|Hpos].
  2:{ eapply sim_one; [done|]. cbn [spec_step]. rewrite Hx. cbn [mbind option_bind].
      assert (slice_pos vs start stop (default 1 step)%Z = taken_slice vs start stop (default 1 step)%Z \/ default 1%Z step = 0%Z) as Hsl.
      { destruct (decide (default 1%Z step = 0%Z)); [by right|]. left. unfold taken_slice. rewrite bool_decide_eq_false_2 by done. apply slice_pos_py. lia. }
      destruct k; [| |done]; (case_bool_decide; [done|]); rewrite (bool_decide_eq_false_2 (_ < 0)%Z) by done; destruct Hsl as [-> |]; done. }
  rewrite bool_decide_eq_false_2 in Hs by lia. injection Hs as <- <-.
  destruct (rel_var _ _ _ _ _ _ HR Hx) as (o & g & Ho & Hr & Hv & Hup). cbn [model_step]. rewrite Ho. cbn [mbind option_bind].
  assert (is_cll (mcls k) = false) as Hcll by (by destruct k).
  assert (getitem o (ISlice start stop step) (fst c) = ll_getitem o (ISlice start stop (Some (default 1%Z step))) (fst c)) as Hgi.
  { destruct (obj_eq Hr) as (ob & Hob & Hkb & _). unfold getitem. erewrite bind_ok by (by apply get_obj_ok). rewrite Hkb.
    destruct k; [| |done]; by destruct step. }
  pose proof (slice_spec_neg _ _ _ _ start stop (default 1%Z step) Hr Hcll Hneg) as Hw.
  apply wp_elim in Hw as (r & s' & Hm & cc & -> & Hc). rewrite <- Hgi in Hm.
  eexists. split; [cbn [mix]; rewrite (call_ok _ _ obs_get _ _ Hm); reflexivity|]. cbn [obs_get snd fst]. destruct c. rewrite <- Hv. by eapply rel_new.
Qed.
Theorem slicing_refines k ops : forall c w outs w',
  Rel [] (mcls k) c w -> slicing_run k w ops = Some (outs, w') ->
  exists c', model_run k c ops = Some (outs, c') /\ Rel [] (mcls k) c' w'.
Proof.
  induction ops as [|op ops IH]; intros c w outs w' HR Hs; cbn [slicing_run model_run] in *.
  { injection Hs as <- <-. by exists c. }
  destruct (slicing_step k w op) as [[out w1]|] eqn:H1; cbn [mbind option_bind] in Hs; [|done].
  destruct (slicing_run k w1 ops) as [[os w2]|] eqn:H2; cbn [mbind option_bind] in Hs; [|done].
  injection Hs as <- <-.
  destruct (slicing_one _ _ _ _ _ _ HR H1) as (c1 & -> & HR1). cbn [mbind option_bind].
  destruct (IH _ _ _ _ HR1 H2) as (c2 & -> & HR2). by exists c2.
Qed.

(** ** Item assignment in a circular list *)
Definition keeps {A} (P : st -> Prop) (m : M st A) : Prop :=
  forall s, P s -> match m s with Ok _ s' | Exc _ s' => P s' | Diverge => True end.
Lemma keeps_bind {A B} P (m : M st A) (k : A -> M st B) : keeps P m -> (forall a, keeps P (k a)) -> keeps P (bind m k).
Proof. intros Hm Hk s Hs. unfold bind. specialize (Hm s Hs). destruct (m s) as [a s'|e s'|]; [|done|done]. by apply Hk. Qed.
Lemma keeps_ret {A} P (a : A) : keeps P (ret a).
Proof. by intros s. Qed.
Lemma keeps_raise {A} P e : keeps P (@raise st A e).
Proof. by intros s. Qed.

(** The list [o] is circular with first node [h], and there are at least [N] nodes. *)
Definition head_is (o : nat) (h : option nat) (N : nat) (s : st) : Prop :=
  N <= length (s_nodes s) /\ exists ob, s_objs s !! o = Some ob /\ o_head ob = h /\ o_cls ob = CCLL.
Section Keeps.
Context (o : nat) (h : option nat) (N : nat).
Notation K := (keeps (head_is o h N)).
Lemma k_get_cell l : K (get_cell l).
Proof. intros s Hs. unfold get_cell. by destruct (_ !! _). Qed.
Lemma k_put_cell l c : K (put_cell l c).
Proof. intros s [Hn Hs]. split; [cbn; by rewrite insert_length|done]. Qed.
Lemma k_get_obj o' : K (get_obj o').
Proof. intros s Hs. unfold get_obj. by destruct (_ !! _). Qed.
Lemma k_deref {A} (x : option A) : K (deref x).
Proof. destruct x; [apply keeps_ret|apply keeps_raise]. Qed.
(** Every object read from [o] has the head [h]. *)
Lemma k_own {B} (k : lobj -> M st B) : (forall ob, o_head ob = h -> o_cls ob = CCLL -> K (k ob)) -> K (bind (get_obj o) k).
Proof.
  intros Hk s Hs. unfold bind, get_obj. pose proof Hs as [_ (ob & -> & Hob & Hc)]. by apply Hk.
Qed.
Lemma k_put_own ob : o_head ob = h -> o_cls ob = CCLL -> K (put_obj o ob).
Proof.
  intros Hh Hc s [Hn (b & Hb & _)]. split; [done|]. exists ob. cbn. split; [|done]. apply list_lookup_insert. by eapply lookup_lt_Some.
Qed.
Lemma k_set_data_raw l v : K (set_data_raw l v).
Proof. apply keeps_bind; [apply k_get_cell|]. intros. apply k_put_cell. Qed.
Lemma k_set_data l v : K (set_data l v).
Proof. unfold set_data. destruct (validate_item v); [apply keeps_raise|]. apply keeps_bind; [apply k_get_cell|]. intros. apply k_put_cell. Qed.
Lemma k_get_data l : K (get_data l).
Proof. apply keeps_bind; [apply k_get_cell|]. intros. apply keeps_ret. Qed.
Lemma k_get_next l : K (get_next l).
Proof. apply keeps_bind; [apply k_get_cell|]. intros. apply keeps_ret. Qed.
Lemma k_set_next l n : K (set_next l n).
Proof.
  apply keeps_bind; [apply k_get_cell|]. intros c. destruct n; [|apply k_put_cell]. destruct (c_dbl c); [|apply k_put_cell].
  apply keeps_bind; [apply k_get_cell|]. intros cx. destruct (c_dbl cx); [|apply keeps_raise].
  apply keeps_bind; [apply k_put_cell|]. intros _. apply keeps_bind; [apply k_get_cell|]. intros. apply k_put_cell.
Qed.
Lemma k_assert b : K (py_assert b).
Proof. destruct b; [apply keeps_ret|apply keeps_raise]. Qed.
Lemma k_check_item v : K (check_item v).
Proof. unfold check_item. destruct (validate_item v); [apply keeps_raise|apply keeps_ret]. Qed.
Lemma k_check_index o' i a b : K (check_index o' i a b).
Proof. apply keeps_bind; [apply k_get_obj|]. intros x. destruct (validate_index _ _ _ _ _); [apply keeps_raise|apply keeps_ret]. Qed.
Lemma k_cll_remove_node p n : K (cll_remove_node o p n).
Proof.
  apply k_own. intros ob Hob Hc. apply keeps_bind.
  - destruct p as [p|].
    + apply keeps_bind; [apply k_get_next|]. intros. apply k_set_next.
    + apply keeps_bind; [apply k_deref|]. intros hd. destruct (Nat.eqb _ _); [apply k_set_data_raw|].
      apply keeps_bind; [apply k_get_next|]. intros. apply keeps_bind; [apply k_deref|]. intros.
      apply keeps_bind; [apply k_get_data|]. intros. apply keeps_bind; [apply k_set_data|]. intros _.
      apply keeps_bind; [apply k_get_next|]. intros. apply k_set_next.
  - intros _. apply k_own. intros ob' Hob' Hc'. by apply k_put_own.
Qed.
Lemma k_remove_node p n : K (remove_node o p n).
Proof. apply k_own. intros ob _ ->. apply k_cll_remove_node. Qed.
Lemma k_get_node_loop i : forall p c, K (get_node_loop i p c).
Proof.
  induction i as [|i IH]; intros p c; cbn; [apply keeps_ret|].
  apply keeps_bind; [apply k_deref|]. intros. apply keeps_bind; [apply k_get_next|]. intros. apply IH.
Qed.
Lemma k_get_node i : K (get_node o i).
Proof. apply k_own. intros ob _ ->. apply keeps_bind; [apply k_get_obj|]. intros. apply k_get_node_loop. Qed.
Lemma k_remove_idx i : K (remove_idx o i).
Proof.
  apply keeps_bind; [apply k_get_node|]. intros [p [c|]]; cbn.
  - apply keeps_bind; [apply keeps_ret|]. intros. apply k_remove_node.
  - apply keeps_bind; [apply keeps_raise|]. intros. apply k_remove_node.
Qed.
Lemma k_delitem i : K (delitem o i).
Proof.
  apply k_own. intros ob _ ->. cbn [is_cll]. apply keeps_bind; [apply k_check_index|]. intros _.
  destruct i; try apply keeps_raise. destruct (Nat.eqb _ _); [apply keeps_ret|apply k_remove_idx].
Qed.
Lemma k_is_empty : K (ll_is_empty o).
Proof. apply keeps_bind; [apply k_get_obj|]. intros. apply keeps_ret. Qed.
Lemma k_len : K (ll_len o).
Proof. apply keeps_bind; [apply k_get_obj|]. intros. apply keeps_ret. Qed.
Lemma k_remove_front : K (remove_front o).
Proof. apply keeps_bind; [apply k_is_empty|]. intros []; [apply keeps_ret|apply k_delitem]. Qed.
Lemma k_remove_end : K (remove_end o).
Proof.
  apply keeps_bind; [apply k_is_empty|]. intros []; [apply keeps_ret|]. apply keeps_bind; [apply k_len|]. intros. apply k_delitem.
Qed.
Lemma k_remove_loop v all n : forall f p c, K (remove_value_loop o v all n f p c).
Proof.
  induction n as [|n IH]; intros f p c; cbn [remove_value_loop]; [apply keeps_ret|]. destruct (negb all && f); [apply keeps_ret|].
  apply keeps_bind; [apply k_deref|]. intros c'. apply keeps_bind; [apply k_get_data|]. intros d. destruct (py_eq d v).
  - apply keeps_bind; [apply k_remove_node|]. intros _. apply keeps_bind; [apply k_get_obj|]. intros ob.
    apply keeps_bind; [destruct p; [apply k_get_next|apply keeps_ret]|]. intros. apply IH.
  - apply keeps_bind; [apply k_get_next|]. intros. apply IH.
Qed.
Lemma k_remove v all : K (remove o v all).
Proof.
  destruct all; [|apply keeps_raise]. apply keeps_bind; [apply k_check_item|]. intros _.
  apply keeps_bind; [apply k_get_obj|]. intros. apply k_remove_loop.
Qed.
Lemma k_iter n : forall c, K (iter_from n c).
Proof.
  induction n as [|n IH]; intros c; cbn; [apply keeps_ret|]. apply keeps_bind; [apply k_deref|]. intros.
  apply keeps_bind; [apply k_get_data|]. intros. apply keeps_bind; [apply k_get_next|]. intros.
  apply keeps_bind; [apply IH|]. intros. apply keeps_ret.
Qed.
Lemma k_to_list : K (to_list o).
Proof. apply keeps_bind; [apply k_get_obj|]. intros. apply k_iter. Qed.
Lemma k_count v : K (count o v).
Proof. apply keeps_bind; [apply k_get_obj|]. intros. apply keeps_bind; [apply k_to_list|]. intros. apply keeps_ret. Qed.
Lemma k_contains v : K (contains o v).
Proof. apply k_own. intros ob _ ->. apply keeps_bind; [apply k_to_list|]. intros. apply keeps_ret. Qed.
Lemma k_getitem i : K (getitem o (mix i)).
Proof.
  apply k_own. intros ob _ ->. apply keeps_bind; [apply k_get_obj|]. intros b. apply keeps_bind; [apply k_check_index|]. intros _.
  destruct (Nat.eqb _ _); [apply keeps_raise|]. destruct i as [z| |]; cbn [mix]; try apply keeps_raise.
  apply keeps_bind; [apply k_get_obj|]. intros ob'. apply keeps_bind; [apply k_check_index|]. intros _.
  destruct (Z.eqb _ _); [apply keeps_raise|]. apply keeps_bind; [apply k_get_node|]. intros.
  apply keeps_bind; [apply k_deref|]. intros. apply keeps_bind; [apply k_get_data|]. intros. apply keeps_ret.
Qed.
Lemma k_replace_value i v : K (replace_value o i v).
Proof.
  apply keeps_bind; [apply k_assert|]. intros _. apply keeps_bind; [apply k_get_node|]. intros.
  apply keeps_bind; [apply k_deref|]. intros. apply k_set_data.
Qed.
End Keeps.

Lemma keeps_call {A} P (m : M st A) f c out c' : keeps P m -> P (fst c) -> call m c f = Some (out, c') -> P (fst c').
Proof.
  intros Hk Hp. specialize (Hk _ Hp). unfold call. destruct (m (fst c)); [|..]; [intros [= <- <-]; done|intros [= <- <-]; done|done].
Qed.
Lemma model_env k c op out c' : model_step k c op = Some (out, c') -> exists l, snd c' = snd c ++ l.
Proof.
  assert (forall A (m : M st A) f, call m c f = Some (out, c') -> exists l, snd c' = snd c ++ l) as H.
  { intros A m f. unfold call. destruct (m (fst c)); [|..|done]; intros [= <- <-]; cbn; [eauto|exists []; by rewrite app_nil_r]. }
  destruct op; cbn [model_step]; repeat match goal with |- context [snd c !! ?x] => destruct (snd c !! x); cbn [mbind option_bind]; [|done] end; apply H.
Qed.
Lemma rel_single k s o g : rep k s o g -> Rel [] k (s, [o]) [Some (vals g)].
Proof.
  intros Hr. destruct (obj_eq Hr) as (ob & Hob & _). split; cbn [fst snd].
  - done.
  - apply NoDup_singleton.
  - intros o' ->%elem_of_list_singleton. by eapply lookup_lt_Some.
  - intros k' o' g' Hin. by apply elem_of_nil in Hin.
  - exists (fun _ => g). split.
    + intros [|x] vs; [|done]. intros [= <-]. exists o. split; [done|]. split; [done|]. split; [done|]. intros k' o' g' l Hin. by apply elem_of_nil in Hin.
    + intros [|x] [|y] vs ws l Hne; try done.
Qed.

(** The running program with one variable is the ring [r]. *)
Definition ring_rel (c : conf) (r : ring) : Prop :=
  exists o g h, snd c = [o] /\ rep CCLL (fst c) o g /\ vals g = elems r
    /\ head_is o h (match h with Some l => S l | None => 0 end) (fst c)
    /\ (elems r = [] -> node_left r = bool_decide (h <> None)).
Lemma ring_rel_intro s o g ob r : rep CCLL s o g -> vals g = elems r -> s_objs s !! o = Some ob ->
  (forall l, o_head ob = Some l -> l < length (s_nodes s)) -> (elems r = [] -> node_left r = bool_decide (o_head ob <> None)) ->
  ring_rel (s, [o]) r.
Proof.
  intros Hr Hv Hob Hl Hf. exists o, g, (o_head ob). split; [done|]. split; [done|]. split; [done|]. split; [|done].
  destruct (obj_eq Hr) as (ob' & Hob' & Hc & _). assert (ob' = ob) as -> by congruence. split; [|by exists ob].
  destruct (o_head ob) as [l|]; [by apply Hl|lia].
Qed.
Lemma ring_rel_ne c o g r : snd c = [o] -> rep CCLL (fst c) o g -> vals g = elems r -> elems r <> [] -> ring_rel c r.
Proof.
  intros Hc Hr Hv Hne. destruct (obj_eq Hr) as (ob & Hob & _ & _ & Hhd & _). destruct c as [s e]. cbn in *. subst e.
  assert (g <> []) as Hg by (intros ->; by rewrite <- Hv in Hne).
  eapply ring_rel_intro; [done|done|done| |done]. intros l. rewrite (Hhd Hg). destruct g as [|n g]; [done|]. intros [= <-].
  eapply rep_bound; [done|]. set_solver.
Qed.

Lemma ring_set c r i v out r' : ring_rel c r -> ring_step r (LSet 0 i v) = Some (out, r') ->
  exists c', model_step Circular c (LSet 0 i v) = Some (out, c') /\ ring_rel c' r'.
Proof.
  intros HR Hs. pose proof HR as (o & g & h & Hc & Hr & Hv & Hh & Hf). destruct c as [s e]. cbn [fst snd] in *. subst e.
  cbn [ring_step] in Hs. cbn [model_step snd]. change ([o] !! 0) with (Some o). cbn [mbind option_bind].
  destruct (obj_eq Hr) as (ob & Hob & Hk & Hlen & Hhd & _).
  pose proof (check_index_ok Circular s o g i Hr) as Hci.
  assert (length (elems r) = length g) as Hl by (by rewrite <- Hv, map_length). rewrite Hl in Hs.
  assert (forall e, setitem o (mix i) v s = Exc e s -> call (setitem o (mix i) v) (s, [o]) obs_unit = Some (RExc e, (s, [o]))) as Hexc.
  { intros e He. by rewrite (call_exc _ (s, [o]) obs_unit e s He). }
  destruct (bad_index Circular (length g) i) as [e|] eqn:Hb.
  { injection Hs as <- <-. exists (s, [o]). split; [|done]. apply Hexc. unfold setitem. erewrite bind_ok by (by apply get_obj_ok). by apply bind_exc. }
  destruct (bad_index_none _ _ _ Hb) as (z & -> & Hz & _). cbn [mix the_int] in Hs, Hexc, Hci |- *.
  assert (setitem o (IInt z) v s = replace_value o (Z.to_nat (if Nat.eqb (length g) 0 then 0 else z mod Z.of_nat (length g))%Z) v s) as Hset.
  { unfold setitem. erewrite bind_ok by (by apply get_obj_ok). erewrite bind_ok by exact Hci. rewrite Hk, Hlen. done. }
  destruct (bool_decide_reflect (v = PNone)) as [Hn|Hn].
  { injection Hs as <- <-. exists (s, [o]). split; [|done]. apply Hexc. rewrite Hset. subst v. done. }
  assert (py_assert (S := st) (match v with PNone => false | _ => true end) s = Ok tt s) as Ha by (by destruct v).
  destruct (bool_decide_reflect (elems r = [])) as [He|He].
  - assert (g = []) as -> by (destruct g; [done|by rewrite <- Hv in He]). cbn [length Nat.eqb] in Hset. change (Z.to_nat 0) with 0 in Hset.
    unfold replace_value in Hset. erewrite bind_ok in Hset by exact Ha.
    destruct Hh as [HN (ob' & Hob' & Hh & _)]. assert (ob' = ob) as -> by congruence.
    assert (get_node o 0 s = Ok (None, h) s) as Hgn.
    { unfold get_node. erewrite bind_ok by (by apply get_obj_ok). rewrite Hk. unfold ll_get_node. erewrite bind_ok by (by apply get_obj_ok). by rewrite Hh. }
    erewrite bind_ok in Hset by exact Hgn. cbn [snd] in Hset. rewrite (Hf He) in Hs. destruct h as [l|].
    + rewrite bool_decide_eq_true_2 in Hs by done. cbn [negb andb] in Hs. cbn [deref] in Hset. erewrite bind_ok in Hset by done.
      unfold set_data in Hset. destruct (validate_item v) as [e|].
      { injection Hs as <- <-. exists (s, [o]). split; [|done]. by apply Hexc. }
      injection Hs as <- <-.
      destruct (lookup_lt_is_Some_2 (s_nodes s) l HN) as [cl Hcl]. erewrite bind_ok in Hset by (by apply get_cell_ok).
      eexists. split; [by rewrite (call_ok _ (s, [o]) obs_unit _ _ Hset)|]. cbn [obs_unit snd fst app].
      rewrite He. change (<[Z.to_nat (z mod Z.of_nat (length (@nil pyval))):=norm_item v]> (@nil pyval)) with (@nil pyval). eapply (ring_rel_intro _ _ [] ob); cbn.
      * split; [|done|constructor|constructor]. exists (o_head ob), (o_tail ob). split_and!; [|done|done]. transitivity (Some ob); [exact Hob|]. destruct ob. cbn in *. by subst.
      * done.
      * done.
      * intros l'. rewrite Hh. intros [= <-]. by rewrite insert_length.
      * intros _. rewrite Hh. by rewrite bool_decide_eq_true_2.
    + rewrite bool_decide_eq_false_2 in Hs by (by intros []). cbn in Hs. injection Hs as <- <-. exists (s, [o]). split; [|done]. by apply Hexc.
  - cbn [andb] in Hs. assert (g <> []) as Hg by (intros ->; by rewrite <- Hv in He).
    assert (content [Some (elems r)] 0 = Some (elems r)) as Hco by done.
    destruct (sim_one [] Circular (s, [o]) [Some (elems r)] (LSet 0 (AInt z) v) out [Some (elems r')]) as (c' & Hm & HR').
    { rewrite <- Hv. by apply rel_single. }
    { cbn [spec_step]. rewrite Hco. cbn [mbind option_bind]. rewrite Hl, Hb. cbn [the_int].
      rewrite (bool_decide_eq_false_2 (elems r = [])), (bool_decide_eq_false_2 (v = PNone)) by done. cbn [orb].
      destruct (validate_item v); injection Hs as <- <-; done. }
    exists c'. cbn [model_step snd] in Hm. change ([o] !! 0) with (Some o) in Hm. cbn [mbind option_bind mix] in Hm. split; [done|].
    assert (elems r' <> []) as Hne.
    { destruct (validate_item v); injection Hs as <- <-; cbn; [done|]. intros Hnil%(f_equal length). rewrite insert_length, Hl in Hnil. by destruct g. }
    destruct (rel_var _ _ _ _ 0 (elems r') HR' eq_refl) as (o' & g' & Ho' & Hr' & Hv' & _).
    destruct (model_env Circular (s, [o]) (LSet 0 (AInt z) v) out c') as [l El]; [done|].
    pose proof (rel_len _ _ _ _ HR') as Hlen'. rewrite El in Hlen', Ho'. cbn in Hlen', Ho'. destruct l; [|done]. injection Ho' as <-.
    exact (ring_rel_ne c' o g' r' El Hr' Hv' Hne).
Qed.
Lemma rotate_empty s o d right : rep CCLL s o [] -> (0 <= d)%Z ->
  exists s' ob, rotate_inplace o (Some d) right s = Ok tt s' /\ s_objs s' !! o = Some ob /\ o_head ob = None.
Proof.
  intros Hr Hd. destruct (obj_eq Hr) as (ob & Hob & Hk & Hlen & _). cbn [length] in Hlen.
  pose proof (lookup_lt_Some _ _ _ Hob) as Hlt.
  set (e := LObj CCLL None None 0).
  set (s1 := St (s_nodes s) ((s_objs s ++ [e]) ++ [e])).
  assert (s_objs s1 !! o = Some ob) as Hob1. { cbn. by do 2 (apply lookup_app_l_Some). }
  assert (s_objs s1 !! length (s_objs s) = Some e) as He1.
  { cbn. apply lookup_app_l_Some. by rewrite lookup_app_r, Nat.sub_diag by lia. }
  assert (s_objs s1 !! S (length (s_objs s)) = Some e) as He2.
  { cbn. rewrite lookup_app_r by (rewrite app_length; cbn; lia). rewrite app_length. cbn. by replace (S (length (s_objs s)) - (length (s_objs s) + 1)) with 0 by lia. }
  assert (rotate o d right s = Ok (S (length (s_objs s))) s1) as Hrot.
  { unfold rotate. erewrite bind_ok by (by apply get_obj_ok). rewrite Hlen.
    assert (calibrate 0 d right = 0%Z) as -> by (by destruct right).
    erewrite (bind_ok _ _ s (length (s_objs s), S (length (s_objs s))) s1).
    2:{ unfold split. erewrite bind_ok by (by apply get_obj_ok).
        erewrite bind_ok. 2:{ unfold check_index. erewrite bind_ok by (by apply get_obj_ok). rewrite Hk. done. }
        rewrite Hk, Hlen. cbn [is_cll Nat.eqb]. unfold split_at. erewrite bind_ok by (by apply get_obj_ok). rewrite Hk, Hlen.
        unfold create_instance. erewrite bind_ok by done. erewrite bind_ok by done. cbn [Nat.eqb]. unfold ret. f_equal. f_equal.
        cbn. rewrite app_length. cbn. lia. }
    cbn [fst snd]. erewrite (bind_ok _ _ s1 tt s1); [done|].
    unfold extend. erewrite bind_ok by (by apply get_obj_ok). erewrite bind_ok by (by apply get_obj_ok).
    change (is_instance (o_cls e) (o_cls e)) with true. change (o_cls e) with CCLL. cbv iota. unfold cll_extend. by erewrite bind_ok by (by apply get_obj_ok). }
  eexists _, (set_head ob None). split.
  - unfold rotate_inplace. erewrite (bind_ok _ _ s d s).
    2:{ unfold check_distance. by rewrite (proj2 (Z.ltb_ge d 0)). }
    erewrite bind_ok by exact Hrot. erewrite bind_ok by (by apply get_obj_ok). erewrite bind_ok by (by apply get_obj_ok).
    rewrite Hk. done.
  - split; [|done]. cbn. apply list_lookup_insert. cbn. rewrite !app_length. lia.
Qed.
Lemma ring_other c r op out r' : ring_rel c r -> single_list_call op -> not_setitem op -> ring_step r op = Some (out, r') ->
  exists c', model_step Circular c op = Some (out, c') /\ ring_rel c' r'.
Proof.
  intros HR Hop Hns Hs. pose proof HR as (o & g & h & Hc & Hr & Hv & Hh & Hf). destruct c as [s e]. cbn [fst snd] in *. subst e.
  destruct (single_total Circular op (elems r) Hop (fun _ => Hns)) as (out' & vs' & Hsp).
  assert (out' = out /\ elems r' = vs' /\ node_left r' = match op with
        | LClear _ => false
        | LRotate _ (Some d) _ => node_left r && bool_decide (d < 0)%Z || negb (bool_decide (elems r = []))
        | _ => node_left r || negb (bool_decide (elems r = []))
        end) as (-> & Hv' & Hl').
  { unfold ring_step in Hs. rewrite Hsp in Hs. cbn [mbind option_bind] in Hs. destruct op; try done; cbn in Hs; by injection Hs as <- <-. }
  clear Hs. destruct (sim_one [] Circular (s, [o]) [Some (elems r)] op out [Some vs']) as (c' & Hm & HR'); [rewrite <- Hv; by apply rel_single|done|].
  exists c'. split; [done|].
  destruct (rel_var _ _ _ _ 0 vs' HR' eq_refl) as (o' & g' & Ho' & Hr' & Hgv & _).
  destruct (model_env _ _ _ _ _ Hm) as [l El].
  pose proof (rel_len _ _ _ _ HR') as Hlen'. rewrite El in Hlen', Ho'. cbn in Hlen', Ho'. destruct l; [|done]. injection Ho' as <-. cbn in El.
  destruct (decide (vs' = [])) as [Hnil|Hne].
  2:{ apply (ring_rel_ne c' o g' r' El Hr'); congruence. }
  assert (g' = []) as -> by (by destruct g'; [|rewrite Hnil in Hgv]).
  assert (forall h', head_is o h' (match h' with Some l => S l | None => 0 end) (fst c') -> node_left r' = bool_decide (h' <> None) -> ring_rel c' r') as Hfin.
  { intros h' Hh' Hn. exists o, [], h'. split; [done|]. split; [done|]. split; [by rewrite Hv', Hnil|]. split; [done|]. done. }
  assert (elems r <> [] -> h <> None) as Hhne.
  { intros Hne. destruct (obj_eq Hr) as (ob & Hob & _ & _ & Hhd & _). destruct Hh as [_ (ob' & Hob' & Hh & _)].
    assert (ob' = ob) as -> by congruence. rewrite <- Hh, Hhd by (intros ->; by rewrite <- Hv in Hne). destruct g; [by rewrite <- Hv in Hne|done]. }
  assert (node_left r || negb (bool_decide (elems r = [])) = bool_decide (h <> None)) as Hsame.
  { destruct (bool_decide_reflect (elems r = [])) as [He|He]; cbn; [rewrite orb_false_r; by apply Hf|].
    rewrite orb_true_r. by rewrite bool_decide_eq_true_2 by (by apply Hhne). }
  assert (forall A (m : M st A) f, keeps (head_is o h (match h with Some l => S l | None => 0 end)) m ->
    call m (s, [o]) f = Some (out, c') -> node_left r' = node_left r || negb (bool_decide (elems r = [])) -> ring_rel c' r') as Hkeep.
  { intros A m f Hk Hca Hn. apply (Hfin h); [|by rewrite Hn]. exact (keeps_call _ m f (s, [o]) out c' Hk Hh Hca). }
  assert (c' = (s, [o]) -> node_left r' = node_left r || negb (bool_decide (elems r = [])) -> ring_rel c' r') as Hquiet.
  { intros -> Hn. apply (Hfin h); [done|]. by rewrite Hn. }
  destruct op as [items|x v|x v|x i v|x i v|x i|x|x|x v all|x|x d rr|x d rr|x y|x|x|x i|x i|x v|x v|x|x|x|x y|x y];
    try destruct x as [|x]; try done; cbn [model_step snd] in Hm; change ([o] !! 0) with (Some o) in Hm; cbn [mbind option_bind] in Hm.
  - apply Hquiet; [|done]. cbn [spec_step] in Hsp. change (content [Some (elems r)] 0) with (Some (elems r)) in Hsp. cbn [mbind option_bind] in Hsp.
    destruct (validate_item v) as [ex|] eqn:Ev; [|injection Hsp as _ <-; done].
    rewrite (call_exc _ (s, [o]) obs_unit ex s) in Hm; [by injection Hm as _ <-|]. unfold add_front. apply bind_exc. by apply check_item_exc.
  - apply Hquiet; [|done]. cbn [spec_step] in Hsp. change (content [Some (elems r)] 0) with (Some (elems r)) in Hsp. cbn [mbind option_bind] in Hsp.
    destruct (validate_item v) as [ex|] eqn:Ev; [|injection Hsp as _ <-; by destruct (elems r)].
    rewrite (call_exc _ (s, [o]) obs_unit ex s) in Hm; [by injection Hm as _ <-|]. unfold add_end. apply bind_exc. by apply check_item_exc.
  - apply Hquiet; [|done]. pose proof (insert_full Circular s o g i v Hr) as Hi. unfold insert_out in Hi. rewrite Hv in Hi.
    cbn [spec_step] in Hsp. change (content [Some (elems r)] 0) with (Some (elems r)) in Hsp. cbn [mbind option_bind] in Hsp.
    destruct (bad_index _ _ i) as [ex|]; [rewrite (call_exc _ (s, [o]) obs_unit ex s Hi) in Hm; by injection Hm as _ <-|].
    destruct (validate_item v) as [ex|]; [rewrite (call_exc _ (s, [o]) obs_unit ex s Hi) in Hm; by injection Hm as _ <-|].
    exfalso. injection Hsp as _ Hx. rewrite Hnil in Hx. unfold ListSpec.insert_at in Hx. by destruct (take _ (elems r)).
  - eapply Hkeep; [|exact Hm|done]. apply k_delitem.
  - eapply Hkeep; [|exact Hm|done]. apply k_remove_front.
  - eapply Hkeep; [|exact Hm|done]. apply k_remove_end.
  - eapply Hkeep; [|exact Hm|done]. apply k_remove.
  - apply (Hfin None); [|by rewrite Hl', bool_decide_eq_false_2 by (by intros [])].
    destruct (obj_eq Hr) as (ob & Hob & Hk & _). unfold call, clear in Hm. cbn [fst] in Hm. erewrite bind_ok in Hm by (by apply get_obj_ok).
    cbn in Hm. injection Hm as _ <-. cbn. split; [lia|]. eexists. split; [cbn; apply list_lookup_insert; by eapply lookup_lt_Some|]. done.
  - pose proof (rotate_inplace_full Circular s o g d rr Hr) as Hro. unfold rot_out in Hro.
    destruct d as [z|].
    2:{ apply Hquiet; [|done]. rewrite (call_exc _ (s, [o]) obs_unit _ s Hro) in Hm. by injection Hm as _ <-. }
    destruct (bool_decide_reflect (z < 0)%Z) as [Hz|Hz].
    { apply Hquiet; [|by rewrite Hl', andb_true_r]. rewrite (call_exc _ (s, [o]) obs_unit _ s Hro) in Hm. by injection Hm as _ <-. }
    cbn [spec_step] in Hsp. change (content [Some (elems r)] 0) with (Some (elems r)) in Hsp. cbn [mbind option_bind] in Hsp.
    rewrite bool_decide_eq_false_2 in Hsp by done. injection Hsp as _ Hx.
    assert (elems r = []) as He.
    { apply nil_length_inv. rewrite <- (rotated_length (elems r) z rr), Hx, Hnil. done. }
    assert (g = []) as -> by (destruct g; [done|by rewrite <- Hv in He]).
    destruct (rotate_empty s o z rr Hr ltac:(lia)) as (s' & ob & Hrun & Hob & Hhd).
    rewrite (call_ok _ (s, [o]) obs_unit _ _ Hrun) in Hm. cbn in Hm. injection Hm as _ <-. cbn [fst] in *.
    apply (Hfin None).
    + split; [lia|]. exists ob. split; [done|]. split; [done|]. destruct (obj_eq Hr') as (ob' & Hob' & Hk' & _). cbn in Hob', Hk'. rewrite Hob in Hob'. by injection Hob' as <-.
    + rewrite Hl', He, andb_false_r. transitivity false; [done|]. symmetry. apply bool_decide_eq_false_2. by intros [].
  - eapply Hkeep; [|exact Hm|done]. apply k_getitem.
  - eapply Hkeep; [|exact Hm|done]. apply k_contains.
  - eapply Hkeep; [|exact Hm|done]. apply k_count.
  - eapply Hkeep; [|exact Hm|done]. apply k_len.
  - eapply Hkeep; [|exact Hm|done]. apply k_is_empty.
  - eapply Hkeep; [|exact Hm|done]. apply k_to_list.
Qed.
Lemma ring_refines ops : forall c r outs r', ring_rel c r -> Forall single_list_call ops -> ring_run r ops = Some (outs, r') ->
  exists c', model_run Circular c ops = Some (outs, c') /\ ring_rel c' r'.
Proof.
  induction ops as [|op ops IH]; intros c r outs r' HR Hops Hs; cbn [ring_run model_run] in *.
  { injection Hs as <- <-. by exists c. }
  apply Forall_cons in Hops as [Hop Hops].
  destruct (ring_step r op) as [[out r1]|] eqn:H1; cbn [mbind option_bind] in Hs; [|done].
  destruct (ring_run r1 ops) as [[os r2]|] eqn:H2; cbn [mbind option_bind] in Hs; [|done]. injection Hs as <- <-.
  assert (exists c1, model_step Circular c op = Some (out, c1) /\ ring_rel c1 r1) as (c1 & -> & HR1).
  { assert ((exists i v, op = LSet 0 i v) \/ not_setitem op) as [(i & v & ->)|Hn]; [|by eapply ring_set|by eapply ring_other].
    destruct op as [| | | |x i v| | | | | | | | | | | | | | | | | | | ]; try by right. destruct x; [|done]. left. eauto. }
  cbn [mbind option_bind]. destruct (IH _ _ _ _ HR1 Hops H2) as (c2 & -> & HR2). by exists c2.
Qed.
Lemma ring_total ops : forall r, Forall single_list_call ops -> exists outs r', ring_run r ops = Some (outs, r').
Proof.
  induction ops as [|op ops IH]; intros r Hops; [cbn; eauto|]. apply Forall_cons in Hops as [Hop Hops]. cbn [ring_run].
  assert (exists out r1, ring_step r op = Some (out, r1)) as (out & r1 & ->).
  { assert ((exists i v, op = LSet 0 i v) \/ not_setitem op) as [(i & v & ->)|Hn].
    { destruct op as [| | | |x i v| | | | | | | | | | | | | | | | | | | ]; try by right. destruct x; [|done]. left. eauto. }
    - cbn [ring_step]. destruct (bad_index _ _ _); [eauto|]. case_bool_decide; [eauto|]. destruct (_ && _); [eauto|]. destruct (validate_item v); eauto.
    - destruct (single_total Circular op (elems r) Hop (fun _ => Hn)) as (out & vs & Hsp). exists out.
      unfold ring_step. destruct op; try done; rewrite Hsp; cbn [mbind option_bind]; eexists; reflexivity. }
  cbn [mbind option_bind]. destruct (IH r1 Hops) as (os & r2 & ->). cbn. eauto.
Qed.
Lemma ring_new items : Forall storable items -> exists c, model_step Circular conf0 (LNew items) = Some (RNew 1, c) /\ ring_rel c (Ring (map norm_item items) false).
Proof.
  intros Hi. destruct (sim_one [] Circular conf0 [] (LNew items) (RNew 1) [Some (map norm_item items)]) as (c & Hm & HR); [apply rel0| |].
  { cbn [spec_step]. destruct (list_find _ items) as [[j v]|] eqn:Hf; [|done]. exfalso. apply list_find_Some in Hf as (Hj & Hbad & _). apply Hbad.
    rewrite Forall_lookup in Hi. by apply (Hi j v). }
  exists c. split; [done|]. destruct (rel_var _ _ _ _ 0 (map norm_item items) HR eq_refl) as (o & g & Ho & Hr & Hv & _).
  pose proof (rel_len _ _ _ _ HR) as Hl. destruct (snd c) as [|o1 [|? ?]] eqn:Ec; [done| |done]. cbn in Ho. injection Ho as ->.
  destruct items as [|v items].
  - exists o, g, None. split; [done|]. split; [done|]. split; [done|].
    assert (c = (St [] [LObj CCLL None None 0], [0])) as -> by (cbv in Hm; by injection Hm as <-).
    injection Ec as <-. split; [|intros _; symmetry; by apply bool_decide_eq_false_2; intros []]. split; [lia|]. by eexists.
  - by eapply ring_rel_ne.
Qed.
Theorem ring_exact items ops : Forall storable items -> Forall single_list_call ops ->
  exists outs r c, ring_run (Ring (map norm_item items) false) ops = Some (outs, r)
    /\ model_run Circular conf0 (LNew items :: ops) = Some (RNew 1 :: outs, c).
Proof.
  intros Hi Ho. destruct (ring_total ops (Ring (map norm_item items) false) Ho) as (outs & r & Hs). destruct (ring_new items Hi) as (c & Hm & HR).
  destruct (ring_refines ops _ _ _ _ HR Ho Hs) as (c' & Hc & _). exists outs, r, c'. split; [done|].
  cbn [model_run]. rewrite Hm. cbn [mbind option_bind]. by rewrite Hc.
Qed.
