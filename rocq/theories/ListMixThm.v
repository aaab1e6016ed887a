(** * Lists of different classes in one [extend], and nodes as arguments. *)
From Verif Require Import Base ListModel ListRep ListCore ListCore2 ListSpec ListPure ListOps ListOps2 ListRun ListOps3 ListSim ListThm ListThm2.
Local Open Scope py_scope.

Lemma ll_extend_any k s o o' g1 g2 :
  rep CLL s o g1 -> rep k s o' g2 -> o <> o' -> (forall l, l ∈ locs g1 -> l ∉ locs g2) ->
  exists s', extend o o' s = Ok tt s' /\ to_list o s' = Ok (vals g1 ++ vals g2) s' /\ to_list o' s' = Ok (vals g2) s'.
Proof.
  intros Hr1 Hr2 Hne Hdis.
  destruct (obj_eq Hr1) as (ob & Hob & Hkb & Hlen & Hhd & Htl).
  destruct (obj_eq Hr2) as (oc & Hoc & Hkc & Hlen2 & Hhd2 & Htl2).
  pose proof (rep_seg _ _ _ _ Hr1) as Hs1. cbn [is_dll] in Hs1. rewrite endp_noncll in Hs1 by done.
  pose proof (rep_seg _ _ _ _ Hr2) as Hs2.
  assert (extend o o' s = ll_extend o o' s) as ->.
  { unfold extend. erewrite bind_ok by (by apply get_obj_ok). erewrite bind_ok by (by apply get_obj_ok). by rewrite Hkb. }
  unfold ll_extend. erewrite bind_ok by (by apply get_obj_ok). rewrite Hlen2.
  destruct (Nat.eqb (length g2) 0) eqn:H2.
  { apply Nat.eqb_eq, nil_length_inv in H2 as ->. exists s. split_and!; [done| |]; [rewrite app_nil_r|]; by eapply to_list_ok. }
  assert (g2 <> []) as Hg2 by (by destruct g2).
  erewrite bind_ok by (by apply get_obj_ok). rewrite Hlen.
  destruct (Nat.eqb (length g1) 0) eqn:H1.
  { apply Nat.eqb_eq, nil_length_inv in H1 as ->. eexists. split; [reflexivity|]. split.
    - unfold to_list. erewrite bind_ok.
      2: { apply get_obj_ok. cbn [s_objs]. rewrite list_lookup_insert; [reflexivity|by eapply lookup_lt_Some]. }
      cbn [o_len o_head set_len set_head map app]. eapply iter_from_ok; [exact Hs2|done|]. intros _. rewrite Hhd2 by done. by rewrite endp_hd.
    - unfold to_list. erewrite bind_ok.
      2: { apply get_obj_ok. cbn [s_objs]. rewrite list_lookup_insert_ne by done. exact Hoc. }
      rewrite Hlen2. eapply iter_from_ok; [exact Hs2|done|]. intros _. rewrite Hhd2 by done. by rewrite endp_hd. }
  assert (g1 <> []) as Hg1 by (by destruct g1).
  destruct (get_node_spec _ _ _ _ (length g1) Hr1 ltac:(lia)) as (c & Hget & _).
  erewrite bind_ok by exact Hget. cbn [fst]. rewrite firstn_all.
  destruct g1 as [|p gp _] using rev_ind; [done|]. rewrite last_loc_snoc.
  destruct (lseg_last _ _ _ _ _ _ Hs1) as (cp & Hcp & Hd & Hdat & Hpri & Hdn & Hrest).
  assert (set_next (g_loc p) (o_head oc) s = Ok tt (St (<[g_loc p := upd_next cp (o_head oc)]> (s_nodes s)) (s_objs s))) as Hsn.
  { destruct (wp_elim _ _ _ (wp_set_next_single _ _ (o_head oc)
      (fun u s' => s' = St (<[g_loc p := upd_next cp (o_head oc)]> (s_nodes s)) (s_objs s)) _ Hcp (or_introl Hd) eq_refl)) as ([] & s' & E & ->). done. }
  assert (deref (Some (g_loc p)) s = Ok (g_loc p) s) as Hdr by done.
  rewrite (bind_ok _ _ _ _ _ Hdr), (bind_ok _ _ _ _ _ Hsn).
  erewrite bind_ok by (by apply get_obj_ok). erewrite bind_ok by (by apply get_obj_ok).
  set (h' := <[g_loc p := upd_next cp (o_head oc)]> (s_nodes s)).
  assert (forall l, l <> g_loc p -> h' !! l = s_nodes s !! l) as Hfr by (intros l ?; by apply list_lookup_insert_ne).
  assert (g_loc p ∈ locs (gp ++ [p])) as Hpin by apply elem_last.
  assert (lseg h' (is_dll k) None g2 (endp k g2)) as Hs2'.
  { eapply lseg_frame; [|exact Hs2]. intros l Hl. apply Hfr. intros ->. by eapply Hdis. }
  assert (lseg h' false None (gp ++ [p]) (hd_loc g2 None)) as Hs1'.
  { apply lseg_app in Hs1 as [Ha _]. apply lseg_app. split.
    - eapply lseg_frame; [|exact Ha]. intros l Hl. apply Hfr. intros ->.
      eapply (NoDup_locs_inj gp [p] _ _ (rep_nodup _ _ _ _ Hr1) Hl); [|reflexivity]. cbn. set_solver.
    - cbn [lseg]. split; [|done]. exists (upd_next cp (o_head oc)). split_and!; try done.
      + apply list_lookup_insert. by eapply lookup_lt_Some.
      + cbn [hd_loc]. by rewrite Hhd2. }
  eexists. split; [reflexivity|]. split.
  - unfold to_list. erewrite bind_ok.
    2: { apply get_obj_ok. cbn [s_objs]. rewrite list_lookup_insert; [reflexivity|by eapply lookup_lt_Some]. }
    cbn [o_len o_head set_len]. rewrite Hlen, Hlen2.
    assert (forall q g g' pv c s2 d2 pv2 q2, lseg (s_nodes s2) false pv g q -> q = hd_loc g' q2 -> lseg (s_nodes s2) d2 pv2 g' q2 ->
       (g <> [] -> c = hd_loc g q) -> (g = [] -> c = q) -> iter_from (length g + length g') c s2 = Ok (vals g ++ vals g') s2) as Happ.
    { clear. intros q g. induction g as [|m g IH]; intros g' pv c s2 d2 pv2 q2 Hs -> Hs' Hc Hc'.
      - cbn [length map app Nat.add]. eapply iter_from_ok; [exact Hs'|done|]. intros _. by apply Hc'.
      - destruct Hs as [(cm & Hcm & _ & Hdat & _ & _ & Hnx & _) Hs]. cbn [length iter_from Nat.add].
        rewrite Hc by done. cbn [hd_loc deref]. erewrite bind_ok by done.
        unfold get_data, get_next. unfold bind at 1 2. rewrite (get_cell_ok _ _ _ Hcm). cbn.
        unfold bind at 1 2. rewrite (get_cell_ok _ _ _ Hcm). cbn. rewrite Hdat, Hnx.
        erewrite bind_ok; [done|]. eapply IH; [exact Hs|reflexivity|exact Hs'|done|]. by intros ->. }
    rewrite map_app. rewrite <- (map_app g_val). eapply (Happ (hd_loc g2 None)); [exact Hs1'| |exact Hs2'| |].
    + by destruct g2.
    + intros _. rewrite Hhd by done. by destruct gp.
    + by destruct gp.
  - unfold to_list. erewrite bind_ok.
    2: { apply get_obj_ok. cbn [s_objs]. rewrite list_lookup_insert_ne by done. exact Hoc. }
    rewrite Hlen2. eapply iter_from_ok; [exact Hs2'|done|]. intros _. rewrite Hhd2 by done. by rewrite endp_hd.
Qed.

Theorem extend_classes k k' h outs w x xs ys :
  spec_run k [] h = Some (outs, w) -> w !! x = Some (Some xs) -> Forall storable ys -> k' <> k ->
  exists s env o n s1, model_run k conf0 h = Some (outs, (s, env)) /\ env !! x = Some o
   /\ construct (mcls k') ys s = Ok n s1
   /\ (k <> Singly -> extend o n s1 = Exc TypeError s1)
   /\ (k = Singly -> exists s2, extend o n s1 = Ok tt s2
        /\ to_list o s2 = Ok (xs ++ map norm_item ys) s2 /\ to_list n s2 = Ok (map norm_item ys) s2).
Proof.
  intros Hh Hx Hst Hk. destruct (run_rel _ _ _ _ Hh) as ([s env] & Hrun & HR).
  destruct (rel_var_rep _ _ _ _ _ _ HR Hx) as (o & g & Ho & Hr & Hv).
  destruct (wp_elim _ _ _ (construct_spec (mcls k') s ys Hst)) as (n & s1 & Hc & g' & Hr' & Hv' & Hn & Hfr & Hm).
  exists s, env, o, n, s1. split_and!; [done|done|done| |].
  - intros Hs. assert (rep (mcls k) s1 o g) as Hr1 by (eapply rep_frame; [exact Hr|exact Hm|set_solver|set_solver]).
    destruct (obj_eq Hr1) as (ob & Hob & Hkb & _). destruct (obj_eq Hr') as (oc & Hoc & Hkc & _).
    unfold extend. erewrite bind_ok by (by apply get_obj_ok). erewrite bind_ok by (by apply get_obj_ok). rewrite Hkb, Hkc.
    by destruct k, k'.
  - intros ->. assert (rep CLL s1 o g) as Hr1 by (eapply rep_frame; [exact Hr|exact Hm|set_solver|set_solver]).
    destruct (ll_extend_any _ _ _ _ _ _ Hr1 Hr') as (s2 & E & E1 & E2).
    + intros ->. pose proof (rep_obound _ _ _ _ Hr). lia.
    + intros l Hl Hl'. specialize (Hfr _ Hl'). pose proof (rep_bound _ _ _ _ _ Hr Hl). lia.
    + exists s2. rewrite Hv, Hv' in *. done.
Qed.

Theorem node_arguments k h outs w x vs d v :
  spec_run k [] h = Some (outs, w) -> w !! x = Some (Some vs) ->
  exists s env o, model_run k conf0 h = Some (outs, (s, env)) /\ env !! x = Some o
   /\ count o (PNodeObj d v) s = Ok (match k, d with Doubly, false => 0 | _, _ => occurrences v vs end) s
   /\ contains o (PNodeObj d v) s = match k, vs with Circular, _ | _, [] => Ok false s | _, _ => Exc AssertionError s end.
Proof.
  intros Hh Hx. destruct (run_rel _ _ _ _ Hh) as ([s env] & Hrun & HR).
  destruct (rel_var_rep _ _ _ _ _ _ HR Hx) as (o & g & Ho & Hr & Hv).
  destruct (obj_eq Hr) as (ob & Hob & Hk & Hlen & Hhd & _).
  pose proof (rep_stored _ _ _ _ Hr) as Hst.
  assert (forall u, length (List.filter (fun y => py_eq y u) (vals g)) = occurrences u vs) as Hcnt.
  { intros u. rewrite <- Hv. clear -Hst. induction Hst as [|m g [Hm _] _ IH]; [done|]. cbn [map List.filter occurrences].
    destruct (py_eq (g_val m) u) eqn:E.
    - apply py_eq_stored in E; [|done]. rewrite bool_decide_eq_true_2 by done. cbn [length]. by rewrite IH.
    - rewrite bool_decide_eq_false_2; [done|]. intros Hmu. apply (py_eq_stored _ u Hm) in Hmu. congruence. }
  assert (forall d' u, List.filter (fun y => py_eq y (PNodeObj d' u)) (vals g) = []) as Hno.
  { clear. intros d' u. induction (vals g) as [|y l IH]; [done|]. cbn [List.filter]. destruct y; exact IH. }
  exists s, env, o. split_and!; [done|done| |].
  - unfold count. erewrite bind_ok by (by apply get_obj_ok). erewrite bind_ok by (by eapply to_list_ok). unfold ret. f_equal. rewrite Hk.
    destruct k, d; cbn [mcls is_dll implb]; try apply Hcnt. by rewrite Hno.
  - unfold contains. erewrite bind_ok by (by apply get_obj_ok). rewrite Hk.
    assert (existsb (fun y => py_eq y (PNodeObj d v)) (vals g) = false) as Hex.
    { clear. induction (vals g) as [|y l IH]; [done|]. cbn [existsb]. destruct y; exact IH. }
    destruct k; cbn [mcls].
    1-2: unfold ll_contains; erewrite bind_ok by (by apply get_obj_ok); rewrite Hlen, <- Hv; by destruct g.
    unfold cll_contains. erewrite bind_ok by (by eapply to_list_ok). unfold ret. by rewrite Hex.
Qed.
