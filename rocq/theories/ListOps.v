(** * Specs of the public list methods in terms of [rep]. *)
From Verif Require Import Base ListModel ListRep ListCore ListCore2 ListSpec.
Local Open Scope py_scope.
Local Notation m_insert := ListModel.insert.

Definition upd (k : lcls) (s : st) (o : nat) (g : list gn) (vs : list pyval) (s' : st) : Prop :=
  exists g', rep k s' o g' /\ vals g' = vs /\ modifies (locs g) [o] s s' /\ grows (locs g) (locs g') s.

Lemma upd_refl k s o g vs : rep k s o g -> vals g = vs -> upd k s o g vs s.
Proof. intros. exists g. split_and!; [done|done|apply modifies_refl|]. intros l Hl. by left. Qed.

Lemma check_item_ok v s : storable v -> check_item v s = Ok tt s.
Proof. unfold check_item, storable. by intros ->. Qed.
Lemma check_item_exc v e s : validate_item v = Some e -> check_item v s = Exc e s.
Proof. unfold check_item. by intros ->. Qed.

Lemma alloc_modifies c s : modifies [] [] s (St (s_nodes s ++ [c]) (s_objs s)).
Proof.
  split; cbn.
  - rewrite app_length. lia.
  - done.
  - intros l Hl _. by rewrite lookup_app_l.
  - done.
Qed.

Lemma rep_stored_in k s o g v : rep k s o g -> v ∈ vals g -> stored v.
Proof.
  intros Hr Hv. pose proof (rep_stored _ _ _ _ Hr) as Hst. rewrite Forall_forall in Hst.
  apply elem_of_list_fmap in Hv as (n & -> & Hn). by apply Hst.
Qed.

Lemma insert_node_empty_prev k s o prev l : rep k s o [] ->
  insert_node o prev l s = insert_node o None l s.
Proof.
  intros Hr. destruct (obj_eq Hr) as (ob & Hob & Hk & Hlen & _).
  unfold insert_node. erewrite !bind_ok by (by apply get_obj_ok).
  unfold ll_insert_node, dll_insert_node, cll_insert_node.
  destruct (o_cls ob); rewrite !(bind_ok (get_obj o) _ s ob s) by (by apply get_obj_ok);
    cbn in Hlen; rewrite Hlen; reflexivity.
Qed.

Lemma insert_value_spec k s o g1 g2 v prev :
  rep k s o (g1 ++ g2) -> storable v -> (g1 ++ g2 = [] \/ prev = last_loc None g1) ->
  wp (insert_value o prev v) (fun r s' =>
    let n := GN (length (s_nodes s)) (norm_item v) (Fin 0) None in
    r = ins_loc k g1 n g2 /\ rep k s' o (ins_ghost k g1 n g2)
    /\ modifies (locs (g1 ++ g2)) [o] s s' /\ length (s_objs s') = length (s_objs s)) s.
Proof.
  intros Hr Hv Hprev. destruct (obj_eq Hr) as (ob & Hob & Hk & _).
  unfold insert_value. wget_obj Hob. apply wp_bind. apply wp_assert.
  { by destruct v. }
  rewrite Hk. unfold new_node. rewrite Hv. apply wp_bind, wp_alloc_cell.
  set (n := GN (length (s_nodes s)) (norm_item v) (Fin 0) None).
  set (s1 := St _ _).
  assert (modifies [] [] s s1) as Hm1 by apply alloc_modifies.
  assert (g_loc n ∉ locs (g1 ++ g2)) as Hfresh.
  { intros Hin. eapply rep_bound in Hin; [|done]. cbn in Hin. lia. }
  assert (rep k s1 o (g1 ++ g2)) as Hr1.
  { eapply rep_frame; [done|done|set_solver|set_solver]. }
  assert (fresh_node k s1 (g1 ++ g2) n) as Hf.
  { split; [|done|by apply stored_norm]. cbn. rewrite lookup_app_r by lia. by rewrite Nat.sub_diag. }
  assert (wp (insert_node o prev (g_loc n)) (ins_post k s1 o g1 n g2) s1) as Hw.
  { destruct Hprev as [Hg| ->]; [|by apply insert_node_spec].
    unfold wp. rewrite (insert_node_empty_prev k) by (by rewrite Hg in Hr1).
    apply app_not_nil in Hg as [-> ->]. by apply (insert_node_spec k s1 o [] n []). }
  eapply wp_mono; [exact Hw|]. intros r s' (-> & Hr' & Hm & Hl1 & Hl2).
  split_and!; [done|done| |done].
  eapply modifies_trans; [exact Hm1|exact Hm|set_solver|set_solver| |set_solver].
  intros l [->|Hl]%elem_of_cons; [right; cbn; lia|by left].
Qed.

Lemma ins_ghost_upd k s o g1 g2 n s' :
  rep k s' o (ins_ghost k g1 n g2) -> g_loc n = length (s_nodes s) ->
  modifies (locs (g1 ++ g2)) [o] s s' ->
  upd k s o (g1 ++ g2) (vals g1 ++ g_val n :: vals g2) s'.
Proof.
  intros Hr Hn Hm. eexists. split; [exact Hr|]. split_and!.
  - apply ins_ghost_vals.
  - done.
  - intros l Hl. apply ins_ghost_locs in Hl. apply elem_of_cons in Hl as [->|]; [right; lia|by left].
Qed.

Lemma insert_at_spec k s o g i v :
  rep k s o g -> storable v -> i <= length g ->
  wp (ListModel.insert_at o i v)
    (fun _ s' => upd k s o g (ListSpec.insert_at (vals g) i (norm_item v)) s') s.
Proof.
  intros Hr Hv Hi. unfold ListModel.insert_at.
  destruct (get_node_spec _ _ _ _ _ Hr Hi) as (c & Hget & _).
  apply wp_bind. eapply wp_intro; [exact Hget|]. cbn [fst].
  pose proof Hr as Hr'. rewrite <- (take_drop i g) in Hr'.
  eapply wp_mono; [eapply insert_value_spec; [exact Hr'|done|by right]|].
  intros r s' (_ & Hrep & Hm & _). eapply ins_ghost_upd in Hm; [|exact Hrep|done].
  rewrite take_drop in Hm. cbn in Hm. unfold ListSpec.insert_at.
  by rewrite <- fmap_take, <- fmap_drop.
Qed.

Lemma add_front_spec k s o g v : rep k s o g -> storable v ->
  wp (add_front o v) (fun _ s' => upd k s o g (norm_item v :: vals g) s') s.
Proof.
  intros Hr Hv. unfold add_front. apply wp_bind. eapply wp_intro; [by apply check_item_ok|].
  apply wp_bind. eapply wp_mono; [apply insert_at_spec; [done|done|lia]|]. done.
Qed.
Lemma ll_len_ok {k s o g} : rep k s o g -> ll_len o s = Ok (length g) s.
Proof.
  intros Hr. destruct (obj_eq Hr) as (ob & Hob & _ & Hlen & _).
  unfold ll_len. erewrite bind_ok by (by apply get_obj_ok). cbn. by rewrite Hlen.
Qed.
Lemma ll_is_empty_ok {k s o g} : rep k s o g -> ll_is_empty o s = Ok (Nat.eqb (length g) 0) s.
Proof.
  intros Hr. destruct (obj_eq Hr) as (ob & Hob & _ & Hlen & _).
  unfold ll_is_empty. erewrite bind_ok by (by apply get_obj_ok). cbn. by rewrite Hlen.
Qed.
Lemma add_end_spec k s o g v : rep k s o g -> storable v ->
  wp (add_end o v) (fun _ s' => upd k s o g (vals g ++ [norm_item v]) s') s.
Proof.
  intros Hr Hv. unfold add_end. apply wp_bind. eapply wp_intro; [by apply check_item_ok|].
  apply wp_bind. eapply wp_intro; [by eapply ll_len_ok|].
  apply wp_bind. eapply wp_mono; [apply insert_at_spec; [done|done|lia]|].
  intros ? s' Hu. apply wp_ret. unfold ListSpec.insert_at in Hu.
  rewrite take_ge, drop_ge in Hu by (by rewrite map_length). done.
Qed.

(** ** Replacing and removing *)
Lemma split_at_lookup {A} (l : list A) i : i < length l ->
  exists x, l !! i = Some x /\ l = take i l ++ x :: drop (S i) l.
Proof.
  intros Hi. apply lookup_lt_is_Some in Hi as [x Hx]. exists x. split; [done|].
  symmetry. by apply take_drop_middle.
Qed.

Lemma replace_value_spec k s o g i v :
  rep k s o g -> storable v -> i < length g ->
  wp (replace_value o i v) (fun _ s' => upd k s o g (<[i := norm_item v]> (vals g)) s') s.
Proof.
  intros Hr Hv Hi. unfold replace_value. apply wp_bind. apply wp_assert.
  { by destruct v. }
  destruct (get_node_spec _ _ _ _ i Hr ltac:(lia)) as (c & Hget & Hc).
  apply wp_bind. eapply wp_intro; [exact Hget|]. cbn [snd].
  destruct (split_at_lookup g i Hi) as (n & Hn & Hg).
  assert (g <> []) as Hne by (intros ->; cbn in Hi; lia).
  rewrite (drop_S _ _ _ Hn) in Hc. cbn in Hc.
  apply wp_bind. eapply wp_deref; [by apply Hc|].
  pose proof (rep_seg _ _ _ _ Hr) as Hs. rewrite Hg in Hs at 1.
  apply lseg_app in Hs as [Hs1 [(cn & Hcn & Hd & Hdat & Hpri & Hdn & Hnx & Hpv) Hs2]].
  pose proof (rep_nodup _ _ _ _ Hr) as Hnd. rewrite Hg in Hnd.
  apply NoDup_mid_remove in Hnd as [_ Hnotin].
  unfold set_data. rewrite Hv. apply wp_bind. eapply wp_get_cell; [exact Hcn|]. apply wp_put_cell.
  pose (n' := GN (g_loc n) (norm_item v) (g_pri n) (g_dn n)).
  assert (locs (<[i := n']> g) = locs g) as Hlocs.
  { change (map g_loc (<[i := n']> g)) with (g_loc <$> <[i := n']> g).
    rewrite list_fmap_insert. cbn. apply list_insert_id. by rewrite list_lookup_fmap, Hn. }
  assert (<[i := n']> g = take i g ++ n' :: drop (S i) g) as Hg'.
  { rewrite Hg at 1. rewrite insert_app_r_alt; rewrite take_length_le by lia; [|lia].
    by rewrite Nat.sub_diag. }
  assert (forall q, hd_loc (<[i := n']> g) q = hd_loc g q) as Hhd.
  { intros q. rewrite Hg'. transitivity (hd_loc (take i g ++ n :: drop (S i) g) q); [by rewrite !hd_loc_app|by rewrite <- Hg]. }
  exists (<[i := n']> g). split_and!.
  - destruct (rep_obj _ _ _ _ Hr) as (hd & tl & Hob & Hh & Ht). split; cbn.
    + exists hd, tl. rewrite insert_length. split_and!; [done| |].
      * intros _. rewrite Hhd. by apply Hh.
      * intros HC _. rewrite Ht by done. rewrite Hg'. rewrite Hg at 1.
        rewrite !last_loc_app, !last_loc_cons. done.
    + assert (endp k (<[i := n']> g) = endp k g) as ->.
      { unfold endp. by rewrite Hhd. }
      rewrite Hg' at 1. apply lseg_app. split; [|split].
      * eapply lseg_frame; [|exact Hs1]. intros l Hl. rewrite list_lookup_insert_ne; [done|].
        rewrite map_app in Hnotin. set_solver.
      * eexists. split; [apply list_lookup_insert; by eapply lookup_lt_Some|]. done.
      * eapply lseg_frame; [|exact Hs2]. intros l Hl. rewrite list_lookup_insert_ne; [done|].
        rewrite map_app in Hnotin. set_solver.
    + rewrite Hlocs. by eapply rep_nodup.
    + apply Forall_insert; [by eapply rep_stored|]. cbn. by apply stored_norm.
  - change (map g_val (<[i := n']> g)) with (g_val <$> <[i := n']> g). by rewrite list_fmap_insert.
  - split; cbn; try done.
    + by rewrite insert_length.
    + intros l _ Hl. rewrite list_lookup_insert_ne; [done|]. intros <-. apply Hl.
      apply elem_of_list_fmap. exists n. split; [done|]. by eapply elem_of_list_lookup_2.
  - rewrite Hlocs. intros l Hl. by left.
Qed.

Lemma rem_post_upd k s o g1 n g2 s' :
  rem_post k s o g1 n g2 tt s' -> upd k s o (g1 ++ n :: g2) (vals g1 ++ vals g2) s'.
Proof.
  intros (Hr & Hm & _). eexists. split; [exact Hr|]. split_and!; [apply rem_ghost_vals|done|].
  intros l Hl. left. by eapply rem_ghost_locs.
Qed.

Lemma remove_idx_spec k s o g i :
  rep k s o g -> i < length g ->
  wp (remove_idx o i) (fun _ s' => upd k s o g (delete_at (vals g) i) s') s.
Proof.
  intros Hr Hi. unfold remove_idx.
  destruct (get_node_spec _ _ _ _ i Hr ltac:(lia)) as (c & Hget & Hc).
  apply wp_bind. eapply wp_intro; [exact Hget|]. cbn [snd fst].
  destruct (split_at_lookup g i Hi) as (n & Hn & Hg).
  assert (g <> []) as Hne by (intros ->; cbn in Hi; lia).
  rewrite (drop_S _ _ _ Hn) in Hc. cbn in Hc. rewrite Hc by done.
  apply wp_bind, wp_ret. pose proof Hr as Hr'. rewrite Hg in Hr'.
  eapply wp_mono; [by apply remove_node_spec|].
  intros [] s' Hp. apply rem_post_upd in Hp. rewrite <- Hg in Hp.
  unfold delete_at. by rewrite <- fmap_take, <- fmap_drop.
Qed.

(** ** Removing values *)
Lemma upd_trans k s o g vs s1 g1 vs' s2 :
  rep k s1 o g1 -> vals g1 = vs -> modifies (locs g) [o] s s1 -> grows (locs g) (locs g1) s ->
  upd k s1 o g1 vs' s2 -> upd k s o g vs' s2.
Proof.
  intros Hr1 Hv1 Hm1 Hg1 (g2 & Hr2 & Hv2 & Hm2 & Hg2). exists g2. split_and!; [done|done| |].
  - eapply modifies_trans; [exact Hm1|exact Hm2|set_solver|set_solver| |set_solver].
    intros l Hl. by apply Hg1.
  - intros l Hl. destruct (Hg2 _ Hl) as [?|?]; [by apply Hg1|]. right.
    pose proof (mod_nlen _ _ _ _ Hm1). lia.
Qed.

Lemma remove_value_loop_spec k v o all : forall n found s g1 g2 prev curr,
  rep k s o (g1 ++ g2) -> n = length g2 -> prev = last_loc None g1 ->
  (g2 <> [] -> curr = hd_loc g2 None) ->
  wp (remove_value_loop o v all n found prev curr) (fun _ s' =>
    upd k s o (g1 ++ g2)
      (vals g1 ++ if all then remove_every v (vals g2)
                  else if found then vals g2 else remove_first v (vals g2)) s') s.
Proof.
  induction n as [|n IH]; intros found s g1 g2 prev curr Hr Hn -> Hcurr.
  { destruct g2; [|done]. cbn. apply upd_refl; [done|]. rewrite map_app. by destruct all, found. }
  destruct g2 as [|m g2]; [done|]. injection Hn as ->. specialize (Hcurr ltac:(done)). cbn in Hcurr.
  cbn [remove_value_loop]. destruct (negb all && found) eqn:Hstop.
  { apply andb_true_iff in Hstop as [Hall ->]. destruct all; [done|].
    apply wp_ret. apply upd_refl; [done|]. by rewrite map_app. }
  apply wp_bind. eapply wp_deref; [done|].
  pose proof (rep_seg _ _ _ _ Hr) as [_ [(cm & Hcm & Hd & Hdat & Hpri & Hdn & Hnx & Hpv) _]]%lseg_app.
  apply wp_bind. eapply wp_get_data; [exact Hcm|]. rewrite Hdat.
  assert (stored (g_val m)) as Hst.
  { eapply rep_stored_in; [exact Hr|]. rewrite map_app. cbn. set_solver. }
  assert (py_eq (g_val m) v = bool_decide (g_val m = v)) as ->.
  { destruct (bool_decide_reflect (g_val m = v)) as [He|He].
    - apply py_eq_stored; [by destruct Hst|done].
    - apply not_true_is_false. intros Ht. apply He. apply py_eq_stored; [by destruct Hst|done]. }
  destruct (bool_decide (g_val m = v)) eqn:Heq.
  - apply bool_decide_eq_true in Heq.
    apply wp_bind. eapply wp_mono; [by apply remove_node_spec|].
    intros [] s1 (Hr1 & Hm1 & Hl1 & Hl2).
    (* the list is now g1' ++ g2' with the same values *)
    assert (exists g1' g2', rem_ghost k g1 m g2 = g1' ++ g2' /\ vals g1' = vals g1 /\ vals g2' = vals g2
      /\ last_loc None g1' = last_loc None g1 /\ (g1 = [] -> g1' = [])) as (g1' & g2' & Hg' & Hv1 & Hv2 & Hlast & Hnil).
    { unfold rem_ghost. destruct g1 as [|a g1].
      - destruct g2 as [|b g2]; [by exists [], []|].
        destruct (is_dll k && _).
        + by exists [], (b :: g2).
        + by eexists [], (_ :: g2).
      - exists (a :: g1), g2. by destruct g2. }
    rewrite Hg' in Hr1.
    destruct (obj_eq Hr1) as (ob & Hob & _ & _ & Hhd & _).
    wget_obj Hob. apply wp_bind.
    set (K := fun curr' => remove_value_loop o v all (length g2) true (last_loc None g1) curr').
    assert (forall c', (g2' <> [] -> c' = hd_loc g2' None) ->
       wp (K c') (fun _ s' => upd k s o (g1 ++ m :: g2)
      (vals g1 ++ if all then remove_every v (vals (m :: g2))
                  else if found then vals (m :: g2) else remove_first v (vals (m :: g2))) s') s1) as HK.
    { intros c' Hc'. eapply wp_mono.
      - apply (IH true s1 g1' g2'); [done| |by rewrite Hlast|done].
        rewrite <- (map_length g_val g2), <- Hv2. by rewrite map_length.
      - intros ? s2 Hu. eapply upd_trans in Hu; [|exact Hr1|reflexivity|exact Hm1|].
        + rewrite Hv1, Hv2 in Hu. cbn. rewrite bool_decide_eq_true_2 by done.
          destruct all; [done|]. destruct found; [done|]. done.
        + intros l Hl. left. apply (rem_ghost_locs k). by rewrite Hg'. }
    destruct g1 as [|p g1 _] using rev_ind.
    + cbn [last_loc last]. apply wp_ret. apply HK. intros Hne. rewrite Hnil in Hhd by done.
      by apply Hhd.
    + rewrite last_loc_snoc.
      assert (g1' = (g1 ++ [p]) /\ g2' = g2) as [-> ->].
      { unfold rem_ghost in Hg'. assert ((g1 ++ [p]) ++ g2 = g1' ++ g2') as Hg2.
        { destruct (g1 ++ [p]) eqn:E; [by destruct g1|]. exact Hg'. }
        apply app_inj_1 in Hg2; [|rewrite <- (map_length g_val), <- Hv1; by rewrite map_length].
        destruct Hg2; by subst. }
      pose proof (rep_seg _ _ _ _ Hr1) as [Hsp _]%lseg_app.
      destruct (lseg_last _ _ _ _ _ _ Hsp) as (cp & Hcp & _ & _ & _ & _ & Hpn & _).
      eapply wp_get_next; [exact Hcp|]. apply HK.
      intros Hne. rewrite Hpn. by destruct g2.
  - apply bool_decide_eq_false in Heq.
    apply wp_bind. eapply wp_get_next; [exact Hcm|]. rewrite Hnx.
    assert (rep k s o ((g1 ++ [m]) ++ g2)) as Hr' by (by rewrite <- app_assoc).
    eapply wp_mono.
    + apply (IH found s (g1 ++ [m]) g2); [done|done|by rewrite last_loc_snoc|].
      intros Hne. by destruct g2.
    + intros ? s' Hu. rewrite <- app_assoc in Hu. cbn [app] in Hu.
      rewrite map_app, <- app_assoc in Hu. cbn [map app] in Hu. cbn [map remove_every remove_first].
      rewrite bool_decide_eq_false_2 by done. destruct all; [done|]. destruct found; done.
Qed.

Lemma remove_spec k s o g v b : rep k s o g -> storable v ->
  wp (remove o v (Some b)) (fun _ s' =>
    upd k s o g (if b then remove_every v (vals g) else remove_first v (vals g)) s') s.
Proof.
  intros Hr Hv. destruct (obj_eq Hr) as (ob & Hob & _ & Hlen & Hhd & _).
  unfold remove. apply wp_bind. eapply wp_intro; [by apply check_item_ok|]. wget_obj Hob.
  rewrite Hlen. apply (remove_value_loop_spec k v o b (length g) false s [] g None (o_head ob)); done.
Qed.

Lemma clear_spec k s o g : rep k s o g -> wp (clear o) (fun _ s' => upd k s o g [] s') s.
Proof.
  intros Hr. destruct (obj_eq Hr) as (ob & Hob & Hk & _). unfold clear. wget_obj Hob.
  apply wp_put_obj. exists []. split_and!; [|done| |].
  - split; cbn; try done; [|constructor]. exists None, (if is_dll k then None else o_tail ob). split_and!; [|done|done].
    rewrite Hk. erewrite set_obj_lookup; done.
  - by apply put_obj_modifies.
  - intros l Hl. cbn in Hl. set_solver.
Qed.

(** ** Reading *)
Lemma iter_from_ok s d q g : forall pv n c,
  lseg (s_nodes s) d pv g q -> n = length g -> (g <> [] -> c = hd_loc g q) ->
  iter_from n c s = Ok (vals g) s.
Proof.
  induction g as [|m g IH]; intros pv n c Hs -> Hc; [done|].
  destruct Hs as [(cm & Hcm & _ & Hdat & _ & _ & Hnx & _) Hs]. cbn [length iter_from].
  rewrite Hc by done. cbn [hd_loc deref]. erewrite bind_ok by done.
  unfold get_data, get_next. unfold bind at 1 2. rewrite (get_cell_ok _ _ _ Hcm). cbn.
  unfold bind at 1 2. rewrite (get_cell_ok _ _ _ Hcm). cbn. rewrite Hdat, Hnx.
  erewrite bind_ok; [|by eapply IH]. done.
Qed.
Lemma to_list_ok {k s o g} : rep k s o g -> to_list o s = Ok (vals g) s.
Proof.
  intros Hr. destruct (obj_eq Hr) as (ob & Hob & _ & Hlen & Hhd & _).
  unfold to_list. erewrite bind_ok by (by apply get_obj_ok). rewrite Hlen.
  eapply iter_from_ok; [by eapply rep_seg|done|]. intros Hne. rewrite Hhd by done. by rewrite endp_hd.
Qed.

Lemma py_eq_dec_stored a v : stored a -> py_eq a v = bool_decide (a = v).
Proof.
  intros [Hs _]. destruct (bool_decide_reflect (a = v)) as [He|He].
  - by apply py_eq_stored.
  - apply not_true_is_false. intros Ht. apply He. by apply py_eq_stored.
Qed.

Lemma count_ok k s o g v : rep k s o g -> is_val v = true ->
  count o v s = Ok (occurrences v (vals g)) s.
Proof.
  intros Hr Hv. destruct (obj_eq Hr) as (ob & Hob & _).
  unfold count. erewrite bind_ok by (by apply get_obj_ok).
  destruct v; try done; erewrite bind_ok by (by eapply to_list_ok); cbn; do 2 f_equal.
  all: assert (Forall stored (vals g)) as Hst by
    (apply Forall_forall; intros; by eapply rep_stored_in).
  all: induction Hst as [|a l Ha Hst IH]; [done|];
    cbn [List.filter occurrences]; rewrite (py_eq_dec_stored a) by done;
    destruct (bool_decide _); cbn; by rewrite IH.
Qed.

Lemma search_loop_ok s d v g : forall m pv fuel,
  lseg (s_nodes s) d pv (m :: g) None -> Forall (fun n => stored (g_val n)) (m :: g) ->
  length g < fuel ->
  exists x, search_loop fuel v (g_loc m) s = Ok (g_loc x) s /\ x ∈ m :: g
    /\ (g_val x = v <-> v ∈ vals (m :: g)).
Proof.
  induction g as [|n g IH]; intros m pv fuel [(cm & Hcm & _ & Hdat & _ & _ & Hnx & _) Hs] Hst Hf.
  - destruct fuel as [|f]; [lia|]. cbn [search_loop].
    unfold get_next. unfold bind at 1 2. rewrite (get_cell_ok _ _ _ Hcm). cbn. rewrite Hnx. cbn.
    exists m. split; [done|]. set_solver.
  - destruct fuel as [|f]; [cbn in Hf; lia|]. cbn [search_loop].
    unfold get_next, get_data. unfold bind at 1 2. rewrite (get_cell_ok _ _ _ Hcm). cbn [ret].
    rewrite Hnx. cbn [hd_loc]. unfold ret at 1.
    unfold bind at 1 2. rewrite (get_cell_ok _ _ _ Hcm). unfold ret at 1. rewrite Hdat.
    apply Forall_cons in Hst as [Hm Hst]. rewrite py_eq_dec_stored by done.
    case_bool_decide as He.
    + exists m. split; [done|]. split; [set_solver|]. rewrite He. split; [|done].
      intros _. cbn. rewrite He. set_solver.
    + destruct (IH n _ f Hs Hst ltac:(cbn in Hf; lia)) as (x & Hx & Hin & Hiff).
      exists x. split; [done|]. split; [set_solver|]. rewrite Hiff. cbn.
      rewrite !elem_of_cons. split; [tauto|]. intros [->|?]; [done|done].
Qed.

Lemma existsb_py_eq v l : Forall stored l ->
  existsb (fun x => py_eq x v) l = bool_decide (v ∈ l).
Proof.
  induction 1 as [|a l Ha Hst IH]; [done|]. cbn. rewrite IH, py_eq_dec_stored by done.
  destruct (decide (a = v)) as [->|Hne].
  - rewrite (bool_decide_eq_true_2 (v = v)) by done. cbn. symmetry. apply bool_decide_eq_true. set_solver.
  - rewrite (bool_decide_eq_false_2 (a = v)) by done. cbn. apply bool_decide_ext. set_solver.
Qed.

(** A list without repeated nodes cannot be longer than the heap. *)
Lemma nodup_bound (l : list nat) n : NoDup l -> (forall x, x ∈ l -> x < n) -> length l <= n.
Proof.
  intros Hnd Hb. rewrite <- (seq_length n 0). apply submseteq_length, NoDup_submseteq; [done|].
  intros x Hx. apply elem_of_seq. specialize (Hb x Hx). lia.
Qed.

Lemma contains_ok k s o g v : rep k s o g -> is_val v = true ->
  contains o v s = Ok (bool_decide (v ∈ vals g)) s.
Proof.
  intros Hr Hv. destruct (obj_eq Hr) as (ob & Hob & Hk & Hlen & Hhd & _).
  assert (Forall stored (vals g)) as Hst by
    (apply Forall_forall; intros; by eapply rep_stored_in).
  unfold contains. erewrite bind_ok by (by apply get_obj_ok). rewrite Hk.
  assert (is_cll k = false -> ll_contains o v s = Ok (bool_decide (v ∈ vals g)) s) as Hll.
  { intros Hc. unfold ll_contains. erewrite bind_ok by (by apply get_obj_ok). rewrite Hlen.
    destruct (decide (v = PNone)) as [->|Hnn].
    { cbn. unfold ret. do 2 f_equal. symmetry. apply bool_decide_eq_false. intros Hin.
      rewrite Forall_forall in Hst. by destruct (Hst _ Hin). }
    assert (py_assert (match v with PNodeObj _ _ => false | _ => true end) s = Ok tt s) as Ha
      by (by destruct v).
    assert (forall A (a b : A), match v with PNone => a | _ => b end = b) as -> by (by destruct v).
    destruct g as [|m g]; [done|]. cbn [length Nat.eqb].
    erewrite bind_ok by exact Ha. rewrite Hhd by done. cbn [hd_loc]. erewrite bind_ok by done.
    erewrite bind_ok by done.
    pose proof (rep_seg _ _ _ _ Hr) as Hs. rewrite endp_noncll in Hs by done.
    destruct (search_loop_ok s (is_dll k) v g m None (S (length (s_nodes s))) Hs) as (x & Hx & Hin & Hiff).
    { by eapply rep_stored. }
    { assert (length (locs (m :: g)) <= length (s_nodes s)) as Hb.
      { apply nodup_bound; [by eapply rep_nodup|]. intros. by eapply rep_bound. }
      rewrite map_length in Hb. cbn in Hb. lia. }
    erewrite bind_ok by exact Hx.
    assert (exists c, s_nodes s !! g_loc x = Some c /\ c_data c = g_val x) as (c & Hcx & Hcd).
    { apply elem_of_list_split in Hin as (l1 & l2 & Heq). rewrite Heq in Hs.
      apply lseg_app in Hs as [_ [(c & ? & ? & ? & _) _]]. eauto. }
    unfold get_data. unfold bind at 1 2. rewrite (get_cell_ok _ _ _ Hcx). cbn. rewrite Hcd.
    unfold ret. do 2 f_equal. rewrite py_eq_dec_stored.
    - by apply bool_decide_ext.
    - pose proof (rep_stored _ _ _ _ Hr) as Hst'. rewrite Forall_forall in Hst'. by apply Hst'. }
  destruct k; [by apply Hll|by apply Hll|].
  unfold cll_contains. erewrite bind_ok by (by eapply to_list_ok). unfold ret. do 2 f_equal.
  by apply existsb_py_eq.
Qed.
