(** * Specs of the list methods that create or join list objects, and of comparisons. *)
From Verif Require Import Base ListModel ListRep ListCore ListCore2 ListSpec ListPure ListOps.
Local Open Scope py_scope.

Definition appended (k : lcls) (s : st) (dst : nat) (gd : list gn) (vs : list pyval) (s' : st) : Prop :=
  exists gd', rep k s' dst (gd ++ gd') /\ vals gd' = vs /\ modifies (locs gd) [dst] s s'
    /\ (forall l, l ∈ locs gd' -> length (s_nodes s) <= l)
    /\ length (s_objs s') = length (s_objs s).

(** A new object with elements [vs], not sharing anything with [s]. *)
Definition created (k : lcls) (s : st) (o : nat) (vs : list pyval) (s' : st) : Prop :=
  exists g, rep k s' o g /\ vals g = vs /\ length (s_objs s) <= o
    /\ (forall l, l ∈ locs g -> length (s_nodes s) <= l) /\ modifies [] [] s s'.

Lemma appended_refl k s dst gd : rep k s dst gd -> appended k s dst gd [] s.
Proof.
  intros Hr. exists []. rewrite app_nil_r. split_and!; [done|done|apply modifies_refl|set_solver|done].
Qed.

Lemma create_instance_spec k s :
  wp (create_instance k) (fun o s' => o = length (s_objs s) /\ rep k s' o []
     /\ modifies [] [] s s' /\ length (s_objs s') = S (length (s_objs s))
     /\ s_nodes s' = s_nodes s) s.
Proof.
  apply wp_alloc_obj. split_and!; [done| | |cbn; rewrite app_length; cbn; lia|done].
  - split; cbn; try done; [|constructor]. exists None, None. split_and!; [|done|done].
    by rewrite lookup_app_r, Nat.sub_diag by lia.
  - split; cbn; try done.
    + rewrite app_length. lia.
    + intros o Ho _. by rewrite lookup_app_l.
Qed.

Lemma append_value_spec k s dst gd prev v :
  rep k s dst gd -> storable v -> (gd = [] \/ prev = last_loc None gd) ->
  wp (insert_value dst prev v) (fun r s' => exists n,
     r = g_loc n /\ g_val n = norm_item v /\ rep k s' dst (gd ++ [n])
     /\ modifies (locs gd) [dst] s s' /\ g_loc n = length (s_nodes s)
     /\ length (s_objs s') = length (s_objs s)) s.
Proof.
  intros Hr Hv Hp. pose proof Hr as Hr'. rewrite <- (app_nil_r gd) in Hr'.
  eapply wp_mono; [eapply (insert_value_spec k s dst gd [])|].
  - done.
  - done.
  - rewrite app_nil_r. done.
  - intros r s' (Hret & Hrep & Hm & Hl). rewrite app_nil_r in *.
    assert (forall n, ins_ghost k gd n [] = gd ++ [n] /\ ins_loc k gd n [] = g_loc n) as Hi.
    { intros n. unfold ins_ghost, ins_loc. by destruct (is_cll k), gd. }
    rewrite (proj1 (Hi _)) in Hrep. rewrite (proj2 (Hi _)) in Hret.
    eexists. split_and!; [exact Hret| |exact Hrep|done..]. done.
Qed.

Lemma last_loc_app_snoc (gd : list gn) n : last_loc None (gd ++ [n]) = Some (g_loc n).
Proof. apply last_loc_snoc. Qed.

(** Composition of appending steps. *)
Lemma appended_step k s dst gd n s1 vs s2 :
  rep k s1 dst (gd ++ [n]) -> modifies (locs gd) [dst] s s1 ->
  g_loc n = length (s_nodes s) -> length (s_objs s1) = length (s_objs s) ->
  appended k s1 dst (gd ++ [n]) vs s2 -> appended k s dst gd (g_val n :: vs) s2.
Proof.
  intros Hr1 Hm1 Hn Hl (gd' & Hr2 & Hv & Hm2 & Hfr & Hl2).
  exists (n :: gd'). split_and!.
  - by rewrite <- app_assoc in Hr2.
  - cbn. by rewrite Hv.
  - eapply modifies_trans; [exact Hm1|exact Hm2|set_solver|set_solver| |set_solver].
    intros l Hl'. rewrite map_app in Hl'. apply elem_of_app in Hl' as [?|Hl']; [by left|].
    cbn in Hl'. apply elem_of_list_singleton in Hl' as ->. right. lia.
  - cbn. intros l [->|Hl']%elem_of_cons; [lia|]. specialize (Hfr _ Hl').
    pose proof (mod_nlen _ _ _ _ Hm1). lia.
  - lia.
Qed.

Lemma insert_all_spec k dst vs : forall s gd prev,
  rep k s dst gd -> Forall stored vs -> (gd = [] \/ prev = last_loc None gd) ->
  wp (insert_all dst prev vs) (fun _ s' => appended k s dst gd vs s') s.
Proof.
  induction vs as [|v vs IH]; intros s gd prev Hr Hst Hp; cbn [insert_all].
  { apply wp_ret. by apply appended_refl. }
  apply Forall_cons in Hst as [[Hv Hn] Hst].
  apply wp_bind. eapply wp_mono; [by eapply append_value_spec|].
  intros r s1 (n & -> & Hnv & Hr1 & Hm1 & Hnl & Hl). cbn beta.
  eapply wp_mono; [eapply (IH s1 (gd ++ [n])); [done|done|]|].
  - right. by rewrite last_loc_snoc.
  - intros ? s2 Ha. rewrite <- Hn, <- Hnv. by eapply appended_step.
Qed.

Lemma init_loop_spec k dst items : forall s gd prev,
  rep k s dst gd -> Forall storable items -> (gd = [] \/ prev = last_loc None gd) ->
  wp (init_loop dst prev items) (fun _ s' => appended k s dst gd (map norm_item items) s') s.
Proof.
  induction items as [|v vs IH]; intros s gd prev Hr Hst Hp; cbn [init_loop].
  { apply wp_ret. by apply appended_refl. }
  apply Forall_cons in Hst as [Hv Hst].
  apply wp_bind. eapply wp_intro; [by apply check_item_ok|].
  apply wp_bind. eapply wp_mono; [by eapply append_value_spec|].
  intros r s1 (n & -> & Hnv & Hr1 & Hm1 & Hnl & Hl). cbn beta.
  eapply wp_mono; [eapply (IH s1 (gd ++ [n])); [done|done|]|].
  - right. by rewrite last_loc_snoc.
  - intros ? s2 Ha. cbn. rewrite <- Hnv. by eapply appended_step.
Qed.
Lemma init_loop_exc k dst good bad rest e : forall s gd prev,
  rep k s dst gd -> Forall storable good -> validate_item bad = Some e ->
  (gd = [] \/ prev = last_loc None gd) ->
  exists s', init_loop dst prev (good ++ bad :: rest) s = Exc e s' /\ modifies (locs gd) [dst] s s'.
Proof.
  induction good as [|v vs IH]; intros s gd prev Hr Hst Hb Hp; cbn [init_loop app].
  { exists s. split; [|apply modifies_refl]. apply bind_exc. by apply check_item_exc. }
  apply Forall_cons in Hst as [Hv Hst].
  erewrite bind_ok by (by apply check_item_ok).
  pose proof (append_value_spec k s dst gd prev v Hr Hv Hp) as Hw.
  apply wp_elim in Hw as (r & s1 & Hrun & n & -> & Hnv & Hr1 & Hm1 & Hnl & Hl).
  erewrite bind_ok by exact Hrun.
  destruct (IH s1 (gd ++ [n]) (Some (g_loc n)) Hr1 Hst Hb) as (s2 & Hx & Hm2).
  { right. by rewrite last_loc_snoc. }
  exists s2. split; [done|].
  eapply modifies_trans; [exact Hm1|exact Hm2|set_solver|set_solver| |set_solver].
  intros l Hl'. rewrite map_app in Hl'. apply elem_of_app in Hl' as [?|Hl']; [by left|].
  cbn in Hl'. apply elem_of_list_singleton in Hl' as ->. right. lia.
Qed.

(** Creating an object then appending to it. *)
Lemma created_from_appended k s s1 o vs s2 :
  o = length (s_objs s) -> modifies [] [] s s1 -> s_nodes s1 = s_nodes s ->
  appended k s1 o [] vs s2 -> created k s o vs s2.
Proof.
  intros -> Hm1 Hn (gd & Hr & Hv & Hm2 & Hfr & Hl). exists gd. split_and!; [done|done|lia| |].
  - intros l Hl'. specialize (Hfr _ Hl'). by rewrite Hn in Hfr.
  - eapply modifies_trans; [exact Hm1|exact Hm2|set_solver|set_solver|set_solver|].
    intros l Hl'%elem_of_list_singleton. right. lia.
Qed.

Lemma construct_spec k s items : Forall storable items ->
  wp (construct k items) (fun o s' => created k s o (map norm_item items) s') s.
Proof.
  intros Hst. unfold construct. apply wp_bind. eapply wp_mono; [apply create_instance_spec|].
  intros o s1 (-> & Hr & Hm & Hl & Hn). cbn beta. apply wp_bind.
  eapply wp_mono; [apply (init_loop_spec k); [done|done|by left]|].
  intros ? s2 Ha. apply wp_ret. by eapply created_from_appended.
Qed.
Lemma construct_exc k s good bad rest e :
  Forall storable good -> validate_item bad = Some e ->
  exists s', construct k (good ++ bad :: rest) s = Exc e s' /\ modifies [] [] s s'.
Proof.
  intros Hst Hb. pose proof (create_instance_spec k s) as Hw.
  apply wp_elim in Hw as (o & s1 & Hrun & -> & Hr & Hm & Hl & Hn).
  destruct (init_loop_exc k (length (s_objs s)) good bad rest e s1 [] None Hr Hst Hb) as (s2 & Hx & Hm2); [by left|].
  exists s2. unfold construct. erewrite bind_ok by exact Hrun. erewrite bind_exc by exact Hx.
  split; [done|].
  eapply modifies_trans; [exact Hm|exact Hm2|set_solver|set_solver|set_solver|].
  intros l Hl'%elem_of_list_singleton. right. lia.
Qed.

(** The created object can be re-based to an earlier state. *)
Lemma rep_stored_list k s o g : rep k s o g -> Forall stored (vals g).
Proof. intros Hr. apply Forall_forall. intros. by eapply rep_stored_in. Qed.

Lemma copy_spec k s o g : rep k s o g -> wp (copy o) (fun r s' => created k s r (vals g) s') s.
Proof.
  intros Hr. destruct (obj_eq Hr) as (ob & Hob & Hk & Hlen & _).
  unfold copy. wget_obj Hob. rewrite Hk, Hlen. apply wp_bind.
  eapply wp_mono; [apply create_instance_spec|].
  intros c s1 (-> & Hr1 & Hm1 & Hl1 & Hn1). cbn beta.
  destruct (Nat.eqb _ 0) eqn:H0.
  { apply Nat.eqb_eq, nil_length_inv in H0 as ->. apply wp_ret.
    eapply created_from_appended; [done|done|done|]. by apply appended_refl. }
  assert (rep k s1 o g) as Hr'.
  { eapply rep_frame; [done|done|set_solver|set_solver]. }
  apply wp_bind. eapply wp_intro; [by eapply to_list_ok|].
  apply wp_bind. eapply wp_mono; [apply (insert_all_spec k); [done|by eapply rep_stored_list|by left]|].
  intros ? s2 Ha. apply wp_ret. by eapply created_from_appended.
Qed.

(** Source segments survive work on a disjoint destination. *)
Lemma lseg_survives d s s' pv gs q L O :
  lseg (s_nodes s) d pv gs q -> modifies L O s s' -> (forall l, l ∈ locs gs -> l ∉ L) ->
  lseg (s_nodes s') d pv gs q.
Proof.
  intros Hs Hm Hd. eapply lseg_frame; [|exact Hs]. intros l Hl. eapply mod_nodes; [done| |by apply Hd].
  by eapply lseg_bound.
Qed.

Lemma reverse_loop_spec k rev d q : forall gs s gd pv n curr,
  lseg (s_nodes s) d pv gs q -> n = length gs -> (gs <> [] -> curr = hd_loc gs q) ->
  rep k s rev gd -> (forall l, l ∈ locs gs -> l ∉ locs gd) -> Forall stored (vals gs) ->
  wp (reverse_loop rev n curr) (fun _ s' => upd k s rev gd (list.reverse (vals gs) ++ vals gd) s') s.
Proof.
  induction gs as [|m gs IH]; intros s gd pv n curr Hs -> Hc Hr Hdis Hst; cbn [length reverse_loop].
  { apply wp_ret. by apply upd_refl. }
  rewrite Hc by done. cbn [hd_loc]. apply wp_bind. eapply wp_deref; [done|].
  destruct Hs as [(cm & Hcm & Hd & Hdat & Hpri & Hdn & Hnx & Hpv) Hs].
  apply wp_bind. eapply wp_get_data; [exact Hcm|]. rewrite Hdat.
  cbn in Hst. apply Forall_cons in Hst as [[Hv Hnv] Hst].
  apply wp_bind. eapply wp_mono; [by apply add_front_spec|].
  intros ? s1 (gd1 & Hr1 & Hv1 & Hm1 & Hg1). cbn beta.
  assert (lseg (s_nodes s1) d pv (m :: gs) q) as Hs1.
  { eapply lseg_survives; [|exact Hm1|exact Hdis]. split; [by exists cm|done]. }
  destruct Hs1 as [(cm1 & Hcm1 & _ & _ & _ & _ & Hnx1 & _) Hs1].
  apply wp_bind. eapply wp_get_next; [exact Hcm1|]. rewrite Hnx1.
  eapply wp_mono; [eapply (IH s1 gd1); [exact Hs1|done|done|done| |done]|].
  - intros l Hl Hl1. destruct (Hg1 _ Hl1) as [Hin|Hge].
    + apply (Hdis l); [|exact Hin]. cbn. apply elem_of_cons. by right.
    + assert (l < length (s_nodes s)); [|lia]. by eapply lseg_bound.
  - intros ? s2 Hu. eapply upd_trans in Hu; [|exact Hr1|reflexivity|exact Hm1|exact Hg1].
    cbn [map]. rewrite reverse_cons, <- app_assoc. cbn. rewrite Hv1, Hnv in Hu. done.
Qed.

Lemma reverse_spec k s o g : rep k s o g ->
  wp (ListModel.reverse o) (fun r s' => created k s r (list.reverse (vals g)) s') s.
Proof.
  intros Hr. destruct (obj_eq Hr) as (ob & Hob & Hk & Hlen & Hhd & _).
  unfold ListModel.reverse. wget_obj Hob. rewrite Hk, Hlen. apply wp_bind.
  eapply wp_mono; [apply create_instance_spec|].
  intros c s1 (-> & Hr1 & Hm1 & Hl1 & Hn1). cbn beta.
  assert (rep k s1 o g) as Hr'.
  { eapply rep_frame; [done|done|set_solver|set_solver]. }
  apply wp_bind. eapply wp_mono.
  - eapply (reverse_loop_spec k _ _ _ g s1 []); [by eapply rep_seg|done| |done| |by eapply rep_stored_list].
    + intros Hne. rewrite Hhd by done. by rewrite endp_hd.
    + set_solver.
  - intros ? s2 (g2 & Hr2 & Hv2 & Hm2 & Hg2). apply wp_ret. exists g2.
    rewrite app_nil_r in Hv2. split_and!; [done|done|done| |].
    + intros l Hl. destruct (Hg2 _ Hl) as [Hin|Hge]; [cbn in Hin; set_solver|]. by rewrite Hn1 in Hge.
    + eapply modifies_trans; [exact Hm1|exact Hm2|set_solver|set_solver|set_solver|].
      intros l Hl'%elem_of_list_singleton. right. lia.
Qed.

(** ** split *)
Lemma split_loop_spec k dst d q : forall n gs s gd pv prev,
  lseg (s_nodes s) d pv gs q -> n <= length gs ->
  rep k s dst gd -> (gd = [] \/ prev = last_loc None gd) ->
  (forall l, l ∈ locs gs -> l ∉ locs gd) -> Forall stored (vals gs) ->
  wp (split_loop dst n prev (hd_loc gs q)) (fun r s' =>
    appended k s dst gd (vals (take n gs)) s' /\ snd r = hd_loc (drop n gs) q) s.
Proof.
  induction n as [|n IH]; intros gs s gd pv prev Hs Hn Hr Hp Hdis Hst; cbn [split_loop].
  { apply wp_ret. split; [by apply appended_refl|done]. }
  destruct gs as [|m gs]; [cbn in Hn; lia|]. cbn [hd_loc]. apply wp_bind. eapply wp_deref; [done|].
  pose proof Hs as Hsfull.
  destruct Hs as [(cm & Hcm & Hd & Hdat & Hpri & Hdn & Hnx & Hpv) Hs].
  apply wp_bind. eapply wp_get_data; [exact Hcm|]. rewrite Hdat.
  cbn in Hst. apply Forall_cons in Hst as [[Hv Hnv] Hst].
  apply wp_bind. eapply wp_mono; [by eapply append_value_spec|].
  intros r s1 (x & -> & Hxv & Hr1 & Hm1 & Hxl & Hl). cbn beta.
  assert (lseg (s_nodes s1) d pv (m :: gs) q) as Hs1 by (by eapply lseg_survives).
  destruct Hs1 as [(cm1 & Hcm1 & _ & _ & _ & _ & Hnx1 & _) Hs1].
  apply wp_bind. eapply wp_get_next; [exact Hcm1|]. rewrite Hnx1.
  eapply wp_mono; [eapply (IH gs s1 (gd ++ [x])); [exact Hs1|cbn in Hn; lia|done| | |done]|].
  - right. by rewrite last_loc_snoc.
  - intros l Hl'. rewrite map_app. cbn. intros [Hin|Hin]%elem_of_app.
    + apply (Hdis l); [|exact Hin]. cbn. apply elem_of_cons. by right.
    + apply elem_of_list_singleton in Hin as ->.
      pose proof (lseg_bound _ _ _ _ _ _ Hs Hl'); lia.
  - intros r s2 [Ha Hret]. split; [|done]. cbn. rewrite <- Hnv, <- Hxv. by eapply appended_step.
Qed.

(** Two new objects. *)
Definition created2 (k : lcls) (s : st) (o1 o2 : nat) (vs1 vs2 : list pyval) (s' : st) : Prop :=
  exists g1 g2, rep k s' o1 g1 /\ vals g1 = vs1 /\ rep k s' o2 g2 /\ vals g2 = vs2
    /\ length (s_objs s) <= o1 /\ length (s_objs s) <= o2 /\ o1 <> o2
    /\ (forall l, l ∈ locs g1 -> length (s_nodes s) <= l)
    /\ (forall l, l ∈ locs g2 -> length (s_nodes s) <= l)
    /\ (forall l, l ∈ locs g1 -> l ∉ locs g2) /\ modifies [] [] s s'.

Lemma split_at_spec k s o g i : rep k s o g -> i <= length g ->
  wp (split_at o i) (fun r s' => created2 k s (fst r) (snd r) (take i (vals g)) (drop i (vals g)) s') s.
Proof.
  intros Hr Hi. destruct (obj_eq Hr) as (ob & Hob & Hk & Hlen & Hhd & _).
  unfold split_at. wget_obj Hob. rewrite Hk, Hlen. apply wp_bind.
  eapply wp_mono; [apply create_instance_spec|].
  intros o1 s1 (Ho1 & Hr1 & Hm1 & Hl1 & Hn1). cbn beta. apply wp_bind.
  eapply wp_mono; [apply create_instance_spec|].
  intros o2 s2 (Ho2 & Hr2 & Hm2 & Hl2 & Hn2). cbn beta.
  assert (modifies [] [] s s2) as Hm12.
  { eapply modifies_trans; [exact Hm1|exact Hm2|set_solver..]. }
  assert (rep k s2 o1 []) as Hr1'.
  { eapply rep_frame; [exact Hr1|exact Hm2|set_solver|set_solver]. }
  assert (o1 <> o2) as Ho12 by lia.
  destruct (Nat.eqb _ 0) eqn:H0.
  { apply Nat.eqb_eq, nil_length_inv in H0 as ->. apply wp_ret. exists [], []. cbn.
    rewrite take_nil, drop_nil. split_and!; try done; try lia; set_solver. }
  assert (g <> []) as Hne by (by destruct g).
  assert (rep k s2 o g) as Hr'.
  { eapply rep_frame; [exact Hr|exact Hm12|set_solver|set_solver]. }
  apply wp_bind. rewrite Hhd, <- (endp_hd k) by done.
  eapply wp_mono.
  { eapply (split_loop_spec k o1 _ _ i g s2 []); [by eapply rep_seg|done|done|by left|set_solver|by eapply rep_stored_list]. }
  intros [pv c] s3 [(g1 & Hr3 & Hv3 & Hm3 & Hf3 & Hl3) Hret]. cbn in Hret, Hr3. cbn [fst snd]. subst c.
  assert (rep k s3 o g) as Hr'3.
  { eapply rep_frame; [exact Hr'|exact Hm3| |set_solver]. intros ->%elem_of_list_singleton.
    apply rep_obound in Hr. lia. }
  assert (rep k s3 o2 []) as Hr2'.
  { eapply rep_frame; [exact Hr2|exact Hm3|set_solver|set_solver]. }
  assert (lseg (s_nodes s3) (is_dll k) (last_loc None (take i g)) (drop i g) (endp k g)) as Hs.
  { pose proof (rep_seg _ _ _ _ Hr'3) as Hs. rewrite <- (take_drop i g) in Hs at 1.
    by apply lseg_app in Hs as [_ Hs]. }
  apply wp_bind. eapply wp_mono.
  { eapply (split_loop_spec k o2 _ _ (length g - i) (drop i g) s3 []); [exact Hs|by rewrite drop_length|done|by left|set_solver|].
    change (map g_val (drop i g)) with (g_val <$> drop i g). rewrite fmap_drop.
    apply Forall_drop. by eapply rep_stored_list. }
  intros r s4 [(g2 & Hr4 & Hv4 & Hm4 & Hf4 & Hl4) _]. apply wp_ret. cbn [fst snd]. cbn in Hr4.
  exists g1, g2.
  assert (rep k s4 o1 g1) as Hr14.
  { eapply rep_frame; [exact Hr3|exact Hm4|set_solver|set_solver]. }
  split_and!; try done.
  - rewrite Hv3. change (map g_val (take i g)) with (g_val <$> take i g). by rewrite fmap_take.
  - rewrite Hv4, take_ge by (by rewrite drop_length).
    change (map g_val (drop i g)) with (g_val <$> drop i g). by rewrite fmap_drop.
  - lia.
  - pose proof (mod_olen _ _ _ _ Hm1). lia.
  - intros l Hl. specialize (Hf3 _ Hl). rewrite Hn2, Hn1 in Hf3. done.
  - intros l Hl. specialize (Hf4 _ Hl). pose proof (mod_nlen _ _ _ _ Hm3). rewrite Hn2, Hn1 in *. lia.
  - intros l Hl Hl'. specialize (Hf4 _ Hl'). eapply rep_bound in Hl; [|exact Hr3]. lia.
  - assert (modifies [] [] s s3) as Hm123.
    { eapply modifies_trans; [exact Hm12|exact Hm3|set_solver|set_solver|set_solver|].
      intros l ->%elem_of_list_singleton. right. lia. }
    eapply modifies_trans; [exact Hm123|exact Hm4|set_solver|set_solver|set_solver|].
    intros l ->%elem_of_list_singleton. right. lia.
Qed.

(** ** slices *)
Lemma slice_loop_spec k dst ind d q : forall n gs s gd pv prev c,
  lseg (s_nodes s) d pv gs q -> n <= length gs ->
  rep k s dst gd -> (gd = [] \/ prev = last_loc None gd) ->
  (forall l, l ∈ locs gs -> l ∉ locs gd) -> Forall stored (vals gs) ->
  wp (slice_loop dst ind n c prev (hd_loc gs q)) (fun _ s' =>
    appended k s dst gd (pick ind n c (vals gs)) s') s.
Proof.
  induction n as [|n IH]; intros gs s gd pv prev c Hs Hn Hr Hp Hdis Hst; cbn [slice_loop].
  { apply wp_ret. by apply appended_refl. }
  destruct gs as [|m gs]; [cbn in Hn; lia|]. cbn [hd_loc map pick].
  pose proof Hs as Hsfull.
  destruct Hs as [(cm & Hcm & Hd & Hdat & Hpri & Hdn & Hnx & Hpv) Hs].
  cbn in Hst. apply Forall_cons in Hst as [[Hv Hnv] Hst].
  apply wp_bind. destruct (existsb _ ind).
  - apply wp_bind. eapply wp_deref; [done|].
    apply wp_bind. eapply wp_get_data; [exact Hcm|]. rewrite Hdat.
    apply wp_bind. eapply wp_mono; [by eapply append_value_spec|].
    intros r s1 (x & -> & Hxv & Hr1 & Hm1 & Hxl & Hl). apply wp_ret.
    assert (lseg (s_nodes s1) d pv (m :: gs) q) as Hs1 by (by eapply lseg_survives).
    destruct Hs1 as [(cm1 & Hcm1 & _ & _ & _ & _ & Hnx1 & _) Hs1].
    apply wp_bind. eapply wp_deref; [done|].
    apply wp_bind. eapply wp_get_next; [exact Hcm1|]. rewrite Hnx1.
    eapply wp_mono; [eapply (IH gs s1 (gd ++ [x])); [exact Hs1|cbn in Hn; lia|done| | |done]|].
    + right. by rewrite last_loc_snoc.
    + intros l Hl'. rewrite map_app. cbn. intros [Hin|Hin]%elem_of_app.
      * apply (Hdis l); [|exact Hin]. cbn. apply elem_of_cons. by right.
      * apply elem_of_list_singleton in Hin as ->.
        pose proof (lseg_bound _ _ _ _ _ _ Hs Hl'); lia.
    + intros ? s2 Ha. rewrite <- Hnv, <- Hxv. by eapply appended_step.
  - apply wp_ret. apply wp_bind. eapply wp_deref; [done|].
    apply wp_bind. eapply wp_get_next; [exact Hcm|]. rewrite Hnx.
    eapply (IH gs s gd); [exact Hs|cbn in Hn; lia|done|done| |done].
    intros l Hl. apply Hdis. cbn. set_solver.
Qed.

Lemma rebase_created k s s1 o vs s2 :
  modifies [] [] s s1 -> created k s1 o vs s2 -> created k s o vs s2.
Proof.
  intros Hm (g & Hr & Hv & Ho & Hl & Hm2). exists g. pose proof (mod_nlen _ _ _ _ Hm).
  pose proof (mod_olen _ _ _ _ Hm). split_and!; [done|done|lia| |].
  - intros l Hl'. specialize (Hl _ Hl'). lia.
  - eapply modifies_trans; [exact Hm|exact Hm2|set_solver..].
Qed.

(** ** extend *)
Definition joined (k : lcls) (s : st) (o : nat) (g1 g2 : list gn) (s' : st) : Prop :=
  rep k s' o (g1 ++ g2) /\ modifies (locs g1 ++ locs g2) [o] s s'.

Lemma join_lseg d h h' g1 p g2 cp :
  lseg h d None (g1 ++ [p]) None -> lseg h d None g2 None -> NoDup (locs (g1 ++ [p])) -> NoDup (locs g2) ->
  (forall l, l ∈ locs (g1 ++ [p]) -> l ∉ locs g2) ->
  h !! g_loc p = Some cp ->
  linked d h (g_loc p) cp (hd_loc g2 None) h' ->
  lseg h' d None ((g1 ++ [p]) ++ g2) None
  /\ length h' = length h
  /\ (forall l, l ∉ locs (g1 ++ [p]) ++ locs g2 -> h' !! l = h !! l).
Proof.
  intros Hs1 Hs2 Hnd1 Hnd2 Hdis Hcp (Hl & Hh & Hx & Hfr).
  assert (g_loc p ∈ locs (g1 ++ [p])) as Hpin by apply elem_last. split_and!.
  - apply lseg_app. split.
    + apply lseg_app in Hs1 as [Hs1 [Hp _]]. apply lseg_app. split.
      * cbn [hd_loc] in *. eapply lseg_frame; [|exact Hs1]. intros l Hin. apply Hfr.
        -- intros ->. eapply (NoDup_locs_inj g1 [p] _ _ Hnd1 Hin); [|reflexivity]. cbn. set_solver.
        -- right. destruct g2 as [|x g2]; [done|]. cbn. intros [= ->].
           apply (Hdis (g_loc x)); [rewrite map_app; set_solver|cbn; set_solver].
      * split; [|done]. destruct Hp as (cp' & Hcp' & ? & ? & ? & ? & ? & ?).
        rewrite Hcp in Hcp'. injection Hcp' as <-. by eapply cell_ok_upd_next.
    + rewrite last_loc_snoc. destruct g2 as [|x g2]; [done|]. cbn in Hx.
      destruct Hs2 as [(cx & Hcx & ? & ? & ? & ? & ? & ?) Hs2].
      assert (g_loc x <> g_loc p) as Hxp.
      { intros Heq. apply (Hdis (g_loc p)); [done|]. rewrite <- Heq. cbn. set_solver. }
      split.
      * destruct d.
        -- destruct Hx as (cx' & Hcx' & Hx). rewrite Hcx in Hcx'. injection Hcx' as <-.
           eexists. split; [exact Hx|]. done.
        -- exists cx. split_and!; try done. rewrite Hfr; [done|done|by left].
      * eapply lseg_frame; [|exact Hs2]. intros l Hin. apply Hfr.
        -- intros ->. apply (Hdis (g_loc p)); [done|]. cbn. set_solver.
        -- right. cbn. intros [= ->]. cbn in Hnd2. by apply NoDup_cons in Hnd2 as [? _].
  - done.
  - intros l Hin. apply Hfr.
    + intros ->. set_solver.
    + right. destruct g2 as [|x g2]; [done|]. cbn. intros [= ->]. cbn in Hin. set_solver.
Qed.

Lemma extend_spec k s o o' g1 g2 :
  is_cll k = false -> rep k s o g1 -> rep k s o' g2 -> o <> o' ->
  (forall l, l ∈ locs g1 -> l ∉ locs g2) ->
  wp (extend o o') (fun _ s' => joined k s o g1 g2 s') s.
Proof.
  intros Hk Hr1 Hr2 Hne Hdis.
  destruct (obj_eq Hr1) as (ob & Hob & Hkb & Hlen & Hhd & Htl).
  destruct (obj_eq Hr2) as (oc & Hoc & Hkc & Hlen2 & Hhd2 & Htl2).
  unfold extend. wget_obj Hob. wget_obj Hoc. rewrite Hkb, Hkc.
  assert (is_instance k k = true) as ->.
  { destruct k; cbn; try done. }
  assert (NoDup (locs (g1 ++ g2))) as Hnd.
  { rewrite map_app. apply NoDup_app. split_and!; [by eapply rep_nodup|done|by eapply rep_nodup]. }
  assert (Forall (fun n => stored (g_val n)) (g1 ++ g2)) as Hst.
  { apply Forall_app. split; by eapply rep_stored. }
  pose proof (rep_seg _ _ _ _ Hr1) as Hs1. rewrite endp_noncll in Hs1 by done.
  pose proof (rep_seg _ _ _ _ Hr2) as Hs2. rewrite endp_noncll in Hs2 by done.
  (* cases common to both methods *)
  assert (g2 = [] -> joined k s o g1 g2 s) as Hcase0.
  { intros ->. split; [by rewrite app_nil_r|apply modifies_refl]. }
  assert (g1 = [] -> g2 <> [] -> forall tl, (k = CDLL -> tl = o_tail oc) ->
    joined k s o g1 g2 (St (s_nodes s) (<[o := LObj k (o_head oc) tl (length g2)]> (s_objs s)))) as Hcase1.
  { intros -> Hg2 tl Ht. split.
    - split; cbn; [|by rewrite endp_noncll|done|done].
      exists (o_head oc), tl. split_and!; [by eapply set_obj_lookup|done|].
      intros HC _. rewrite Ht by done. by apply Htl2.
    - by apply put_obj_modifies. }
  assert (g1 <> [] -> g2 <> [] -> forall p gp, g1 = gp ++ [p] -> forall (Q : unit -> st -> Prop),
    (forall h', lseg h' (is_dll k) None (g1 ++ g2) None -> length h' = length (s_nodes s) ->
       (forall l, l ∉ locs g1 ++ locs g2 -> h' !! l = s_nodes s !! l) -> Q tt (St h' (s_objs s))) ->
    wp (set_next (g_loc p) (o_head oc)) Q s) as Hcase2.
  { intros Hg1 Hg2 p gp -> Q HQ. rewrite Hhd2 by done.
    destruct (lseg_last _ _ _ _ _ _ Hs1) as (cp & Hcp & Hd & _).
    eapply (wp_set_next (is_dll k)); [exact Hcp|done| |].
    { intros x Hx Hdll. destruct g2 as [|y g2]; [done|]. injection Hx as <-.
      destruct Hs2 as [(cx & Hcx & ? & _) _]. split; [|by exists cx; rewrite <- Hdll].
      intros Heq. apply (Hdis (g_loc p)); [apply elem_last|]. rewrite <- Heq. cbn. set_solver. }
    intros h' L.
    destruct (join_lseg (is_dll k) (s_nodes s) h' gp p g2 cp) as (? & ? & ?); auto.
    - by eapply rep_nodup.
    - by eapply rep_nodup. }
  assert (forall h' tl, lseg h' (is_dll k) None (g1 ++ g2) None -> length h' = length (s_nodes s) ->
     (forall l, l ∉ locs g1 ++ locs g2 -> h' !! l = s_nodes s !! l) -> g1 <> [] -> g2 <> [] ->
     (k = CDLL -> tl = o_tail oc) ->
     joined k s o g1 g2 (St h' (<[o := LObj k (o_head ob) tl (length g1 + length g2)]> (s_objs s)))) as Hcase2'.
  { intros h' tl Hs' Hl' Hfr' Hg1 Hg2 Ht. split.
    - split; cbn; [|by rewrite endp_noncll|done|done].
      exists (o_head ob), tl. split_and!.
      + rewrite app_length. by eapply set_obj_lookup.
      + intros _. rewrite hd_loc_app, Hhd by done. by destruct g1.
      + intros HC _. rewrite Ht, Htl2, last_loc_app by done. unfold last_loc.
        destruct (last g2) eqn:Hlast; [done|]. by apply last_None in Hlast.
    - by apply put_obj_modifies. }
  destruct k; [| |done].
  - unfold ll_extend. wget_obj Hoc. rewrite Hlen2. destruct (Nat.eqb (length g2) 0) eqn:H2.
    { apply wp_ret. apply Hcase0. apply Nat.eqb_eq in H2. by destruct g2. }
    assert (g2 <> []) as Hg2 by (by destruct g2).
    wget_obj Hob. rewrite Hlen. destruct (Nat.eqb (length g1) 0) eqn:H1.
    { apply wp_put_obj. unfold set_len, set_head. cbn [o_cls o_head o_tail o_len]. rewrite Hkb. apply Hcase1; [|done|done].
      apply Nat.eqb_eq in H1. by destruct g1. }
    assert (g1 <> []) as Hg1 by (by destruct g1).
    destruct (get_node_spec _ _ _ _ (length g1) Hr1 ltac:(lia)) as (c & Hget & _).
    apply wp_bind. eapply wp_intro; [exact Hget|]. cbn [fst]. rewrite firstn_all.
    destruct g1 as [|p gp _] using rev_ind; [done|]. rewrite last_loc_snoc.
    apply wp_bind. eapply wp_deref; [done|]. apply wp_bind.
    eapply Hcase2; [done|done|done|]. intros h' Hs' Hl' Hfr'.
    apply wp_bind. eapply wp_get_obj; [exact Hob|]. apply wp_bind. eapply wp_get_obj; [exact Hoc|].
    apply wp_put_obj. unfold set_len. rewrite Hkb, Hlen, Hlen2. apply Hcase2'; done.
  - unfold dll_extend. wget_obj Hoc. rewrite Hlen2. destruct (Nat.eqb (length g2) 0) eqn:H2.
    { apply wp_ret. apply Hcase0. apply Nat.eqb_eq in H2. by destruct g2. }
    assert (g2 <> []) as Hg2 by (by destruct g2).
    wget_obj Hob. rewrite Hlen. destruct (Nat.eqb (length g1) 0) eqn:H1.
    { apply wp_put_obj. rewrite Hkb. apply Nat.eqb_eq in H1. rewrite H1. apply Hcase1; [|done|done].
      by destruct g1. }
    assert (g1 <> []) as Hg1 by (by destruct g1).
    destruct g1 as [|p gp _] using rev_ind; [done|].
    apply wp_bind. eapply wp_deref; [by rewrite Htl, last_loc_snoc|]. apply wp_bind.
    eapply Hcase2; [done|done|done|]. intros h' Hs' Hl' Hfr'.
    apply wp_bind. eapply wp_get_obj; [exact Hob|]. apply wp_bind. eapply wp_get_obj; [exact Hoc|].
    apply wp_put_obj. rewrite Hkb, Hlen, Hlen2. apply Hcase2'; done.
Qed.

(** CircularLinkedList.extend copies the values. *)
Lemma append_node_spec s dst gd prev v :
  rep CCLL s dst gd -> stored v -> (gd = [] \/ prev = last_loc None gd) ->
  wp (let! nw := new_node false v in let! _ := cll_insert_node dst prev nw in ret nw)
   (fun r s' => exists n,
     r = g_loc n /\ g_val n = v /\ rep CCLL s' dst (gd ++ [n])
     /\ modifies (locs gd) [dst] s s' /\ g_loc n = length (s_nodes s)
     /\ length (s_objs s') = length (s_objs s)) s.
Proof.
  intros Hr [Hv Hnv] Hprev. unfold new_node. rewrite Hv, Hnv. apply wp_bind, wp_alloc_cell.
  set (n := GN (length (s_nodes s)) v (Fin 0) None). set (s1 := St _ _).
  assert (modifies [] [] s s1) as Hm1 by apply alloc_modifies.
  assert (g_loc n ∉ locs gd) as Hfresh.
  { intros Hin. eapply rep_bound in Hin; [|done]. cbn in Hin. lia. }
  assert (rep CCLL s1 dst gd) as Hr1.
  { eapply rep_frame; [done|done|set_solver|set_solver]. }
  assert (fresh_node CCLL s1 gd n) as Hf.
  { split; [|done|by split]. cbn. rewrite lookup_app_r by lia. by rewrite Nat.sub_diag. }
  assert (wp (cll_insert_node dst prev (g_loc n)) (ins_post CCLL s1 dst gd n []) s1) as Hw.
  { destruct Hprev as [Hg| ->].
    - subst gd. destruct (obj_eq Hr1) as (ob & Hob & _ & Hlen & _).
      assert (cll_insert_node dst prev (g_loc n) s1 = cll_insert_node dst None (g_loc n) s1) as Heq.
      { unfold cll_insert_node. rewrite !(bind_ok (get_obj dst) _ s1 ob s1) by (by apply get_obj_ok).
        cbn in Hlen. by rewrite Hlen. }
      unfold wp. rewrite Heq. by apply (cll_insert_node_spec s1 dst [] n []).
    - apply cll_insert_node_spec; rewrite app_nil_r; done. }
  apply wp_bind. eapply wp_mono; [exact Hw|]. intros r s' (_ & Hr' & Hm & Hl1 & Hl2).
  apply wp_ret. exists n. rewrite app_nil_r in Hm.
  assert (ins_ghost CCLL gd n [] = gd ++ [n]) as Hg by (by destruct gd). rewrite Hg in Hr'.
  split_and!; try done.
  eapply modifies_trans; [exact Hm1|exact Hm|set_solver|set_solver| |set_solver].
  intros l [->|Hl]%elem_of_cons; [right; cbn; lia|by left].
Qed.

Lemma cll_extend_loop_spec dst other q g : dst <> other -> forall gs done_ s gd pv prev fuel,
  rep CCLL s other (done_ ++ gs) -> g = done_ ++ gs -> length gs <= fuel ->
  lseg (s_nodes s) false pv gs q ->
  rep CCLL s dst gd -> (gd = [] \/ prev = last_loc None gd) ->
  (forall l, l ∈ locs g -> l ∉ locs gd) ->
  forall curr, (gs <> [] -> curr = hd_loc gs q) ->
  wp (cll_extend_loop fuel dst other (length done_) curr prev) (fun _ s' =>
    appended CCLL s dst gd (vals gs) s') s.
Proof.
  intros Hne. induction gs as [|m gs IH]; intros dn s gd pv prev fuel Ho Hg Hf Hs Hr Hp Hdis curr Hc.
  - rewrite app_nil_r in *. destruct (obj_eq Ho) as (oo & Hoo & _ & Hlen & _).
    destruct fuel as [|fuel]; cbn [cll_extend_loop]; wget_obj Hoo; rewrite Hlen, Nat.ltb_irrefl;
      apply wp_ret; by apply appended_refl.
  - destruct (obj_eq Ho) as (oo & Hoo & _ & Hlen & _).
    destruct fuel as [|fuel]; [cbn in Hf; lia|]. cbn [cll_extend_loop]. wget_obj Hoo.
    rewrite Hlen. rewrite (proj2 (Nat.ltb_lt _ _)) by (rewrite app_length; cbn; lia).
    rewrite Hc by done. cbn [hd_loc]. apply wp_bind. eapply wp_deref; [done|].
    pose proof Hs as Hsfull.
    destruct Hs as [(cm & Hcm & Hd & Hdat & Hpri & Hdn & Hnx & Hpv) Hs].
    apply wp_bind. eapply wp_get_data; [exact Hcm|]. rewrite Hdat.
    assert (stored (g_val m)) as Hst.
    { eapply rep_stored_in; [exact Ho|]. rewrite map_app. cbn. set_solver. }
    destruct (obj_eq Hr) as (ob & Hob & Hk & _). wget_obj Hob. rewrite Hk. cbn [is_dll].
    pose proof (append_node_spec s dst gd prev (g_val m) Hr Hst Hp) as Hw.
    apply wp_bind_inv in Hw. apply wp_bind. eapply wp_mono; [exact Hw|]. intros nw s0 Hw0. cbn beta in Hw0.
    apply wp_bind_inv in Hw0. apply wp_bind. eapply wp_mono; [exact Hw0|]. intros ? s1 Hw1. cbn beta in Hw1.
    destruct Hw1 as (x & -> & Hxv & Hr1 & Hm1 & Hxl & Hl).
    assert (lseg (s_nodes s1) false pv (m :: gs) q) as Hs1.
    { eapply lseg_survives; [exact Hsfull|exact Hm1|]. intros l Hin. apply Hdis. subst g.
      rewrite map_app. set_solver. }
    destruct Hs1 as [(cm1 & Hcm1 & _ & _ & _ & _ & Hnx1 & _) Hs1].
    apply wp_bind. eapply wp_get_next; [exact Hcm1|]. rewrite Hnx1.
    assert (rep CCLL s1 other ((dn ++ [m]) ++ gs)) as Ho1.
    { rewrite <- app_assoc. eapply rep_frame; [exact Ho|exact Hm1|set_solver|].
      intros l Hin. apply Hdis. by subst g. }
    eapply wp_mono.
    + replace (S (length dn)) with (length (dn ++ [m])) by (rewrite app_length; cbn; lia).
      eapply (IH (dn ++ [m]) s1 (gd ++ [x])); [exact Ho1|by rewrite <- app_assoc|cbn in Hf; lia|exact Hs1|done| | |done].
      * right. by rewrite last_loc_snoc.
      * intros l Hl'. rewrite map_app. cbn. intros [Hin|Hin]%elem_of_app.
        -- by eapply Hdis.
        -- apply elem_of_list_singleton in Hin as ->.
           assert (g_loc x < length (s_nodes s)); [|lia]. subst g. by eapply (rep_bound _ _ _ _ _ Ho).
    + intros ? s2 Ha. cbn [map]. rewrite <- Hxv. by eapply appended_step.
Qed.

Lemma cll_extend_spec s o o' g1 g2 :
  rep CCLL s o g1 -> rep CCLL s o' g2 -> o <> o' ->
  (forall l, l ∈ locs g1 -> l ∉ locs g2) ->
  wp (extend o o') (fun _ s' => appended CCLL s o g1 (vals g2) s') s.
Proof.
  intros Hr1 Hr2 Hne Hdis.
  destruct (obj_eq Hr1) as (ob & Hob & Hkb & Hlen & Hhd & _).
  destruct (obj_eq Hr2) as (oc & Hoc & Hkc & Hlen2 & Hhd2 & _).
  unfold extend. wget_obj Hob. wget_obj Hoc. rewrite Hkb, Hkc. cbn [is_instance].
  rewrite bool_decide_eq_true_2 by done. unfold cll_extend. wget_obj Hoc. rewrite Hlen2.
  destruct (Nat.eqb (length g2) 0) eqn:H2.
  { apply Nat.eqb_eq, nil_length_inv in H2 as ->. apply wp_ret. by apply appended_refl. }
  assert (g2 <> []) as Hg2 by (by destruct g2).
  wget_obj Hob. rewrite Hlen.
  assert (forall prev, (g1 = [] \/ prev = last_loc None g1) ->
    wp (cll_extend_loop (S (length g2)) o o' 0 (o_head oc) prev)
      (fun _ s' => appended CCLL s o g1 (vals g2) s') s) as Hloop.
  { intros prev Hp. eapply (cll_extend_loop_spec o o' (endp CCLL g2) g2 Hne g2 [] s g1 None prev); [done|done|lia| |done|done| |].
    - exact (rep_seg _ _ _ _ Hr2).
    - intros l Hl Hl'. by apply (Hdis l).
    - intros _. rewrite Hhd2 by done. by rewrite endp_hd. }
  apply wp_bind. destruct (Nat.eqb (length g1) 0) eqn:H1.
  { apply wp_ret. apply Hloop. left. apply Nat.eqb_eq in H1. by destruct g1. }
  assert (g1 <> []) as Hg1 by (by destruct g1).
  rewrite Hhd, <- (endp_hd CCLL) by done. apply Nat.eqb_neq in H1.
  eapply wp_intro.
  { eapply get_node_loop_spec; [by eapply rep_seg|lia]. }
  cbn [snd]. apply Hloop. right.
  destruct g1 as [|p g _] using rev_ind; [done|]. rewrite app_length. cbn [length].
  replace (length g + 1 - 1) with (length g) by lia. rewrite drop_app. cbn. by rewrite last_loc_snoc.
Qed.

(** ** Comparison loop *)
Fixpoint cmp_pure (op : cmpop) (c : nat) (ae : bool) (a b : list pyval) : option (nat * bool) :=
  match a, b with
  | x :: a', y :: b' =>
      if py_eq x y then cmp_pure op (S c) ae a' b'
      else match py_op op x y with
           | None => None
           | Some true => cmp_pure op (S c) false a' b'
           | Some false => Some (c, false)
           end
  | _, _ => Some (c, ae)
  end.

Lemma compare_loop_ok op s d1 d2 q1 q2 : forall g1 g2 n c ae p1 p2 pv1 pv2,
  lseg (s_nodes s) d1 pv1 g1 q1 -> lseg (s_nodes s) d2 pv2 g2 q2 ->
  n = Nat.min (length g1) (length g2) ->
  (g1 <> [] -> p1 = hd_loc g1 q1) -> (g2 <> [] -> p2 = hd_loc g2 q2) ->
  compare_loop op n c ae p1 p2 s =
    match cmp_pure op c ae (vals g1) (vals g2) with Some r => Ok r s | None => Exc TypeError s end.
Proof.
  induction g1 as [|m g1 IH]; intros g2 n c ae p1 p2 pv1 pv2 Hs1 Hs2 -> Hp1 Hp2; [done|].
  destruct g2 as [|m2 g2]; [done|]. cbn [length Nat.min compare_loop].
  rewrite Hp1, Hp2 by done. cbn [hd_loc deref]. erewrite !bind_ok by done.
  destruct Hs1 as [(c1 & Hc1 & _ & Hd1 & _ & _ & Hn1 & _) Hs1].
  destruct Hs2 as [(c2 & Hc2 & _ & Hd2 & _ & _ & Hn2 & _) Hs2].
  assert (get_data (g_loc m) s = Ok (g_val m) s) as E1.
  { unfold get_data, bind. by rewrite (get_cell_ok _ _ _ Hc1), <- Hd1. }
  assert (get_data (g_loc m2) s = Ok (g_val m2) s) as E2.
  { unfold get_data, bind. by rewrite (get_cell_ok _ _ _ Hc2), <- Hd2. }
  assert (get_next (g_loc m) s = Ok (hd_loc g1 q1) s) as E3.
  { unfold get_next, bind. by rewrite (get_cell_ok _ _ _ Hc1), <- Hn1. }
  assert (get_next (g_loc m2) s = Ok (hd_loc g2 q2) s) as E4.
  { unfold get_next, bind. by rewrite (get_cell_ok _ _ _ Hc2), <- Hn2. }
  erewrite bind_ok by exact E1. erewrite bind_ok by exact E2. cbn [map cmp_pure].
  destruct (py_eq _ _).
  - erewrite bind_ok by exact E3. erewrite bind_ok by exact E4. by eapply IH.
  - destruct (py_op op _ _) as [[]|]; [|done|done].
    erewrite bind_ok by exact E3. erewrite bind_ok by exact E4. by eapply IH.
Qed.

Lemma compare_ok op k s o o' g1 g2 : rep k s o g1 -> rep k s o' g2 ->
  compare op o o' s =
    match cmp_pure op 0 true (vals g1) (vals g2) with Some r => Ok r s | None => Exc TypeError s end.
Proof.
  intros Hr1 Hr2. destruct (obj_eq Hr1) as (ob & Hob & Hkb & Hlen & Hhd & _).
  destruct (obj_eq Hr2) as (oc & Hoc & Hkc & Hlen2 & Hhd2 & _).
  unfold compare. erewrite !bind_ok by (by apply get_obj_ok). rewrite Hlen, Hlen2.
  eapply compare_loop_ok; [by eapply rep_seg|by eapply rep_seg|done| |].
  - intros Hne. rewrite Hhd by done. by rewrite endp_hd.
  - intros Hne. rewrite Hhd2 by done. by rewrite endp_hd.
Qed.

Lemma cmp_eq_pure a b : forall c ae, Forall stored a -> length a = length b ->
  exists n e, cmp_pure OpEq c ae a b = Some (n, e) /\ n <= c + length a /\ (n = c + length a <-> a = b).
Proof.
  revert b. induction a as [|x a IH]; intros [|y b] c ae Hst Hl; try done.
  { exists c, ae. cbn. split; [done|]. split; [lia|]. split; [done|lia]. }
  apply Forall_cons in Hst as [Hx Hst]. cbn [cmp_pure py_op length].
  rewrite py_eq_dec_stored by done. case_bool_decide as He.
  - subst y. destruct (IH b (S c) ae Hst) as (n & e & -> & Hb & Hiff); [cbn in Hl; lia|].
    exists n, e. split; [done|]. split; [lia|]. split.
    + intros Hn. f_equal. apply Hiff. lia.
    + intros [= ->]. pose proof (proj2 Hiff eq_refl). lia.
  - exists c, false. split; [done|]. split; [lia|]. split; [lia|]. congruence.
Qed.

Lemma is_instance_refl k : is_instance k k = true.
Proof. destruct k; cbn; try done; by apply bool_decide_eq_true. Qed.

Lemma check_cmp_ok k s o o' g1 g2 : rep k s o g1 -> rep k s o' g2 -> check_cmp o o' s = Ok tt s.
Proof.
  intros Hr1 Hr2. destruct (obj_eq Hr1) as (ob & Hob & Hkb & _).
  destruct (obj_eq Hr2) as (oc & Hoc & Hkc & _).
  unfold check_cmp. erewrite !bind_ok by (by apply get_obj_ok). rewrite Hkb, Hkc.
  by rewrite is_instance_refl.
Qed.

Lemma list_eq_ok k s o o' g1 g2 : rep k s o g1 -> rep k s o' g2 ->
  list_eq o o' s = Ok (bool_decide (vals g1 = vals g2)) s
  /\ list_ne o o' s = Ok (negb (bool_decide (vals g1 = vals g2))) s.
Proof.
  intros Hr1 Hr2. destruct (obj_eq Hr1) as (ob & Hob & Hkb & Hlen & _).
  destruct (obj_eq Hr2) as (oc & Hoc & Hkc & Hlen2 & _).
  assert (length g1 <> length g2 -> bool_decide (vals g1 = vals g2) = false) as Hlne.
  { intros Hne. apply bool_decide_eq_false. intros H. apply Hne.
    rewrite <- (map_length g_val g1), H. by rewrite map_length. }
  assert (length g1 = length g2 -> exists n e, compare OpEq o o' s = Ok (n, e) s
     /\ Nat.eqb n (length g1) && true = bool_decide (vals g1 = vals g2)) as Hleq.
  { intros Heq. destruct (cmp_eq_pure (vals g1) (vals g2) 0 true) as (n & e & Hc & Hle & Hiff).
    { by eapply rep_stored_list. }
    { by rewrite !map_length. }
    exists n, e. split.
    { erewrite compare_ok by done. by rewrite Hc. }
    rewrite map_length in Hiff, Hle. cbn in Hiff.
    rewrite andb_true_r. destruct (Nat.eqb_spec n (length g1)).
    - symmetry. apply bool_decide_eq_true. by apply Hiff.
    - symmetry. apply bool_decide_eq_false. intros H. by apply Hiff in H. }
  unfold list_eq, list_ne. split.
  all: erewrite bind_ok by (by eapply check_cmp_ok).
  all: erewrite (bind_ok (get_obj o)) by (by apply get_obj_ok).
  all: erewrite (bind_ok (get_obj o')) by (by apply get_obj_ok); rewrite Hlen, Hlen2.
  all: destruct (Nat.eqb_spec (length g1) (length g2)) as [Heq|Hne]; cbn [negb]; [|by rewrite Hlne].
  all: destruct (Hleq Heq) as (n & e & Hcmp & He).
  all: erewrite bind_ok by exact Hcmp; unfold ret; cbn [fst]; by rewrite He.
Qed.
