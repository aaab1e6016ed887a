(** * Spec of _remove_node for the three classes. *)
From Verif Require Import Base ListModel ListRep ListCore.
Local Open Scope py_scope.

(** Ghost effect of removing node [n]: the head is removed by copying its
    successor's data into it, except in a two-element DoublyLinkedList. *)
Definition rem_ghost (k : lcls) (g1 : list gn) (n : gn) (g2 : list gn) : list gn :=
  match g1, g2 with
  | [], m :: r => if is_dll k && Nat.eqb (length r) 0 then g2
                  else GN (g_loc n) (g_val m) (g_pri n) (g_dn n) :: r
  | _, _ => g1 ++ g2
  end.
Lemma rem_ghost_vals k g1 n g2 : vals (rem_ghost k g1 n g2) = vals g1 ++ vals g2.
Proof.
  unfold rem_ghost. destruct g1 as [|a g1], g2 as [|b g2]; cbn; rewrite ?map_app; try done.
  by destruct (is_dll k && _).
Qed.
Lemma rem_ghost_locs k g1 n g2 l : l ∈ locs (rem_ghost k g1 n g2) -> l ∈ locs (g1 ++ n :: g2).
Proof.
  unfold rem_ghost. destruct g1 as [|a g1], g2 as [|b g2]; cbn; rewrite ?map_app; cbn; try set_solver.
  destruct (is_dll k && _); cbn; set_solver.
Qed.
Lemma rem_ghost_length k g1 n g2 : length (rem_ghost k g1 n g2) = length (g1 ++ g2).
Proof.
  unfold rem_ghost. destruct g1 as [|a g1], g2 as [|b g2]; cbn; try done.
  destruct (is_dll k && _); done.
Qed.

Definition rem_post (k : lcls) (s : st) (o : nat) (g1 : list gn) (n : gn) (g2 : list gn)
    (r : unit) (s' : st) : Prop :=
  rep k s' o (rem_ghost k g1 n g2)
  /\ modifies (locs (g1 ++ n :: g2)) [o] s s'
  /\ length (s_nodes s') = length (s_nodes s) /\ length (s_objs s') = length (s_objs s).

Lemma NoDup_mid_remove (g1 g2 : list gn) n :
  NoDup (locs (g1 ++ n :: g2)) -> NoDup (locs (g1 ++ g2)) /\ g_loc n ∉ locs (g1 ++ g2).
Proof.
  rewrite !map_app. cbn. rewrite <- Permutation_middle. intros [? ?]%NoDup_cons. done.
Qed.

Lemma unsplice d h h' g1 p n g2 q cp :
  lseg h d None ((g1 ++ [p]) ++ n :: g2) q -> (d = true -> q = None) ->
  NoDup (locs ((g1 ++ [p]) ++ n :: g2)) ->
  h !! g_loc p = Some cp ->
  linked d h (g_loc p) cp (hd_loc g2 q) h' ->
  lseg h' d None ((g1 ++ [p]) ++ g2) q
  /\ length h' = length h
  /\ (forall l, l ∉ locs ((g1 ++ [p]) ++ n :: g2) -> h' !! l = h !! l).
Proof.
  intros Hs Hq Hnd Hcp (Hl & Hh & Hx & Hfr).
  pose proof (NoDup_mid_remove _ _ _ Hnd) as [Hnd' Hn'].
  apply lseg_app in Hs as [Hs1 [_ Hs2]]. split_and!.
  - apply lseg_app. split.
    + apply lseg_app in Hs1 as [Hs1 [Hp _]]. apply lseg_app. split.
      * cbn [hd_loc] in *. eapply lseg_frame; [|exact Hs1]. intros l Hin. apply Hfr.
        -- rewrite <- app_assoc in Hnd'. intros ->.
           eapply (NoDup_locs_inj g1 _ _ _ Hnd' Hin); [|reflexivity]. cbn. set_solver.
        -- destruct d; [|by left]. right. rewrite Hq by done. destruct g2 as [|x g2]; [done|].
           cbn. intros [= ->].
           eapply (NoDup_locs_inj (g1 ++ [p]) _ (g_loc x) (g_loc x) Hnd'); [|cbn; set_solver|done].
           rewrite map_app_locs. set_solver.
      * split; [|done]. destruct Hp as (cp' & Hcp' & ? & ? & ? & ? & ? & ?).
        rewrite Hcp in Hcp'. injection Hcp' as <-. by eapply cell_ok_upd_next.
    + rewrite last_loc_snoc. destruct g2 as [|x g2]; [done|]. cbn in Hx, Hs2.
      destruct Hs2 as [(cx & Hcx & ? & ? & ? & ? & ? & ?) Hs2].
      assert (g_loc x <> g_loc p) as Hxp.
      { intros Heq. eapply (NoDup_locs_inj (g1 ++ [p]) _ (g_loc p) (g_loc x) Hnd'); [apply elem_last|cbn; set_solver|done]. }
      split.
      * destruct d.
        -- destruct Hx as (cx' & Hcx' & Hx). rewrite Hcx in Hcx'. injection Hcx' as <-.
           eexists. split; [exact Hx|]. done.
        -- exists cx. split_and!; try done. rewrite Hfr; [done|done|by left].
      * eapply lseg_frame; [|exact Hs2]. intros l Hin. apply Hfr.
        -- intros ->. eapply (NoDup_locs_inj (g1 ++ [p]) _ (g_loc p) (g_loc p) Hnd'); [apply elem_last|cbn; set_solver|done].
        -- right. intros [= ->]. rewrite map_app_locs in Hnd'. apply NoDup_app in Hnd' as (_ & _ & Hnd2).
           cbn in Hnd2. by apply NoDup_cons in Hnd2 as [? _].
  - done.
  - intros l Hin. apply Hfr.
    + intros ->. apply Hin. rewrite map_app_locs. pose proof (elem_last g1 p). set_solver.
    + destruct d; [|by left]. right. rewrite Hq by done. intros Heq. apply Hin.
      destruct g2 as [|x g2]; [done|]. injection Heq as ->. rewrite map_app_locs. cbn. set_solver.
Qed.

Lemma wp_dec o ob s (Q : unit -> st -> Prop) :
  s_objs s !! o = Some ob ->
  Q tt (St (s_nodes s) (<[o := set_len ob (o_len ob - 1)]> (s_objs s))) ->
  wp (let! o' := get_obj o in put_obj o (set_len o' (o_len o' - 1))) Q s.
Proof. intros H HQ. wget_obj H. by apply wp_put_obj. Qed.

Lemma rem_finish k s o ob g1 n g2 h' hd tl g' len :
  rep k s o (g1 ++ n :: g2) ->
  s_objs s !! o = Some ob ->
  g' = rem_ghost k g1 n g2 ->
  length h' = length (s_nodes s) ->
  lseg h' (is_dll k) None g' (endp k g') ->
  (forall l, l ∉ locs (g1 ++ n :: g2) -> h' !! l = s_nodes s !! l) ->
  (g' <> [] -> hd = hd_loc g' None) ->
  (k = CDLL -> g' <> [] -> tl = last_loc None g') ->
  S len = length (g1 ++ n :: g2) ->
  rem_post k s o g1 n g2 tt (St h' (<[o := LObj k hd tl len]> (s_objs s))).
Proof.
  intros Hr Hob -> Hlen Hs Hfr Hhd Htl HL.
  pose proof (NoDup_mid_remove _ _ _ (rep_nodup _ _ _ _ Hr)) as [Hnd' Hn'].
  pose proof (rep_stored _ _ _ _ Hr) as Hst.
  unfold rem_post. split_and!; [| |done|cbn; by rewrite insert_length].
  - split; cbn.
    + exists hd, tl. split_and!; [|done|auto].
      erewrite set_obj_lookup by done. do 2 f_equal. rewrite rem_ghost_length.
      rewrite !app_length in *. cbn in HL. lia.
    + done.
    + unfold rem_ghost. destruct g1 as [|a g1], g2 as [|b g2]; try done.
      destruct (is_dll k && _); [done|]. cbn in *. apply NoDup_cons in Hnd' as [? ?].
      apply NoDup_cons. split; [set_solver|done].
    + rewrite Forall_app, Forall_cons in Hst. destruct Hst as (? & ? & Hst).
      unfold rem_ghost. destruct g1 as [|a g1], g2 as [|b g2]; rewrite ?Forall_app; try done.
      destruct (is_dll k && _); [done|]. apply Forall_cons in Hst as [? ?]. by apply Forall_cons.
  - by apply put_obj_modifies.
Qed.

Lemma endp_drop_mid k g1 n p g2 :
  endp k ((g1 ++ [p]) ++ n :: g2) = endp k ((g1 ++ [p]) ++ g2).
Proof. apply endp_app_cons. Qed.

(** [prev.set_next(node.get_next())] for a node that is not the first. *)
Lemma wp_unlink k s o g1 p n g2 (Q : unit -> st -> Prop) :
  rep k s o ((g1 ++ [p]) ++ n :: g2) ->
  (forall h', lseg h' (is_dll k) None ((g1 ++ [p]) ++ g2) (endp k ((g1 ++ [p]) ++ g2)) ->
      length h' = length (s_nodes s) ->
      (forall l, l ∉ locs ((g1 ++ [p]) ++ n :: g2) -> h' !! l = s_nodes s !! l) ->
      Q tt (St h' (s_objs s))) ->
  wp (set_next (g_loc p) (hd_loc g2 (endp k ((g1 ++ [p]) ++ n :: g2)))) Q s.
Proof.
  intros Hr HQ.
  pose proof (rep_seg _ _ _ _ Hr) as Hs. pose proof (rep_nodup _ _ _ _ Hr) as Hnd.
  pose proof (NoDup_mid_remove _ _ _ Hnd) as [Hnd' Hn'].
  pose proof Hs as [Hs1 [_ Hs2]]%lseg_app.
  destruct (lseg_last _ _ _ _ _ _ Hs1) as (cp & Hcp & Hd & Hdat & Hpri & Hdn & Hnx & Hpv).
  eapply (wp_set_next (is_dll k)); [exact Hcp|done| |].
  { intros x Hx Hdll. rewrite endp_dll in Hx by done.
    destruct g2 as [|y g2]; [done|]. injection Hx as <-.
    destruct Hs2 as [(cx & Hcx & ? & _) _]. split; [|by exists cx; rewrite <- Hdll].
    intros Heq. eapply (NoDup_locs_inj (g1 ++ [p]) _ (g_loc p) (g_loc y) Hnd'); [apply elem_last|cbn; set_solver|done]. }
  intros h' L.
  destruct (unsplice (is_dll k) (s_nodes s) h' g1 p n g2 (endp k ((g1 ++ [p]) ++ n :: g2)) cp)
    as (Hs' & Hl' & Hfr'); try done.
  { by apply endp_dll. }
  apply HQ; [|done|done]. by rewrite endp_app_cons in Hs'.
Qed.

(** [head.set_next(second.get_next()); head.set_data(second.get_data())] as one heap step. *)
Lemma head_copy d h h1 n m r q cn :
  lseg h d None (n :: m :: r) q -> (d = true -> q = None) ->
  NoDup (locs (n :: m :: r)) -> h !! g_loc n = Some cn ->
  linked d h (g_loc n) cn (hd_loc r q) h1 ->
  lseg (<[g_loc n := upd_data (upd_next cn (hd_loc r q)) (g_val m)]> h1) d None
    (GN (g_loc n) (g_val m) (g_pri n) (g_dn n) :: r) q
  /\ length h1 = length h
  /\ (forall l, l ∉ locs (n :: m :: r) -> h1 !! l = h !! l).
Proof.
  intros Hs Hq Hnd Hcn (Hl & Hh & Hx & Hfr).
  cbn in Hnd. rewrite !NoDup_cons in Hnd. destruct Hnd as (Hn & Hm & Hnd).
  destruct Hs as [(cn' & Hcn' & ? & ? & ? & ? & ? & ?) [_ Hs]].
  rewrite Hcn in Hcn'. injection Hcn' as <-.
  pose proof (lookup_lt_Some _ _ _ Hh) as Hlt.
  split_and!.
  - split.
    + eexists. split; [by apply list_lookup_insert|]. done.
    + cbn. destruct r as [|x r]; [done|]. cbn in Hx, Hs, Hn, Hm, Hnd.
      assert (g_loc x <> g_loc n) as Hxn by set_solver.
      destruct Hs as [(cx & Hcx & ? & ? & ? & ? & ? & ?) Hs]. split.
      * destruct d.
        -- destruct Hx as (cx' & Hcx' & Hx). rewrite Hcx in Hcx'. injection Hcx' as <-.
           eexists. split; [rewrite list_lookup_insert_ne by done; exact Hx|]. done.
        -- exists cx. split_and!; try done. rewrite list_lookup_insert_ne, Hfr; [done|done|by left|done].
      * eapply lseg_frame; [|exact Hs]. intros l Hin.
        rewrite list_lookup_insert_ne by set_solver. apply Hfr; [set_solver|].
        right. intros [= ->]. by apply NoDup_cons in Hnd as [? _].
  - done.
  - cbn. intros l Hin. apply Hfr; [set_solver|]. destruct d; [|by left]. right.
    rewrite Hq by done. destruct r as [|x r]; [done|]. cbn in *. intros [= ->]. set_solver.
Qed.

Lemma ll_remove_node_spec k s o g1 n g2 :
  rep k s o (g1 ++ n :: g2) ->
  is_cll k = false -> (k = CDLL -> 3 <= length (g1 ++ n :: g2) /\ g2 <> []) ->
  wp (ll_remove_node o (last_loc None g1) (g_loc n)) (rem_post k s o g1 n g2) s.
Proof.
  intros Hr Hcll Hbig. destruct (obj_eq Hr) as (ob & Hob & Hk & Hlen & Hhd & Htl).
  pose proof (rep_seg _ _ _ _ Hr) as Hs. pose proof (rep_nodup _ _ _ _ Hr) as Hnd.
  rewrite (endp_noncll k) in Hs by done.
  assert (g1 ++ n :: g2 <> []) as Hne by (by destruct g1).
  specialize (Hhd Hne).
  unfold ll_remove_node. wget_obj Hob. destruct ob as [k' hd tl len]. cbn in Hk, Hlen, Hhd, Htl. subst k' len.
  pose proof Hs as [_ [(cn & Hcn & Hd & Hdat & Hpri & Hdn & Hnx & Hpv) Hs2]]%lseg_app.
  apply wp_bind. eapply wp_get_next; [exact Hcn|]. rewrite Hnx.
  destruct g1 as [|p g1 _] using rev_ind.
  - cbn [last_loc last app] in *. apply wp_bind, wp_bind. eapply wp_deref; [exact Hhd|].
    destruct (Nat.eqb _ 1) eqn:H1.
    + apply Nat.eqb_eq in H1. destruct g2; [|done].
      eapply wp_set_data_raw; [exact Hcn|]. cbn. eapply wp_dec; [exact Hob|]. cbn.
      eapply (rem_finish k s o _ [] n []); try done.
      * by rewrite insert_length.
      * intros l Hl. rewrite list_lookup_insert_ne; [done|]. cbn in Hl. set_solver.
    + destruct g2 as [|m r]; [done|]. cbn [hd_loc]. apply wp_bind. eapply wp_deref; [done|].
      cbn in Hs. destruct Hs as [_ [(cm & Hcm & Hmd & Hmdat & Hmpri & Hmdn & Hmnx & Hmpv) Hs3]].
      assert (g_loc n <> g_loc m) as Hnm.
      { cbn in Hnd. apply NoDup_cons in Hnd as [Hnd _]. set_solver. }
      apply wp_bind. eapply wp_get_next; [exact Hcm|]. rewrite Hmnx. apply wp_bind.
      eapply (wp_set_next (is_dll k)); [exact Hcn|done| |].
      { intros x Hx Hdll. destruct r as [|y r]; [done|]. injection Hx as <-.
        destruct Hs3 as [(cx & Hcx & ? & _) _]. split; [|by exists cx; rewrite <- Hdll].
        cbn in Hnd. rewrite !NoDup_cons in Hnd. set_solver. }
      intros h1 L.
      destruct (head_copy (is_dll k) (s_nodes s) h1 n m r None cn) as (Hs' & Hl' & Hfr'); try done.
      { pose proof (rep_seg _ _ _ _ Hr) as Hs. by rewrite (endp_noncll k) in Hs. }
      destruct L as (_ & Hh1 & Hx1 & Hfr1).
      assert (exists cm', h1 !! g_loc m = Some cm' /\ c_data cm' = g_val m) as (cm' & Hcm' & Hcm'd).
      { exists cm. split; [|done]. rewrite Hfr1; [done|done|]. right.
        destruct r as [|x r]; [done|]. cbn. intros [= Heq].
        cbn in Hnd. rewrite !NoDup_cons in Hnd. set_solver. }
      apply wp_bind. eapply wp_get_data; [exact Hcm'|]. rewrite Hcm'd.
      eapply wp_set_data; [exact Hh1| |].
      { pose proof (rep_stored _ _ _ _ Hr) as Hst. rewrite !Forall_cons in Hst. tauto. }
      cbn [s_nodes s_objs]. eapply wp_dec; [exact Hob|]. cbn [o_len set_len s_nodes s_objs o_cls o_head o_tail].
      assert (rem_ghost k [] n (m :: r) = GN (g_loc n) (g_val m) (g_pri n) (g_dn n) :: r) as Hg.
      { unfold rem_ghost. destruct k; try done. cbn in Hbig. destruct Hbig as [? _]; [done|].
        destruct r; [cbn in *; lia|done]. }
      eapply (rem_finish k s o _ [] n (m :: r)); [done|done|symmetry; exact Hg| | | | | |].
      * by rewrite insert_length.
      * rewrite endp_noncll by done. exact Hs'.
      * intros l Hl. rewrite list_lookup_insert_ne; [by apply Hfr'|]. cbn in Hl. set_solver.
      * intros _. by rewrite Hhd.
      * intros HC _. rewrite Htl by done. rewrite !last_loc_cons.
        destruct r as [|x r]; [|by rewrite !last_loc_cons]. destruct Hbig; [done|]. cbn in *. lia.
      * cbn. lia.
  - rewrite last_loc_snoc. apply wp_bind. 
    replace (hd_loc g2 None) with (hd_loc g2 (endp k ((g1 ++ [p]) ++ n :: g2)))
      by (by rewrite endp_noncll).
    eapply (wp_unlink k); [done|]. intros h' Hs' Hl' Hfr'.
    eapply wp_dec; [exact Hob|]. cbn [o_len set_len s_nodes s_objs o_cls o_head o_tail].
    assert (rem_ghost k (g1 ++ [p]) n g2 = (g1 ++ [p]) ++ g2) as Hg.
    { unfold rem_ghost. by destruct g1. }
    eapply (rem_finish k s o _ (g1 ++ [p]) n g2); [done|done|symmetry; exact Hg|done|done|done| | |].
    + intros _. rewrite Hhd. apply hd_app_cons.
    + intros HC Hne'. rewrite Htl by done. destruct Hbig as [_ Hb]; [done|].
      destruct g2 as [|x g2]; [done|]. by rewrite !last_loc_app, !last_loc_cons.
    + rewrite !app_length. cbn. lia.
Qed.

Lemma dll_remove_node_spec s o g1 n g2 :
  rep CDLL s o (g1 ++ n :: g2) ->
  wp (dll_remove_node o (last_loc None g1) (g_loc n)) (rem_post CDLL s o g1 n g2) s.
Proof.
  intros Hr. destruct (obj_eq Hr) as (ob & Hob & Hk & Hlen & Hhd & Htl).
  pose proof (rep_seg _ _ _ _ Hr) as Hs. pose proof (rep_nodup _ _ _ _ Hr) as Hnd. cbn in Hs.
  assert (g1 ++ n :: g2 <> []) as Hne by (by destruct g1).
  specialize (Hhd Hne). specialize (Htl eq_refl Hne).
  unfold dll_remove_node. wget_obj Hob. rewrite Hlen.
  destruct ob as [k' hd tl len]. cbn in Hk, Hlen, Hhd, Htl. subst k' len.
  pose proof Hs as [_ [(cn & Hcn & Hd & Hdat & Hpri & Hdn & Hnx & Hpv) Hs2]]%lseg_app.
  apply wp_bind. eapply wp_get_next; [exact Hcn|]. rewrite Hnx. cbn [is_dll] in *.
  destruct (Nat.eqb _ 1) eqn:H1.
  { apply Nat.eqb_eq in H1. rewrite app_length in H1. cbn in H1.
    destruct g1; [|cbn in H1; lia]. destruct g2; [|cbn in H1; lia].
    cbn in Hhd, Htl. apply wp_bind. eapply wp_deref; [exact Htl|].
    apply wp_bind. eapply wp_deref; [exact Hhd|]. eapply wp_dec; [exact Hob|]. cbn.
    eapply (rem_finish CDLL s o _ [] n []); done. }
  apply Nat.eqb_neq in H1.
  (* removing the last of at least two nodes *)
  assert (forall g p (Q : unit -> st -> Prop), g1 = g ++ [p] -> g2 = [] ->
    (forall h', rem_post CDLL s o g1 n g2 tt (St h'
       (<[o := LObj CDLL hd (Some (g_loc p)) (length (g1 ++ n :: g2) - 1)]> (s_objs s))) ->
       Q tt (St h' (<[o := LObj CDLL hd (Some (g_loc p)) (length (g1 ++ n :: g2) - 1)]> (s_objs s)))) ->
    wp (set_next (g_loc p) None ;;
        put_obj o (LObj CDLL hd (Some (g_loc p)) (length (g1 ++ n :: g2))) ;;
        let! o' := get_obj o in put_obj o (set_len o' (o_len o' - 1))) Q s) as Hlast.
  { intros g p Q -> -> HQ. apply wp_bind. eapply (wp_unlink CDLL s o g p n []); [done|].
    intros h' Hs' Hl' Hfr'. apply wp_bind, wp_put_obj. cbn.
    eapply wp_dec; [cbn; by eapply set_obj_lookup|]. cbn. rewrite insert_insert_obj.
    apply HQ. assert (rem_ghost CDLL (g ++ [p]) n [] = (g ++ [p])) as Hg.
    { unfold rem_ghost. rewrite app_nil_r. by destruct g. }
    rewrite app_nil_r in Hs'.
    eapply (rem_finish CDLL s o _ (g ++ [p]) n []); [done|done|symmetry; exact Hg|done|done|done| | |].
    - intros _. rewrite Hhd. rewrite hd_app_cons. by rewrite app_nil_r.
    - intros _ _. by rewrite last_loc_snoc.
    - rewrite !app_length. cbn. lia. }
  destruct (Nat.eqb _ 2) eqn:H2.
  { apply Nat.eqb_eq in H2. rewrite app_length in H2. cbn in H2.
    destruct g1 as [|p g1 _] using rev_ind.
    - destruct g2 as [|m [|]]; [done| |done]. cbn [last_loc last hd_loc]. clear Hlast. cbn in *.
      apply wp_bind, wp_bind.
      destruct Hs2 as [(cm & Hcm & ? & ? & ? & ? & ? & ?) _].
      apply wp_bind. apply wp_bind. eapply wp_get_cell; [exact Hcm|]. apply wp_put_cell, wp_put_obj. cbn.
      eapply wp_dec; [cbn; by eapply set_obj_lookup|]. cbn. rewrite insert_insert_obj.
      eapply (rem_finish CDLL s o _ [] n [m]); try done.
      + by rewrite insert_length.
      + cbn. split; [|done]. eexists. split; [apply list_lookup_insert; by eapply lookup_lt_Some|]. done.
      + intros l Hl. cbn in Hl. rewrite list_lookup_insert_ne; [done|]. set_solver.
    - rewrite app_length in H2. cbn in H2. destruct g1; [|cbn in H2; lia]. destruct g2; [|cbn in H2; lia].
      cbn [app last_loc last hd_loc]. 
      specialize (Hlast [] p (rem_post CDLL s o [p] n []) eq_refl eq_refl (fun _ H => H)).
      apply wp_bind. apply wp_bind_inv in Hlast. apply wp_bind. eapply wp_mono; [exact Hlast|].
      intros [] s1 Hw. by apply wp_bind_inv in Hw. }
  apply Nat.eqb_neq in H2.
  destruct g2 as [|m r].
  - cbn [hd_loc]. destruct g1 as [|p g1 _] using rev_ind; [done|].
    rewrite last_loc_snoc. apply wp_bind. eapply wp_deref; [done|].
    apply (Hlast g1 p); done.
  - cbn [hd_loc]. apply ll_remove_node_spec; [done|done|]. intros _. split; [|done].
    rewrite app_length in *. cbn in *. lia.
Qed.

Lemma cll_remove_node_spec s o g1 n g2 :
  rep CCLL s o (g1 ++ n :: g2) ->
  wp (cll_remove_node o (last_loc None g1) (g_loc n)) (rem_post CCLL s o g1 n g2) s.
Proof.
  intros Hr. destruct (obj_eq Hr) as (ob & Hob & Hk & Hlen & Hhd & _).
  pose proof (rep_seg _ _ _ _ Hr) as Hs. pose proof (rep_nodup _ _ _ _ Hr) as Hnd.
  assert (g1 ++ n :: g2 <> []) as Hne by (by destruct g1).
  specialize (Hhd Hne).
  unfold cll_remove_node. wget_obj Hob.
  destruct ob as [k' hd tl len]. cbn in Hk, Hlen, Hhd. subst k' len.
  pose proof Hs as [_ [(cn & Hcn & Hd & Hdat & Hpri & Hdn & Hnx & Hpv) Hs2]]%lseg_app.
  destruct g1 as [|p g1 _] using rev_ind.
  - cbn [last_loc last app] in *. apply wp_bind, wp_bind. eapply wp_deref; [exact Hhd|].
    cbn [o_len]. destruct (Nat.eqb _ 1) eqn:H1.
    + apply Nat.eqb_eq in H1. destruct g2; [|done].
      eapply wp_set_data_raw; [exact Hcn|]. cbn. eapply wp_dec; [exact Hob|]. cbn.
      eapply (rem_finish CCLL s o _ [] n []); try done.
      * by rewrite insert_length.
      * intros l Hl. rewrite list_lookup_insert_ne; [done|]. cbn in Hl. set_solver.
    + destruct g2 as [|m r]; [done|]. apply wp_bind. eapply wp_get_next; [exact Hcn|]. rewrite Hnx.
      cbn [hd_loc]. apply wp_bind. eapply wp_deref; [done|].
      cbn [endp is_cll] in Hs. cbn in Hs. destruct Hs as [_ [(cm & Hcm & Hmd & Hmdat & Hmpri & Hmdn & Hmnx & Hmpv) Hs3]].
      assert (g_loc n <> g_loc m) as Hnm.
      { cbn in Hnd. apply NoDup_cons in Hnd as [Hnd _]. set_solver. }
      apply wp_bind. eapply wp_get_data; [exact Hcm|]. rewrite Hmdat.
      apply wp_bind. eapply wp_set_data; [exact Hcn| |].
      { pose proof (rep_stored _ _ _ _ Hr) as Hst. rewrite !Forall_cons in Hst. tauto. }
      cbn [s_nodes s_objs]. apply wp_bind. eapply wp_get_next.
      { cbn. rewrite list_lookup_insert_ne by done. exact Hcm. }
      rewrite Hmnx. pose proof (lookup_lt_Some _ _ _ Hcn) as Hlt.
      eapply wp_set_next_single; [cbn; by apply list_lookup_insert|by left|]. cbn.
      eapply wp_dec; [exact Hob|]. cbn [o_len set_len s_nodes s_objs o_cls o_head o_tail].
      rewrite list_insert_insert.
      assert (linked false (s_nodes s) (g_loc n) cn (hd_loc r (Some (g_loc n)))
        (<[g_loc n := upd_next cn (hd_loc r (Some (g_loc n)))]> (s_nodes s))) as L.
      { split_and!.
        - by rewrite insert_length.
        - by apply list_lookup_insert.
        - by destruct (hd_loc r _).
        - intros y Hy _. by rewrite list_lookup_insert_ne. }
      pose proof (rep_seg _ _ _ _ Hr) as Hs.
      destruct (head_copy false _ _ n m r (Some (g_loc n)) cn Hs ltac:(done) Hnd Hcn L) as (Hs' & Hl' & Hfr'); try done.
      rewrite list_insert_insert in Hs'.
      eapply (rem_finish CCLL s o _ [] n (m :: r)); try done.
      * by rewrite insert_length.
      * intros l Hl. rewrite list_lookup_insert_ne; [done|]. cbn in Hl. set_solver.
  - rewrite last_loc_snoc. apply wp_bind. apply wp_bind. eapply wp_get_next; [exact Hcn|]. rewrite Hnx.
    eapply (wp_unlink CCLL); [done|]. intros h' Hs' Hl' Hfr'.
    eapply wp_dec; [exact Hob|]. cbn [o_len set_len s_nodes s_objs o_cls o_head o_tail].
    assert (rem_ghost CCLL (g1 ++ [p]) n g2 = (g1 ++ [p]) ++ g2) as Hg.
    { unfold rem_ghost. by destruct g1. }
    eapply (rem_finish CCLL s o _ (g1 ++ [p]) n g2); [done|done|symmetry; exact Hg|done|done|done| |done|].
    + intros _. rewrite Hhd. apply hd_app_cons.
    + rewrite !app_length. cbn. lia.
Qed.

Lemma remove_node_spec k s o g1 n g2 :
  rep k s o (g1 ++ n :: g2) ->
  wp (remove_node o (last_loc None g1) (g_loc n)) (rem_post k s o g1 n g2) s.
Proof.
  intros Hr. destruct (obj_eq Hr) as (ob & Hob & Hk & _).
  unfold remove_node. wget_obj Hob. rewrite Hk. destruct k.
  - by apply ll_remove_node_spec.
  - by apply dll_remove_node_spec.
  - by apply cll_remove_node_spec.
Qed.
