(** * Consequences of the simulation, in the form used by ListProps.v. *)
From Coq Require Import Sorted.
From Verif Require Import Base ListModel ListRep ListCore ListCore2 ListSpec ListPure ListOps ListOps2 ListRun ListOps3 ListSim.
Local Open Scope py_scope.

Theorem run_refines k ops outs w :
  spec_run k [] ops = Some (outs, w) -> exists c, model_run k conf0 ops = Some (outs, c).
Proof. intros Hs. destruct (sim_run [] k ops conf0 [] outs w (rel0 _) Hs) as (c & Hc & _). by exists c. Qed.

(** ** Totality of the specification on the histories of C01 *)
Definition only_var0 (w : world) : Prop := exists vs, w = [Some vs].

Lemma insert_var0 (vs vs' : list pyval) : store [Some vs] 0 vs' = [Some vs'].
Proof. done. Qed.

Lemma bad_index_int k n i : bad_index k n i = None -> exists z, i = AInt z /\ (0 <= z)%Z /\
  (k <> Circular -> (z <= Z.of_nat n)%Z).
Proof. apply bad_index_none. Qed.

Lemma single_total k op vs : single_list_call op -> (k = Circular -> not_setitem op) ->
  exists out vs', spec_step k [Some vs] op = Some (out, [Some vs']).
Proof.
  intros Hop Hk. destruct op as [items|x v|x v|x i v|x i v|x i|x|x|x v all|x|x d r|x d r|x y|x|x|x i|x i|x v|x v|x|x|x|x y|x y];
    try destruct x; try done; cbn -[bad_index validate_item norm_item ListSpec.insert_at delete_at remove_every remove_first rotated occurrences].
  - destruct (validate_item v); eauto.
  - destruct (validate_item v); eauto.
  - destruct (bad_index _ _ _); [eauto|]. destruct (validate_item v); eauto.
  - destruct (bad_index _ _ _); [eauto|]. destruct k; [| |exfalso; by apply Hk].
    + case_bool_decide; [eauto|]. destruct (validate_item v); eauto.
    + case_bool_decide; [eauto|]. destruct (validate_item v); eauto.
  - destruct (bad_index _ _ _); [eauto|]. destruct k; [case_bool_decide; eauto..|eauto].
  - eauto.
  - eauto.
  - destruct all; [|eauto]. destruct (validate_item v); eauto.
  - eauto.
  - destruct d; [|eauto]. case_bool_decide; eauto.
  - destruct i as [z| |]; [|done|].
    + assert (forall z', (0 <= z' < Z.of_nat (length vs))%Z -> is_Some (vs !! Z.to_nat z')) as Hlk.
      { intros z' Hz'. apply lookup_lt_is_Some_2. lia. }
      destruct k.
      * case_bool_decide as Hb; [eauto|].
        destruct (Hlk (if bool_decide (z < 0) then z + Z.of_nat (length vs) else z)%Z) as [v ->]; [|eauto].
        case_bool_decide; lia.
      * case_bool_decide as Hb; [eauto|].
        destruct (Hlk (if bool_decide (z < 0) then z + Z.of_nat (length vs) else z)%Z) as [v ->]; [|eauto].
        case_bool_decide; lia.
      * destruct (bad_index _ _ _); [eauto|]. cbn. destruct (vs !! _); eauto.
    + destruct k; eauto.
  - cbn in Hop. rewrite Hop. eauto.
  - cbn in Hop. rewrite Hop. eauto.
  - eauto.
  - eauto.
  - eauto.
Qed.

Lemma single_run_total k ops : forall vs, Forall single_list_call ops -> (k = Circular -> Forall not_setitem ops) ->
  exists outs vs', spec_run k [Some vs] ops = Some (outs, [Some vs']).
Proof.
  induction ops as [|op ops IH]; intros vs Hops Hk; [cbn; eauto|].
  apply Forall_cons in Hops as [Hop Hops].
  destruct (single_total k op vs Hop) as (o & vs1 & H1).
  { intros HC. specialize (Hk HC). by apply Forall_cons in Hk as [? _]. }
  destruct (IH vs1 Hops) as (os & vs2 & H2).
  { intros HC. specialize (Hk HC). by apply Forall_cons in Hk as [_ ?]. }
  cbn [spec_run]. rewrite H1. cbn [mbind option_bind]. rewrite H2. cbn. eauto.
Qed.

Theorem single_list_history k items ops : Forall storable items -> Forall single_list_call ops ->
  (k = Circular -> Forall not_setitem ops) ->
  exists outs w c, spec_run k [] (LNew items :: ops) = Some (outs, w)
    /\ model_run k conf0 (LNew items :: ops) = Some (outs, c).
Proof.
  intros Hi Hops Hk. destruct (single_run_total k ops (map norm_item items) Hops Hk) as (outs & vs & Hs).
  assert (spec_run k [] (LNew items :: ops) = Some (RNew 1 :: outs, [Some vs])) as Hall.
  { cbn [spec_run spec_step]. destruct (list_find _ items) as [[j v]|] eqn:Hf.
    - exfalso. apply list_find_Some in Hf as (Hj & Hbad & _). apply Hbad.
      rewrite Forall_lookup in Hi. by apply (Hi j v).
    - cbn [mbind option_bind app]. by rewrite Hs. }
  destruct (run_refines _ _ _ _ Hall) as (c & Hc). eauto.
Qed.

Lemma spec_exc_same k w op e w' : spec_step k w op = Some (RExc e, w') -> w' = w.
Proof.
  intros Hs. destruct op as [items|x v|x v|x i v|x i v|x i|x|x|x v all|x|x d r|x d r|x y|x|x|x i|x i|x v|x v|x|x|x|x y|x y];
    cbn [spec_step] in Hs.
  all: repeat match type of Hs with
    | mbind _ ?m = _ => destruct m; cbn [mbind option_bind] in Hs
    | match ?m with _ => _ end = _ => destruct m
    | (let _ := _ in _) = _ => cbn zeta in Hs
    | None = _ => discriminate Hs
    | Some (RExc _, _) = _ => injection Hs as _ ->; reflexivity
    | Some _ = _ => discriminate Hs
    end.
Qed.

(** ** Structure of reachable states *)
Lemma follow_lseg h d q f (Hf : f = c_next) : forall g pv, lseg h d pv g q ->
  follow f h (length g) (hd_loc g q) = locs g.
Proof.
  subst f. induction g as [|n g IH]; intros pv Hs; [by destruct q|].
  destruct Hs as [(c & Hc & _ & _ & _ & _ & Hnx & _) Hs]. cbn [length follow hd_loc map].
  rewrite Hc, Hnx. f_equal. by eapply IH.
Qed.
Lemma follow_lseg_end h d q : forall g pv, lseg h d pv g q -> g <> [] ->
  follow c_next h (S (length g)) (hd_loc g q) = locs g ++ match q with Some l => [l] | None => [] end.
Proof.
  induction g as [|n g IH]; intros pv Hs Hne; [done|].
  destruct Hs as [(c & Hc & _ & _ & _ & _ & Hnx & _) Hs]. cbn [length hd_loc map].
  cbn [follow]. rewrite Hc, Hnx. cbn [app]. f_equal. destruct g as [|m g].
  - cbn [length follow hd_loc map app]. destruct q as [l|]; [|done]. by destruct (h !! l).
  - by eapply (IH (Some (g_loc n))).
Qed.
Lemma data_lseg h d q : forall g pv, lseg h d pv g q -> map (data_at h) (locs g) = vals g.
Proof.
  induction g as [|n g IH]; intros pv Hs; [done|].
  destruct Hs as [(c & Hc & _ & Hd & _) Hs]. cbn [map]. f_equal; [|by eapply IH].
  unfold data_at. by rewrite Hc.
Qed.
Lemma follow_back h : forall g q pv n, lseg h true pv g q -> g <> [] ->
  follow c_prev h (length g + n) (last_loc None g) = rev (locs g) ++ follow c_prev h n pv.
Proof.
  induction g as [|m g IH] using rev_ind; intros q pv n Hs Hne; [done|].
  apply lseg_app in Hs as [Hs [(c & Hc & _ & _ & _ & _ & _ & Hpv) _]].
  rewrite last_loc_snoc, app_length, map_app, rev_app_distr. cbn [length map].
  replace (length g + 1 + n) with (S (length g + n)) by lia. cbn [follow]. rewrite Hc, Hpv by done.
  cbn [rev app]. f_equal.
  destruct g as [|x g]; [done|].
  pose proof (IH _ pv n Hs ltac:(done)) as H1. unfold last_loc in *.
  destruct (last (x :: g)) eqn:E; [done|]. by apply last_None in E.
Qed.

Lemma run_rel k ops outs w : spec_run k [] ops = Some (outs, w) ->
  exists c, model_run k conf0 ops = Some (outs, c) /\ Rel [] (mcls k) c w.
Proof. apply sim_run, rel0. Qed.

Theorem doubly_mirror ops outs w : spec_run Doubly [] ops = Some (outs, w) ->
  exists s env, model_run Doubly conf0 ops = Some (outs, (s, env)) /\
  forall x vs, w !! x = Some (Some vs) -> vs <> [] ->
    exists o obj fwd, env !! x = Some o /\ s_objs s !! o = Some obj
      /\ follow c_next (s_nodes s) (S (length vs)) (o_head obj) = fwd
      /\ map (data_at (s_nodes s)) fwd = vs
      /\ follow c_prev (s_nodes s) (S (length vs)) (o_tail obj) = rev fwd.
Proof.
  intros Hs. destruct (run_rel _ _ _ _ Hs) as ([s env] & Hrun & HR). exists s, env. split; [done|].
  intros x vs Hx Hne. apply content_some in Hx.
  destruct (rel_var _ _ _ _ _ _ HR Hx) as (o & g & Ho & Hr & Hv & _). cbn [fst snd] in *.
  destruct (obj_eq Hr) as (ob & Hob & Hk & Hlen & Hhd & Htl).
  assert (g <> []) as Hg by (intros ->; by subst vs).
  assert (length vs = length g) as Hl by (by rewrite <- Hv, map_length).
  pose proof (rep_seg _ _ _ _ Hr) as Hseg. rewrite (endp_dll CDLL) in Hseg by done.
  exists o, ob, (locs g). split_and!; [done|done| | |].
  - rewrite Hhd, Hl by done. by rewrite (follow_lseg_end _ _ _ _ _ Hseg Hg), app_nil_r.
  - by rewrite (data_lseg _ _ _ _ _ Hseg).
  - rewrite Htl, Hl by done. replace (S (length g)) with (length g + 1) by lia.
    rewrite (follow_back _ _ _ _ _ Hseg Hg). cbn. by rewrite app_nil_r.
Qed.

Theorem circular_closed ops outs w : spec_run Circular [] ops = Some (outs, w) ->
  exists s env, model_run Circular conf0 ops = Some (outs, (s, env)) /\
  forall x vs, w !! x = Some (Some vs) -> vs <> [] ->
    exists o obj first nodes, env !! x = Some o /\ s_objs s !! o = Some obj /\ o_head obj = Some first
      /\ follow c_next (s_nodes s) (S (length vs)) (Some first) = nodes ++ [first]
      /\ map (data_at (s_nodes s)) nodes = vs /\ NoDup nodes.
Proof.
  intros Hs. destruct (run_rel _ _ _ _ Hs) as ([s env] & Hrun & HR). exists s, env. split; [done|].
  intros x vs Hx Hne. apply content_some in Hx.
  destruct (rel_var _ _ _ _ _ _ HR Hx) as (o & g & Ho & Hr & Hv & _). cbn [fst snd] in *.
  destruct (obj_eq Hr) as (ob & Hob & Hk & Hlen & Hhd & Htl).
  assert (g <> []) as Hg by (intros ->; by subst vs).
  assert (length vs = length g) as Hl by (by rewrite <- Hv, map_length).
  pose proof (rep_seg _ _ _ _ Hr) as Hseg. unfold endp in Hseg. cbn [mcls is_cll] in Hseg.
  pose proof (follow_lseg_end _ _ _ _ _ Hseg Hg) as Hfl.
  destruct g as [|n g]; [done|]. cbn [hd_loc] in *.
  exists o, ob, (g_loc n), (locs (n :: g)). split_and!; [done|done|by apply Hhd| | |].
  - rewrite Hl. exact Hfl.
  - by rewrite (data_lseg _ _ _ _ _ Hseg).
  - by eapply rep_nodup.
Qed.

(** ** Independence *)
Lemma spec_keeps k w op out w' x vs : spec_step k w op = Some (out, w') -> ~ mutates op x ->
  w !! x = Some (Some vs) -> w' !! x = Some (Some vs).
Proof.
  intros Hs Hm Hx. 
  assert (forall y us, y <> x -> store w y us !! x = Some (Some vs)) as Hst.
  { intros y us Hy. unfold store. by rewrite list_lookup_insert_ne. }
  assert (forall l, (w ++ l) !! x = Some (Some vs)) as Happ.
  { intros l. by apply lookup_app_l_Some. }
  destruct op as [items|y v|y v|y i v|y i v|y i|y|y|y v all|y|y d r|y d r|y z|y|y|y i|y i|y v|y v|y|y|y|y z|y z];
    cbn [spec_step mutates] in *.
  13: { destruct (content w y) as [ys|]; cbn [mbind option_bind] in Hs; [|done].
    destruct (content w z) as [zs|]; cbn [mbind option_bind] in Hs; [|done].
    assert (y <> x /\ z <> x) as [Hyx Hzx] by (split; intros ->; apply Hm; auto).
    assert (<[z:=None]> (store w y (ys ++ zs)) !! x = Some (Some vs)) as H3.
    { rewrite list_lookup_insert_ne by done. by apply Hst. }
    destruct k; repeat match type of Hs with
      | (if ?m then _ else _) = _ => destruct m
      | None = _ => discriminate Hs
      | Some _ = _ => injection Hs as _ <-; auto
      end. }
  all: repeat match type of Hs with
    | mbind _ ?m = _ => destruct m; cbn [mbind option_bind] in Hs
    | match ?m with _ => _ end = _ => destruct m
    | (let _ := _ in _) = _ => cbn zeta in Hs
    | None = _ => discriminate Hs
    | Some _ = _ => injection Hs as _ <-; auto
    end.
Qed.
Lemma spec_run_keeps k ops : forall w outs w' x vs, spec_run k w ops = Some (outs, w') ->
  Forall (fun op => ~ mutates op x) ops ->
  w !! x = Some (Some vs) -> w' !! x = Some (Some vs).
Proof.
  induction ops as [|op ops IH]; intros w outs w' x vs Hs Hm Hx; cbn in Hs.
  { injection Hs as _ <-. done. }
  apply Forall_cons in Hm as [Hm Hms].
  destruct (spec_step k w op) as [[o w1]|] eqn:H1; cbn in Hs; [|done].
  destruct (spec_run k w1 ops) as [[os w2]|] eqn:H2; cbn in Hs; [|done]. injection Hs as _ <-.
  eapply IH; [exact H2|done|]. by eapply spec_keeps.
Qed.
Lemma spec_run_app k ops1 ops2 : forall w, spec_run k w (ops1 ++ ops2) =
  '(o1, w1) ← spec_run k w ops1; '(o2, w2) ← spec_run k w1 ops2; Some (o1 ++ o2, w2).
Proof.
  induction ops1 as [|op ops IH]; intros w; cbn [spec_run app].
  { cbn [mbind option_bind]. by destruct (spec_run k w ops2) as [[]|]. }
  destruct (spec_step k w op) as [[o w1]|]; cbn [mbind option_bind]; [|done].
  rewrite IH. destruct (spec_run k w1 ops) as [[os w2]|]; cbn [mbind option_bind]; [|done].
  by destruct (spec_run k w2 ops2) as [[os' w3]|].
Qed.

(** What a client sees: [h] then the calls [more] then reading variable [x]. *)
Lemma reads_back k h outs w more outs' w' x vs :
  spec_run k [] h = Some (outs, w) -> spec_run k w more = Some (outs', w') ->
  Forall (fun op => ~ mutates op x) more -> w !! x = Some (Some vs) ->
  exists c, model_run k conf0 (h ++ more ++ [LToList x]) = Some (outs ++ outs' ++ [RVals vs], c).
Proof.
  intros Hh Hm Hmut Hx. eapply run_refines. rewrite !spec_run_app, Hh. cbn [mbind option_bind].
  rewrite spec_run_app, Hm. cbn [mbind option_bind spec_run spec_step].
  pose proof (spec_run_keeps _ _ _ _ _ _ _ Hm Hmut Hx) as Hx'. apply content_some in Hx'.
  rewrite Hx'. done.
Qed.

Lemma derives_spec k w op x vs new : w !! x = Some (Some vs) -> derives k op x vs new ->
  spec_step k w op = Some (RNew (length new), w ++ map Some new).
Proof.
  intros Hx Hd. apply content_some in Hx.
  destruct op as [items|y v|y v|y i v|y i v|y i|y|y|y v all|y|y d r|y d r|y z|y|y|y i|y i|y v|y v|y|y|y|y z|y z];
    try done; cbn [derives] in Hd.
  - destruct Hd as [-> ->]. cbn [spec_step]. by rewrite Hx.
  - destruct Hd as [-> ->]. cbn [spec_step]. rewrite Hx. cbn [mbind option_bind map length].
    by rewrite rev_alt.
  - destruct i as [z| |]; [|done|done]. destruct Hd as (-> & Hz & Hc & ->).
    cbn [spec_step]. rewrite Hx. cbn [mbind option_bind bad_index the_int map length].
    rewrite (bool_decide_eq_false_2 (z < 0)%Z) by lia. destruct k.
    + by rewrite (bool_decide_eq_false_2 (_ < z)%Z) by lia.
    + by rewrite (bool_decide_eq_false_2 (_ < z)%Z) by lia.
    + destruct (Hc eq_refl) as [-> | Hlt]; [by rewrite Zmod_0_l|]. by rewrite Z.mod_small by lia.
Qed.

Theorem derived_independent k h outs w x vs op new :
  spec_run k [] h = Some (outs, w) -> w !! x = Some (Some vs) -> derives k op x vs new ->
  spec_run k [] (h ++ [op]) = Some (outs ++ [RNew (length new)], w ++ map Some new) /\
  (exists c, model_run k conf0 (h ++ [op]) = Some (outs ++ [RNew (length new)], c)) /\
  forall more outs' w' y ys, spec_run k (w ++ map Some new) more = Some (outs', w') ->
    Forall (fun m => ~ mutates m y) more -> (w ++ map Some new) !! y = Some (Some ys) ->
    exists c, model_run k conf0 ((h ++ [op]) ++ more ++ [LToList y])
            = Some ((outs ++ [RNew (length new)]) ++ outs' ++ [RVals ys], c).
Proof.
  intros Hh Hx Hd.
  assert (spec_run k [] (h ++ [op]) = Some (outs ++ [RNew (length new)], w ++ map Some new)) as H1.
  { rewrite spec_run_app, Hh. cbn [mbind option_bind spec_run].
    by rewrite (derives_spec _ _ _ _ _ _ Hx Hd). }
  split; [done|]. split; [by eapply run_refines|].
  intros more outs' w' y ys Hm Hmut Hy. by eapply reads_back.
Qed.

(** ** Rotation *)
Lemma shift_drop_take (vs : list pyval) j i : j <= length vs -> i < length vs ->
  (drop j vs ++ take j vs) !! i = vs !! ((i + j) mod length vs).
Proof.
  intros Hj Hi. destruct (decide (i < length vs - j)) as [Hlt|Hge].
  - rewrite lookup_app_l by (rewrite drop_length; lia). rewrite lookup_drop.
    rewrite Nat.mod_small by lia. f_equal. lia.
  - rewrite lookup_app_r by (rewrite drop_length; lia). rewrite drop_length, lookup_take by lia.
    f_equal. replace (i + j) with (i - (length vs - j) + 1 * length vs) by lia.
    rewrite Nat.mod_add, Nat.mod_small by lia. lia.
Qed.
Lemma rotated_left_shift vs d : (0 <= d)%Z -> shifted_left vs (rotated vs d false) (Z.to_nat d).
Proof.
  intros Hd. split; [apply rotated_length|]. intros i Hi. unfold rotated. rewrite iter_left_mod.
  pose proof (Nat.mod_upper_bound (Z.to_nat d) (length vs) ltac:(lia)).
  rewrite shift_drop_take by lia. by rewrite Nat.add_mod_idemp_r by lia.
Qed.
Lemma rotated_right_shift vs d : (0 <= d)%Z -> shifted_right vs (rotated vs d true) (Z.to_nat d).
Proof.
  intros Hd. unfold shifted_right. pose proof (rotated_left_shift (rotated vs d true) d Hd) as H.
  assert (rotated (rotated vs d true) d false = vs) as Heq by apply iter_left_right.
  by rewrite Heq in H.
Qed.

Lemma spec_rotate k w x vs d right : content w x = Some vs -> (0 <= d)%Z ->
  spec_step k w (LRotate x (Some d) right) = Some (RUnit, store w x (rotated vs d right)).
Proof. intros Hx Hd. cbn [spec_step]. rewrite Hx. cbn. by rewrite bool_decide_eq_false_2 by lia. Qed.
Lemma spec_rotated k w x vs d right : content w x = Some vs -> (0 <= d)%Z ->
  spec_step k w (LRotated x (Some d) right) = Some (RNew 1, w ++ [Some (rotated vs d right)]).
Proof. intros Hx Hd. cbn [spec_step]. rewrite Hx. cbn. by rewrite bool_decide_eq_false_2 by lia. Qed.
Lemma content_store w x vs vs' : content w x = Some vs -> content (store w x vs') x = Some vs'.
Proof.
  intros Hx%content_some. apply content_some. unfold store. apply list_lookup_insert.
  by eapply lookup_lt_Some.
Qed.
Lemma content_new w v : content (w ++ [Some v]) (length w) = Some v.
Proof. apply content_some. rewrite lookup_app_r by lia. by rewrite Nat.sub_diag. Qed.

Lemma rotated_is_rotation right vs d : (0 <= d)%Z -> is_rotation right vs (rotated vs d right) d.
Proof. destruct right; [apply rotated_right_shift|apply rotated_left_shift]. Qed.

Theorem rotation_shifts k h outs w x vs d right :
  spec_run k [] h = Some (outs, w) -> w !! x = Some (Some vs) -> (0 <= d)%Z ->
  exists ws, is_rotation right vs ws d
   /\ (exists c, model_run k conf0 (h ++ [LRotate x (Some d) right; LToList x])
                 = Some (outs ++ [RUnit; RVals ws], c))
   /\ (exists c, model_run k conf0 (h ++ [LRotated x (Some d) right; LToList x; LToList (length w)])
                 = Some (outs ++ [RNew 1; RVals vs; RVals ws], c))
   /\ (exists c, model_run k conf0 (h ++ [LRotate x (Some d) right; LRotate x (Some d) (negb right); LToList x])
                 = Some (outs ++ [RUnit; RUnit; RVals vs], c)).
Proof.
  intros Hh Hx Hd. apply content_some in Hx. exists (rotated vs d right). split_and!.
  - by apply rotated_is_rotation.
  - eapply run_refines. rewrite spec_run_app, Hh. cbn [mbind option_bind spec_run].
    erewrite spec_rotate by done. cbn [mbind option_bind spec_step].
    erewrite content_store by done. done.
  - eapply run_refines. rewrite spec_run_app, Hh. cbn [mbind option_bind spec_run].
    erewrite spec_rotated by done. cbn [mbind option_bind spec_step].
    assert (content (w ++ [Some (rotated vs d right)]) x = Some vs) as ->.
    { apply content_some in Hx. apply content_some. by apply lookup_app_l_Some. }
    cbn [mbind option_bind]. by rewrite content_new.
  - eapply run_refines. rewrite spec_run_app, Hh. cbn [mbind option_bind spec_run].
    erewrite spec_rotate by done. cbn [mbind option_bind].
    erewrite spec_rotate; [|by eapply content_store|done]. cbn [mbind option_bind spec_step].
    erewrite content_store; [|by eapply content_store]. cbn [mbind option_bind app].
    assert (rotated (rotated vs d right) d (negb right) = vs) as ->; [|done].
    destruct right; [apply iter_left_right|apply iter_right_left].
Qed.

(** ** Slices with a positive step *)
Definition at_list (vs : list pyval) (i : nat) : list pyval :=
  match vs !! i with Some v => [v] | None => [] end.

Lemma map_snd_filter_imap (P : nat -> Prop) `{forall i, Decision (P i)} (vs : list pyval) : forall off,
  map snd (filter (fun p => P p.1) (imap (fun i v => (off + i, v)) vs))
  = flat_map (fun i => at_list vs (i - off)) (filter P (seq off (length vs))).
Proof.
  induction vs as [|v vs IH]; intros off; [done|].
  cbn [imap length seq]. rewrite !filter_cons. cbn [fst]. rewrite Nat.add_0_r.
  assert (forall l, (forall i, i ∈ l -> S off <= i) ->
    flat_map (fun i => at_list (v :: vs) (i - off)) l = flat_map (fun i => at_list vs (i - S off)) l) as Hshift.
  { induction l as [|i l IHl]; intros Hl; [done|]. cbn [flat_map]. f_equal.
    - assert (S off <= i) by (apply Hl; set_solver). unfold at_list.
      replace (i - off) with (S (i - S off)) by lia. done.
    - apply IHl. intros j Hj. apply Hl. set_solver. }
  assert (imap ((fun i v => (off + i, v)) ∘ S) vs = imap (fun i v => (S off + i, v)) vs) as Him.
  { apply imap_ext. intros i y _. cbn. f_equal. lia. }
  rewrite Him. specialize (IH (S off)).
  rewrite <- Hshift in IH.
  2: { intros i Hi. apply elem_of_list_filter in Hi as [_ Hi]. apply elem_of_seq in Hi. lia. }
  case_decide.
  - cbn [map flat_map snd]. rewrite IH, Nat.sub_diag. done.
  - exact IH.
Qed.

Lemma lt_sorted_unique (l1 l2 : list nat) : StronglySorted lt l1 -> StronglySorted lt l2 ->
  (forall x, x ∈ l1 <-> x ∈ l2) -> l1 = l2.
Proof.
  revert l2. induction l1 as [|a l1 IH]; intros l2 H1 H2 Heq.
  { destruct l2 as [|b l2]; [done|]. exfalso. assert (b ∈ ([] : list nat)) by (apply Heq; set_solver). set_solver. }
  destruct l2 as [|b l2].
  { exfalso. assert (a ∈ ([] : list nat)) by (apply Heq; set_solver). set_solver. }
  apply StronglySorted_inv in H1 as [H1 Ha]. apply StronglySorted_inv in H2 as [H2 Hb].
  rewrite Forall_forall in Ha, Hb.
  assert (a = b) as ->.
  { assert (a ∈ b :: l2) as Hin by (apply Heq; set_solver).
    assert (b ∈ a :: l1) as Hin' by (apply Heq; set_solver).
    apply elem_of_cons in Hin as [|Hin]; [done|]. apply elem_of_cons in Hin' as [|Hin']; [done|].
    specialize (Ha _ Hin'). specialize (Hb _ Hin). lia. }
  f_equal. apply IH; [done|done|]. intros x. split; intros Hx.
  - assert (x ∈ b :: l2) as Hin by (apply Heq; set_solver).
    apply elem_of_cons in Hin as [->|]; [|done]. specialize (Ha _ Hx). lia.
  - assert (x ∈ b :: l1) as Hin by (apply Heq; set_solver).
    apply elem_of_cons in Hin as [->|]; [|done]. specialize (Hb _ Hx). lia.
Qed.
Lemma seq_sorted n : forall a, StronglySorted lt (seq a n).
Proof.
  induction n as [|n IH]; intros a; [constructor|]. cbn. constructor; [apply IH|].
  apply Forall_forall. intros x Hx. apply elem_of_seq in Hx. lia.
Qed.
Lemma filter_sorted (P : nat -> Prop) `{forall i, Decision (P i)} l : StronglySorted lt l -> StronglySorted lt (filter P l).
Proof.
  induction l as [|a l IH]; intros Hs; [constructor|].
  apply StronglySorted_inv in Hs as [Hs Ha]. rewrite filter_cons. case_decide; [|by apply IH].
  constructor; [by apply IH|]. rewrite Forall_forall in *. intros x Hx.
  apply elem_of_list_filter in Hx as [_ Hx]. by apply Ha.
Qed.
Lemma map_sorted (f : nat -> nat) l : (forall i j, i < j -> f i < f j) -> StronglySorted lt l -> StronglySorted lt (map f l).
Proof.
  intros Hf. induction l as [|a l IH]; intros Hs; [constructor|].
  apply StronglySorted_inv in Hs as [Hs Ha]. cbn. constructor; [by apply IH|].
  rewrite Forall_forall in *. intros x Hx. apply elem_of_list_fmap in Hx as (y & -> & Hy). apply Hf. by apply Ha.
Qed.

Lemma slice_bound_pos n st x d : (0 < st)%Z -> (0 <= n)%Z -> clamp_ix n (default d x) = slice_bound n st x (clamp_ix n d).
Proof.
  intros Hst Hn. destruct x as [z|]; [|done]. cbn. unfold clamp_ix.
  rewrite (bool_decide_eq_false_2 (st < 0)%Z) by lia. case_bool_decide; lia.
Qed.

Lemma slice_pos_py vs start stop st : (0 < st)%Z -> slice_pos vs start stop st = py_slice vs start stop st.
Proof.
  intros Hst. unfold slice_pos, py_slice. cbn zeta.
  set (n := Z.of_nat (length vs)). assert (0 <= n)%Z as Hn by lia.
  rewrite (slice_bound_pos n st start), (slice_bound_pos n st stop) by done.
  rewrite (bool_decide_eq_false_2 (st < 0)%Z) by lia.
  assert (clamp_ix n 0 = 0%Z) as -> by (unfold clamp_ix; case_bool_decide; lia).
  assert (clamp_ix n n = n) as -> by (unfold clamp_ix; case_bool_decide; lia).
  assert (0 <= slice_bound n st start 0 <= n)%Z as Ha.
  { unfold slice_bound. destruct start; [|lia]. rewrite (bool_decide_eq_false_2 (st < 0)%Z) by lia. lia. }
  assert (0 <= slice_bound n st stop n <= n)%Z as Hb.
  { unfold slice_bound. destruct stop; [|lia]. rewrite (bool_decide_eq_false_2 (st < 0)%Z) by lia. lia. }
  set (a := slice_bound n st start 0) in *. set (b := slice_bound n st stop n) in *.
  pose proof (map_snd_filter_imap (fun i => a <= Z.of_nat i < b /\ (Z.of_nat i - a) mod st = 0)%Z vs 0) as H1.
  cbn [Nat.add] in H1.
  transitivity (map snd (filter (fun p : nat * pyval => (a <= Z.of_nat p.1 < b)%Z /\ ((Z.of_nat p.1 - a) mod st)%Z = 0%Z)
     (imap (fun (i : nat) (v : pyval) => (i, v)) vs))); [done|].
  rewrite H1.
  assert (forall l, flat_map (fun i => at_list vs (i - 0)) l = flat_map (at_list vs) l) as Hz.
  { induction l as [|i l IH]; [done|]. cbn. by rewrite IH, Nat.sub_0_r. }
  rewrite Hz.
  assert (forall l : list nat, flat_map (fun j : nat => if bool_decide (a + Z.of_nat j * st < b)%Z
      then match vs !! Z.to_nat (a + Z.of_nat j * st) with Some v => [v] | None => [] end else []) l
     = flat_map (at_list vs) (filter (fun i => Z.of_nat i < b)%Z (map (fun j => Z.to_nat (a + Z.of_nat j * st)) l))) as Hfm.
  { induction l as [|j l IH]; [done|]. cbn [flat_map map]. rewrite filter_cons, IH.
    case_bool_decide as Hlt.
    - rewrite decide_True by lia. done.
    - rewrite decide_False by lia. done. }
  cbn [bool_decide] in Hfm |- *. rewrite Hfm. f_equal.
  apply lt_sorted_unique.
  - apply filter_sorted, seq_sorted.
  - apply filter_sorted, map_sorted; [|apply seq_sorted]. intros i j Hij. nia.
  - intros i. rewrite !elem_of_list_filter, elem_of_seq, elem_of_list_fmap. split.
    + intros ([[Hai Hib] Hmod] & _ & Hi). split; [done|].
      exists (Z.to_nat ((Z.of_nat i - a) / st)). 
      pose proof (Z_div_mod_eq_full (Z.of_nat i - a) st) as Hdm.
      assert (0 <= (Z.of_nat i - a) / st)%Z as Hq by (apply Z.div_pos; lia). split.
      * rewrite Z2Nat.id by lia. nia.
      * apply elem_of_seq. split; [lia|]. assert ((Z.of_nat i - a) / st <= Z.of_nat i - a)%Z; [|lia].
        apply Z.div_le_upper_bound; nia.
    + intros (Hib & j & -> & Hj). apply elem_of_seq in Hj.
      assert (0 <= Z.of_nat j * st)%Z by nia. rewrite Z2Nat.id in * by lia. split_and!; try lia.
      replace (a + Z.of_nat j * st - a)%Z with (Z.of_nat j * st)%Z by lia. apply Z_mod_mult.
Qed.

Theorem slice_positive k h outs w x vs start stop step :
  k <> Circular -> spec_run k [] h = Some (outs, w) -> w !! x = Some (Some vs) ->
  (0 < default 1%Z step)%Z ->
  exists c, model_run k conf0 (h ++ [LGet x (ASlice start stop step); LToList (length w); LToList x])
    = Some (outs ++ [RNew 1; RVals (py_slice vs start stop (default 1%Z step)); RVals vs], c).
Proof.
  intros Hk Hh Hx Hst. apply content_some in Hx. eapply run_refines. rewrite spec_run_app, Hh.
  cbn [mbind option_bind spec_run].
  assert (spec_step k w (LGet x (ASlice start stop step))
    = Some (RNew 1, w ++ [Some (slice_pos vs start stop (default 1%Z step))])) as ->.
  { cbn [spec_step]. rewrite Hx. cbn [mbind option_bind].
    rewrite (bool_decide_eq_false_2 (_ = 0%Z)), (bool_decide_eq_false_2 (_ < 0)%Z) by lia. by destruct k. }
  cbn [mbind option_bind spec_step]. rewrite content_new. cbn [mbind option_bind].
  rewrite slice_pos_py by done.
  assert (forall ws, content (w ++ [Some ws]) x = Some vs) as ->; [|done].
  intros ws. apply content_some in Hx. apply content_some. by apply lookup_app_l_Some.
Qed.
