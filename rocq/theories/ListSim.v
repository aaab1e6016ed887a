(** * Every history of calls behaves as specified: simulation proof. *)
From Verif Require Import Base ListModel ListRep ListCore ListCore2 ListSpec ListPure ListOps ListOps2 ListRun ListOps3.
Local Open Scope py_scope.

(** Well-formed list objects (of any class) that exist in [s] beside the variables
    of the program: class, object, chain. *)
Notation framed := (list (lcls * nat * list gn)).
Definition frame_ok (F : framed) (s : st) (env : list nat) : Prop :=
  forall k o g, (k, o, g) ∈ F -> rep k s o g /\ o ∉ env.
(** Chain [g] meets none of the chains of [F]. *)
Definition off_frame (F : framed) (g : list gn) : Prop :=
  forall k o g' l, (k, o, g') ∈ F -> l ∈ locs g' -> l ∉ locs g.

Section Sim.
Context (F : framed).

(** Invariant: each live variable owns a well-formed chain with the specified
    values; variables own distinct objects and disjoint chains. *)
Definition ghosts_ok (k : lcls) (s : st) (env : list nat) (w : world) (G : nat -> list gn) : Prop :=
  (forall x vs, w !! x = Some (Some vs) ->
      exists o, env !! x = Some o /\ rep k s o (G x) /\ vals (G x) = vs /\ off_frame F (G x))
  /\ (forall x y vs ws l, x <> y -> w !! x = Some (Some vs) -> w !! y = Some (Some ws) ->
        l ∈ locs (G x) -> l ∉ locs (G y)).
Record Rel (k : lcls) (c : conf) (w : world) : Prop := MkRel {
  rel_len : length (snd c) = length w;
  rel_nodup : NoDup (snd c);
  rel_bound : forall o, o ∈ snd c -> o < length (s_objs (fst c));
  rel_framed : frame_ok F (fst c) (snd c);
  rel_ghost : exists G, ghosts_ok k (fst c) (snd c) w G }.

Lemma content_some w x vs : content w x = Some vs <-> w !! x = Some (Some vs).
Proof. unfold content. destruct (w !! x) as [[v|]|]; cbn; split; congruence. Qed.

Lemma rel_upd k c w G x vs o vs' s' :
  length (snd c) = length w -> NoDup (snd c) -> (forall o, o ∈ snd c -> o < length (s_objs (fst c))) ->
  frame_ok F (fst c) (snd c) ->
  ghosts_ok k (fst c) (snd c) w G -> w !! x = Some (Some vs) -> snd c !! x = Some o ->
  upd k (fst c) o (G x) vs' s' -> Rel k (s', snd c) (store w x vs').
Proof.
  intros Hlen Hnd Hb HF (HG & HD) Hx Ho (g' & Hr' & Hv' & Hm & Hgr).
  destruct (HG _ _ Hx) as (ox & Hox & _ & _ & Hoff). rewrite Ho in Hox. injection Hox as <-.
  assert (off_frame F g') as Hoff'.
  { intros k' o' gf l Hf Hl Hl'. destruct (Hgr _ Hl') as [Hin|Hge]; [by eapply Hoff|].
    destruct (HF _ _ _ Hf) as [Hrf _]. pose proof (rep_bound _ _ _ _ _ Hrf Hl). lia. }
  split; cbn [fst snd].
  - unfold store. by rewrite insert_length.
  - done.
  - intros o' Ho'. specialize (Hb _ Ho'). pose proof (mod_olen _ _ _ _ Hm). lia.
  - intros k' o' gf Hf. destruct (HF _ _ _ Hf) as [Hrf Hof]. split; [|done].
    eapply rep_frame; [exact Hrf|exact Hm| |].
    + intros ->%elem_of_list_singleton. apply Hof. by eapply elem_of_list_lookup_2.
    + intros l Hl. by eapply Hoff.
  - pose proof (lookup_lt_Some _ _ _ Hx) as Hlt.
    assert (forall y ws l, y <> x -> w !! y = Some (Some ws) -> l ∈ locs (G y) -> l ∉ locs g') as Hdis'.
    { intros y ws l Hyx Hy Hl Hl'. destruct (Hgr _ Hl') as [Hin|Hge].
      - by eapply (HD y x).
      - destruct (HG _ _ Hy) as (oy & _ & Hry & _). pose proof (rep_bound _ _ _ _ _ Hry Hl). lia. }
    exists (fun y => if decide (y = x) then g' else G y). split.
    + intros y ws Hy. unfold store in Hy. case_decide as Hd.
      * subst y. rewrite list_lookup_insert in Hy by done. injection Hy as <-. by exists o.
      * rewrite list_lookup_insert_ne in Hy by done.
        destruct (HG _ _ Hy) as (oy & Hoy & Hry & Hvy & Hoy'). exists oy. split_and!; [done| |done|done].
        eapply rep_frame; [exact Hry|exact Hm| |].
        -- intros ->%elem_of_list_singleton. apply Hd. by eapply NoDup_lookup.
        -- intros l Hl Hl'. by eapply (HD y x).
    + intros y z vy vz l Hyz Hy Hz. unfold store in *. repeat case_decide; subst; try done.
      * rewrite list_lookup_insert in Hy by done. rewrite list_lookup_insert_ne in Hz by done.
        intros Hl Hl'. by eapply (Hdis' z).
      * rewrite list_lookup_insert_ne in Hy by done. by eapply Hdis'.
      * rewrite list_lookup_insert_ne in Hy by done. rewrite list_lookup_insert_ne in Hz by done.
        by eapply (HD y z).
Qed.

(** What the invariant gives for one live variable. *)
Lemma rel_var k c w x vs : Rel k c w -> content w x = Some vs ->
  exists o g, snd c !! x = Some o /\ rep k (fst c) o g /\ vals g = vs
   /\ (forall vs' s', upd k (fst c) o g vs' s' -> Rel k (s', snd c) (store w x vs')).
Proof.
  intros [Hlen Hnd Hb HF (G & HG)] Hx. apply content_some in Hx.
  destruct (proj1 HG _ _ Hx) as (o & Ho & Hr & Hv & _). exists o, (G x). split_and!; [done..|].
  intros vs' s' Hu. by eapply rel_upd.
Qed.

Lemma frame_keep s s' env : frame_ok F s env -> modifies [] [] s s' -> frame_ok F s' env.
Proof.
  intros HF Hm k' o' gf Hf. destruct (HF _ _ _ Hf) as [Hrf Hof]. split; [|done].
  eapply rep_frame; [exact Hrf|exact Hm|set_solver|set_solver].
Qed.
Lemma frame_grow s env o : frame_ok F s env -> (forall k' o' g', (k', o', g') ∈ F -> o' <> o) ->
  frame_ok F s (env ++ [o]).
Proof.
  intros HF Ho k' o' gf Hf. destruct (HF _ _ _ Hf) as [Hrf Hof]. split; [done|].
  intros [Hin|Hin%elem_of_list_singleton]%elem_of_app; [done|]. by eapply Ho.
Qed.
Lemma frame_obound s env k o g : frame_ok F s env -> (k, o, g) ∈ F -> o < length (s_objs s).
Proof. intros HF Hf. destruct (HF _ _ _ Hf) as [Hrf _]. by eapply rep_obound. Qed.
Lemma off_frame_fresh s env g : frame_ok F s env ->
  (forall l, l ∈ locs g -> length (s_nodes s) <= l) -> off_frame F g.
Proof.
  intros HF Hg k' o' gf l Hf Hl Hl'. destruct (HF _ _ _ Hf) as [Hrf _].
  pose proof (rep_bound _ _ _ _ _ Hrf Hl). specialize (Hg _ Hl'). lia.
Qed.

Lemma rel_frame k s env w s' : Rel k (s, env) w -> modifies [] [] s s' -> Rel k (s', env) w.
Proof.
  intros [Hlen Hnd Hb HF (G & HG & HD)] Hm. cbn in *. split; cbn; [done|done| | |].
  - intros o' Ho'. specialize (Hb _ Ho'). pose proof (mod_olen _ _ _ _ Hm). lia.
  - by eapply frame_keep.
  - exists G. split; [|done]. intros x vs Hx. destruct (HG _ _ Hx) as (o & Ho & Hr & Hv & Hoff).
    exists o. split_and!; [done| |done|done]. eapply rep_frame; [exact Hr|exact Hm|set_solver|set_solver].
Qed.

Lemma rel_frame_g k s env w G s' : length env = length w -> ghosts_ok k s env w G -> modifies [] [] s s' ->
  ghosts_ok k s' env w G.
Proof.
  intros Hlen [HG HD] Hm. split; [|done]. intros x vs Hx. destruct (HG _ _ Hx) as (o & Ho & Hr & Hv & Hoff).
  exists o. split_and!; [done| |done|done]. eapply rep_frame; [exact Hr|exact Hm|set_solver|set_solver].
Qed.

Lemma ghosts_add k s env w G o g : length env = length w -> ghosts_ok k s env w G ->
  rep k s o g -> off_frame F g -> (forall x ws l, w !! x = Some (Some ws) -> l ∈ locs (G x) -> l ∉ locs g) ->
  ghosts_ok k s (env ++ [o]) (w ++ [Some (vals g)]) (fun y => if decide (y = length w) then g else G y).
Proof.
  intros Hlen [HG HD] Hr Hoff Hdis.
  assert (forall x ws, (w ++ [Some (vals g)]) !! x = Some (Some ws) ->
     x = length w /\ ws = vals g \/ x <> length w /\ w !! x = Some (Some ws)) as Hlk.
  { intros x ws Hx. apply lookup_app_Some in Hx as [Hx|[Hge Hx]].
    - right. split; [|done]. apply lookup_lt_Some in Hx. lia.
    - left. apply list_lookup_singleton_Some in Hx as [? [= ->]]. split; [lia|done]. }
  split.
  - intros x ws [[-> ->]|[Hne Hx]]%Hlk.
    + rewrite decide_True by done. exists o. split_and!; [|done|done|done].
      rewrite lookup_app_r by lia. by rewrite Hlen, Nat.sub_diag.
    + rewrite decide_False by done. destruct (HG _ _ Hx) as (ox & Hox & Hrx & Hvx & Hoffx).
      exists ox. split_and!; [by apply lookup_app_l_Some|done|done|done].
  - intros x y vx vy l Hxy [[-> ->]|[Hne Hx]]%Hlk [[-> ->]|[Hne' Hy]]%Hlk Hl Hl'.
    + done.
    + rewrite decide_True in Hl by done. rewrite decide_False in Hl' by done. by eapply Hdis.
    + rewrite decide_False in Hl by done. rewrite decide_True in Hl' by done. by eapply Hdis.
    + rewrite decide_False in Hl by done. rewrite decide_False in Hl' by done. by eapply (HD x y).
Qed.

Lemma rel_new k s env w o vs s' : Rel k (s, env) w -> created k s o vs s' ->
  Rel k (s', env ++ [o]) (w ++ [Some vs]).
Proof.
  intros HR (g & Hr & <- & Ho & Hfr & Hm).
  destruct HR as [Hlen Hnd Hb HF (G & HG)]. cbn [fst snd] in *. split; cbn [fst snd].
  - rewrite !app_length. cbn. lia.
  - apply NoDup_app. split_and!; [done| |apply NoDup_singleton].
    intros o' Ho' ->%elem_of_list_singleton. specialize (Hb _ Ho'). lia.
  - pose proof (mod_olen _ _ _ _ Hm).
    intros o' [Ho'|Ho']%elem_of_app; [specialize (Hb _ Ho'); lia|]. apply elem_of_list_singleton in Ho' as ->.
    by eapply rep_obound.
  - apply frame_grow; [by eapply frame_keep|]. intros k' o' g' Hf ->.
    pose proof (frame_obound _ _ _ _ _ HF Hf). lia.
  - eexists. apply ghosts_add; [done|by eapply rel_frame_g|done|by eapply off_frame_fresh|].
    intros x ws l Hx Hl Hl'. destruct (proj1 HG _ _ Hx) as (ox & _ & Hrx & _).
    pose proof (rep_bound _ _ _ _ _ Hrx Hl). specialize (Hfr _ Hl'). lia.
Qed.

Lemma rel_new2 k s env w o1 o2 vs1 vs2 s' : Rel k (s, env) w -> created2 k s o1 o2 vs1 vs2 s' ->
  Rel k (s', env ++ [o1; o2]) (w ++ [Some vs1; Some vs2]).
Proof.
  intros HR (g1 & g2 & Hr1 & <- & Hr2 & <- & Ho1 & Ho2 & Hne & Hl1 & Hl2 & Hdis & Hm).
  destruct HR as [Hlen Hnd Hb HF (G & HG)]. cbn [fst snd] in *. split; cbn [fst snd].
  - rewrite !app_length. cbn. lia.
  - apply NoDup_app. split_and!; [done| |].
    + intros o' Ho'. specialize (Hb _ Ho'). rewrite !elem_of_cons, elem_of_nil. lia.
    + apply NoDup_cons. split; [|apply NoDup_singleton]. rewrite elem_of_list_singleton. lia.
  - pose proof (mod_olen _ _ _ _ Hm).
    intros o' [Ho'|Ho']%elem_of_app; [specialize (Hb _ Ho'); lia|].
    apply elem_of_cons in Ho' as [->|Ho']; [by eapply (rep_obound _ _ _ _ Hr1)|].
    apply elem_of_list_singleton in Ho' as ->. by eapply (rep_obound _ _ _ _ Hr2).
  - change [o1; o2] with ([o1] ++ [o2]). rewrite app_assoc.
    apply frame_grow; [apply frame_grow; [by eapply frame_keep|]|]; intros k' o' g' Hf ->;
      pose proof (frame_obound _ _ _ _ _ HF Hf); lia.
  - eexists. change [o1; o2] with ([o1] ++ [o2]). change [Some (vals g1); Some (vals g2)] with ([Some (vals g1)] ++ [Some (vals g2)]).
    rewrite !app_assoc. apply ghosts_add; [rewrite !app_length; cbn; lia| |done|by eapply off_frame_fresh|].
    + apply ghosts_add; [done|by eapply rel_frame_g|done|by eapply off_frame_fresh|].
      intros x ws l Hx Hl Hl'. destruct (proj1 HG _ _ Hx) as (ox & _ & Hrx & _).
      pose proof (rep_bound _ _ _ _ _ Hrx Hl). specialize (Hl1 _ Hl'). lia.
    + intros x ws l Hx Hl Hl'. cbv beta in Hl. apply lookup_app_Some in Hx as [Hx|[Hge Hx]].
      * rewrite decide_False in Hl by (apply lookup_lt_Some in Hx; lia).
        destruct (proj1 HG _ _ Hx) as (ox & _ & Hrx & _).
        pose proof (rep_bound _ _ _ _ _ Hrx Hl). specialize (Hl2 _ Hl'). lia.
      * apply list_lookup_singleton_Some in Hx as [Hx _]. rewrite decide_True in Hl by lia.
        by eapply Hdis.
Qed.

(** Two different live variables. *)
Lemma rel_vars k c w x y xs ys : Rel k c w -> x <> y -> content w x = Some xs -> content w y = Some ys ->
  exists o o' g g', snd c !! x = Some o /\ snd c !! y = Some o' /\ o <> o'
   /\ rep k (fst c) o g /\ vals g = xs /\ rep k (fst c) o' g' /\ vals g' = ys
   /\ (forall l, l ∈ locs g -> l ∉ locs g')
   /\ (forall vs' s', upd k (fst c) o g vs' s' -> Rel k (s', snd c) (store w x vs'))
   /\ (forall s' gn, rep k s' o gn -> modifies (locs g ++ locs g') [o] (fst c) s' ->
        (forall l, l ∈ locs gn -> l ∈ locs g \/ l ∈ locs g' \/ length (s_nodes (fst c)) <= l) ->
        Rel k (s', snd c) (<[y := None]> (store w x (vals gn)))).
Proof.
  intros [Hlen Hnd Hb HF (G & HG & HD)] Hxy Hx Hy. apply content_some in Hx, Hy.
  destruct (HG _ _ Hx) as (o & Ho & Hr & Hv & Hoff). destruct (HG _ _ Hy) as (o' & Ho' & Hr' & Hv' & Hoff').
  exists o, o', (G x), (G y). split_and!; try done.
  { intros ->. apply Hxy. by eapply NoDup_lookup. }
  { intros l. by eapply HD. }
  { intros vs' s' Hu. by eapply rel_upd. }
  intros s' gn Hrn Hm Hgr. split; cbn [fst snd].
  - unfold store. by rewrite !insert_length.
  - done.
  - intros o1 Ho1. specialize (Hb _ Ho1). pose proof (mod_olen _ _ _ _ Hm). lia.
  - intros k' o1 gf Hf. destruct (HF _ _ _ Hf) as [Hrf Hof]. split; [|done].
    eapply rep_frame; [exact Hrf|exact Hm| |].
    + intros ->%elem_of_list_singleton. apply Hof. by eapply elem_of_list_lookup_2.
    + intros l Hl [Hl'|Hl']%elem_of_app; [by eapply Hoff|by eapply Hoff'].
  - assert (forall z ws, <[y := None]> (store w x (vals gn)) !! z = Some (Some ws) ->
      z = x /\ ws = vals gn \/ z <> x /\ z <> y /\ w !! z = Some (Some ws)) as Hlk.
    { intros z ws Hz. destruct (decide (z = y)) as [->|Hzy].
      - rewrite list_lookup_insert in Hz; [done|]. unfold store. rewrite insert_length. by eapply lookup_lt_Some.
      - rewrite list_lookup_insert_ne in Hz by done. unfold store in Hz. destruct (decide (z = x)) as [->|Hzx].
        + rewrite list_lookup_insert in Hz by (by eapply lookup_lt_Some). left. split; [done|]. congruence.
        + rewrite list_lookup_insert_ne in Hz by done. by right. }
    assert (forall z ws l, z <> x -> z <> y -> w !! z = Some (Some ws) -> l ∈ locs (G z) -> l ∉ locs gn) as Hdis'.
    { intros z ws l Hzx Hzy Hz Hl Hl'. destruct (Hgr _ Hl') as [Hin|[Hin|Hge]].
      - by eapply (HD z x).
      - by eapply (HD z y).
      - destruct (HG _ _ Hz) as (oz & _ & Hrz & _). pose proof (rep_bound _ _ _ _ _ Hrz Hl). lia. }
    assert (off_frame F gn) as Hoffn.
    { intros k' o1 gf l Hf Hl Hl'. destruct (Hgr _ Hl') as [Hin|[Hin|Hge]]; [by eapply Hoff|by eapply Hoff'|].
      destruct (HF _ _ _ Hf) as [Hrf _]. pose proof (rep_bound _ _ _ _ _ Hrf Hl). lia. }
    exists (fun z => if decide (z = x) then gn else G z). split.
    + intros z ws [[-> ->]|(Hzx & Hzy & Hz)]%Hlk.
      * rewrite decide_True by done. by exists o.
      * rewrite decide_False by done. destruct (HG _ _ Hz) as (oz & Hoz & Hrz & Hvz & Hoz').
        exists oz. split_and!; [done| |done|done]. eapply rep_frame; [exact Hrz|exact Hm| |].
        -- intros ->%elem_of_list_singleton. apply Hzx. by eapply NoDup_lookup.
        -- intros l Hl [Hl'|Hl']%elem_of_app; [by eapply (HD z x)|by eapply (HD z y)].
    + intros z z' vz vz' l Hne [[-> ->]|(Hzx & Hzy & Hz)]%Hlk [[-> ->]|(Hzx' & Hzy' & Hz')]%Hlk Hl Hl'.
      * done.
      * rewrite decide_True in Hl by done. rewrite decide_False in Hl' by done. by eapply (Hdis' z').
      * rewrite decide_False in Hl by done. rewrite decide_True in Hl' by done. by eapply (Hdis' z).
      * rewrite decide_False in Hl by done. rewrite decide_False in Hl' by done. by eapply (HD z z').
Qed.

(** ** One call *)
Lemma call_ok {A} (m : M st A) c f a s' : m (fst c) = Ok a s' ->
  call m c f = Some (fst (f a), (s', snd c ++ snd (f a))).
Proof. unfold call. by intros ->. Qed.
Lemma call_exc {A} (m : M st A) c f e s' : m (fst c) = Exc e s' ->
  call m c f = Some (RExc e, (s', snd c)).
Proof. unfold call. by intros ->. Qed.

(** An updating call. *)
Lemma sim_step m k c w x o g r : Rel k c w -> snd c !! x = Some o -> 
  (forall vs' s', upd k (fst c) o g vs' s' -> Rel k (s', snd c) (store w x vs')) ->
  step_spec m k (fst c) o g r ->
  exists c', call m c obs_unit = Some (match r with inl e => RExc e | inr _ => RUnit end, c')
    /\ Rel k c' (match r with inl _ => w | inr vs => store w x vs end).
Proof.
  intros HR Ho Hup. destruct r as [e|vs]; cbn [step_spec].
  - intros He. eexists. split; [by apply call_exc|]. by destruct c.
  - intros (a & s' & Hm & Hu)%wp_elim. eexists. split; [by erewrite call_ok|].
    cbn [obs_unit snd]. rewrite app_nil_r. by apply Hup.
Qed.
(** A reading call. *)
Lemma sim_read {A} (m : M st A) k c w f a : Rel k c w -> m (fst c) = Ok a (fst c) -> snd (f a) = [] ->
  exists c', call m c f = Some (fst (f a), c') /\ Rel k c' w.
Proof.
  intros HR Hm Hf. eexists. split; [by erewrite call_ok|]. rewrite Hf, app_nil_r. by destruct c.
Qed.
Lemma sim_exc {A} (m : M st A) k c w f e : Rel k c w -> m (fst c) = Exc e (fst c) ->
  exists c', call m c f = Some (RExc e, c') /\ Rel k c' w.
Proof. intros HR Hm. eexists. split; [by apply call_exc|]. by destruct c. Qed.
(** A call returning a new list. *)
Lemma sim_new (m : M st nat) k c w vs : Rel k c w -> wp m (fun r s' => created k (fst c) r vs s') (fst c) ->
  exists c', call m c obs_new = Some (RNew 1, c') /\ Rel k c' (w ++ [Some vs]).
Proof.
  intros HR (a & s' & Hm & Hu)%wp_elim. eexists. split; [by erewrite call_ok|].
  cbn [obs_new snd]. destruct c. by eapply rel_new.
Qed.

Lemma store_same w x vs : content w x = Some vs -> store w x vs = w.
Proof. intros Hx%content_some. by apply list_insert_id. Qed.

Lemma wp_step m k s o g vs : wp m (fun _ s' => upd k s o g vs s') s -> step_spec m k s o g (inr vs).
Proof. done. Qed.

Ltac step_var HR Hx o g Ho Hr Hv Hup :=
  let Hspec := fresh "Hspec" in
  match goal with Hs : mbind _ (content ?w ?x) = Some _ |- _ =>
    let vs := fresh "vs" in
    destruct (content w x) as [vs|] eqn:Hx; cbn [mbind option_bind] in Hs; [|discriminate Hs]
  end;
  destruct (rel_var _ _ _ _ _ HR Hx) as (o & g & Ho & Hr & Hv & Hup);
  cbn [model_step]; rewrite Ho; cbn [mbind option_bind].

Lemma sim_one k c w op out w' :
  Rel (mcls k) c w -> spec_step k w op = Some (out, w') ->
  exists c', model_step k c op = Some (out, c') /\ Rel (mcls k) c' w'.
Proof.
  intros HR Hs. destruct op as [items|x v|x v|x i v|x i v|x i|x|x|x v all|x|x d r|x d r|x y|x|x|x i|x i|x v|x v|x|x|x|x y|x y];
    cbn [spec_step] in Hs.
  - (* LNew *) cbn [model_step]. destruct (list_find _ items) as [[j v]|] eqn:Hf.
    + apply list_find_Some in Hf as (Hj & Hbad & Hgood).
      destruct (validate_item v) as [e|] eqn:Hv; [|done]. injection Hs as <- <-.
      rewrite <- (take_drop_middle _ _ _ Hj).
      destruct (construct_exc (mcls k) (fst c) (take j items) v (drop (S j) items) e) as (s' & Hx & Hm).
      { apply Forall_forall. intros y Hy. apply elem_of_list_lookup in Hy as [i Hi].
        apply lookup_take_Some in Hi as [Hi Hlt]. specialize (Hgood _ _ Hi Hlt).
        unfold storable. destruct (validate_item y) eqn:E; [|done]. exfalso. by apply Hgood. }
      { done. }
      eexists. split; [by apply call_exc|]. destruct c. by eapply rel_frame.
    + injection Hs as <- <-. apply sim_new; [done|]. apply construct_spec.
      apply list_find_None in Hf. eapply Forall_impl; [exact Hf|]. intros y Hy. unfold storable.
      cbn in Hy. destruct (validate_item y); [|done]. exfalso. by apply Hy.
  - (* LAddFront *) step_var HR Hx o g Ho Hr Hv Hup. destruct (validate_item v) as [e|] eqn:Hvi; injection Hs as <- <-.
    + apply sim_exc; [done|]. unfold add_front. by erewrite bind_exc by (by apply check_item_exc).
    + rewrite <- Hv. eapply (sim_step _ _ _ _ _ _ _ (inr _)); [done..|]. by apply wp_step, add_front_spec.
  - (* LAddEnd *) step_var HR Hx o g Ho Hr Hv Hup. destruct (validate_item v) as [e|] eqn:Hvi; injection Hs as <- <-.
    + apply sim_exc; [done|]. unfold add_end. by erewrite bind_exc by (by apply check_item_exc).
    + rewrite <- Hv. eapply (sim_step _ _ _ _ _ _ _ (inr _)); [done..|]. by apply wp_step, add_end_spec.
  - (* LInsert *) step_var HR Hx o g Ho Hr Hv Hup.
    pose proof (sim_step _ _ _ _ _ _ _ _ HR Ho Hup (insert_full k (fst c) o g i v Hr)) as Hsim.
    unfold insert_out in Hsim. rewrite Hv in Hsim. destruct (bad_index _ _ _); [by injection Hs as <- <-|].
    destruct (validate_item v); injection Hs as <- <-; [done|]. by destruct k.
  - (* LSet *) step_var HR Hx o g Ho Hr Hv Hup.
    assert ((k = Circular -> g <> [] /\ v <> PNone) \/ bad_index k (length vs) i <> None) as Hc.
    { destruct (bad_index k (length vs) i); [by right|]. left. intros ->.
      destruct (bool_decide (vs = [])) eqn:Hb1; [done|]. destruct (bool_decide (v = PNone)) eqn:Hb2; [done|].
      apply bool_decide_eq_false in Hb1, Hb2. split; [|done]. intros ->. by apply Hb1. }
    destruct (bad_index k (length vs) i) as [e|] eqn:Hb.
    { injection Hs as <- <-. apply sim_exc; [done|].
      destruct (obj_eq Hr) as (ob & Hob & _). unfold setitem.
      erewrite bind_ok by (by apply get_obj_ok).
      pose proof (check_index_ok k (fst c) o g i Hr) as Hci.
      rewrite <- Hv, map_length in Hb. rewrite Hb in Hci. by erewrite bind_exc by exact Hci. }
    destruct Hc as [Hc|]; [|done].
    pose proof (sim_step _ _ _ _ _ _ _ _ HR Ho Hup (setitem_full k (fst c) o g i v Hr Hc)) as Hsim.
    unfold set_out in Hsim. rewrite Hv, Hb in Hsim. destruct k.
    + destruct (bool_decide (the_int i = _)); [by injection Hs as <- <-|].
      by destruct (validate_item v); injection Hs as <- <-.
    + destruct (bool_decide (the_int i = _)); [by injection Hs as <- <-|].
      by destruct (validate_item v); injection Hs as <- <-.
    + destruct (bool_decide (vs = []) || bool_decide (v = PNone)); [done|].
      by destruct (validate_item v); injection Hs as <- <-.
  - (* LDel *) step_var HR Hx o g Ho Hr Hv Hup.
    pose proof (sim_step _ _ _ _ _ _ _ _ HR Ho Hup (delitem_full k (fst c) o g i Hr)) as Hsim.
    unfold del_out in Hsim. rewrite Hv in Hsim. destruct (bad_index _ _ _); [by injection Hs as <- <-|].
    destruct k.
    + by destruct (bool_decide _); injection Hs as <- <-.
    + by destruct (bool_decide _); injection Hs as <- <-.
    + by injection Hs as <- <-.
  - (* LRemoveFront *) step_var HR Hx o g Ho Hr Hv Hup. injection Hs as <- <-. rewrite <- Hv.
    eapply (sim_step _ _ _ _ _ _ _ (inr _)); [done..|]. by apply wp_step, remove_front_spec.
  - (* LRemoveEnd *) step_var HR Hx o g Ho Hr Hv Hup. injection Hs as <- <-. rewrite <- Hv.
    eapply (sim_step _ _ _ _ _ _ _ (inr _)); [done..|]. by apply wp_step, remove_end_spec.
  - (* LRemove *) step_var HR Hx o g Ho Hr Hv Hup. destruct all as [b|].
    + destruct (validate_item v) as [e|] eqn:Hvi; injection Hs as <- <-.
      * apply sim_exc; [done|]. unfold remove. by erewrite bind_exc by (by apply check_item_exc).
      * rewrite <- Hv. eapply (sim_step _ _ _ _ _ _ _ (inr _)); [done..|]. by apply wp_step, remove_spec.
    + injection Hs as <- <-. by apply sim_exc.
  - (* LClear *) step_var HR Hx o g Ho Hr Hv Hup. injection Hs as <- <-.
    eapply (sim_step _ _ _ _ _ _ _ (inr _)); [done..|]. by apply wp_step, clear_spec.
  - (* LRotate *) step_var HR Hx o g Ho Hr Hv Hup.
    pose proof (sim_step _ _ _ _ _ _ _ _ HR Ho Hup (rotate_inplace_full k (fst c) o g d r Hr)) as Hsim.
    unfold rot_out in Hsim. rewrite Hv in Hsim. destruct d as [z|]; [|by injection Hs as <- <-].
    by destruct (bool_decide _); injection Hs as <- <-.
  - (* LRotated *) step_var HR Hx o g Ho Hr Hv Hup.
    pose proof (rotate_new_full k (fst c) o g d r Hr) as Hsim.
    unfold rot_out in Hsim. rewrite Hv in Hsim. destruct d as [z|]; [|injection Hs as <- <-; by apply sim_exc].
    destruct (bool_decide _); injection Hs as <- <-; [by apply sim_exc|by apply sim_new].
  - (* LExtend *)
    destruct (content w x) as [xs|] eqn:Hx; cbn [mbind option_bind] in Hs; [|done].
    destruct (content w y) as [ys|] eqn:Hy; cbn [mbind option_bind] in Hs; [|done].
    destruct (decide (ys = [])) as [Hys|Hys].
    { (* nothing to append *)
      assert (Some (RUnit, w) = Some (out, w')) as [= <- <-].
      { rewrite <- Hs. subst ys. destruct k; try by rewrite bool_decide_eq_true_2 by done.
        destruct (decide (x = y)) as [->|Hxy].
        - rewrite Hx in Hy. injection Hy as ->. cbn. rewrite andb_false_r. cbn. by rewrite store_same.
        - rewrite (bool_decide_eq_false_2 _ Hxy). cbn. by rewrite app_nil_r, store_same. }
      destruct (rel_var _ _ _ _ _ HR Hx) as (o & g & Ho & Hr & Hv & _).
      destruct (rel_var _ _ _ _ _ HR Hy) as (o' & g' & Ho' & Hr' & Hv' & _).
      cbn [model_step]. rewrite Ho, Ho'. cbn [mbind option_bind]. eapply (sim_read _ _ _ _ obs_unit tt); [done| |done].
      destruct (obj_eq Hr) as (ob & Hob & Hk & Hlen & _).
      destruct (obj_eq Hr') as (ob' & Hob' & Hk' & Hlen' & _).
      unfold extend. erewrite !bind_ok by (by apply get_obj_ok). rewrite Hk, Hk', is_instance_refl.
      subst ys. destruct g' as [|? ?]; [|done]. cbn in Hlen'.
      destruct k; cbn [mcls]; unfold ll_extend, dll_extend, cll_extend;
        (erewrite bind_ok by (by apply get_obj_ok)); by rewrite Hlen'. }
    destruct (decide (x = y)) as [Hxy|Hxy].
    { exfalso. subst y. rewrite Hx in Hy. injection Hy as ->.
      rewrite (bool_decide_eq_true_2 (x = x)) in Hs by done. rewrite (bool_decide_eq_false_2 (ys = [])) in Hs by done.
      by destruct k. }
    destruct (rel_vars _ _ _ _ _ _ _ HR Hxy Hx Hy) as (o & o' & g & g' & Ho & Ho' & Hne & Hr & Hv & Hr' & Hv' & Hdis & Hup & Hjoin).
    cbn [model_step]. rewrite Ho, Ho'. cbn [mbind option_bind].
    rewrite (bool_decide_eq_false_2 (x = y)), (bool_decide_eq_false_2 (ys = [])) in Hs by done.
    destruct (is_cll (mcls k)) eqn:Hcll.
    + destruct k; try done. cbn [andb] in Hs. injection Hs as <- <-. cbn [mcls] in *.
      (* circular: nodes are copied; the argument stays live *)
      pose proof (cll_extend_spec (fst c) o o' g g' Hr Hr' Hne Hdis) as Hw.
      apply wp_elim in Hw as (a & s' & Hm & gd' & Hrn & Hvn & Hmod & Hgr & _).
      eexists. split; [by erewrite call_ok|]. cbn [obs_unit snd]. rewrite app_nil_r.
      apply Hup. exists (g ++ gd'). split_and!; [done| |done|].
      * by rewrite map_app, Hvn, Hv, Hv'.
      * intros l. rewrite map_app. intros [?|?]%elem_of_app; [by left|right; by apply Hgr].
    + assert (Some (RUnit, <[y:=None]> (store w x (xs ++ ys))) = Some (out, w')) as [= <- <-] by (rewrite <- Hs; by destruct k).
      pose proof (extend_any k (fst c) o o' g g' Hr Hr' Hne Hdis) as Hw.
      apply wp_elim in Hw as (a & s' & Hm & gn & Hrn & Hvn & Hmod & Hgr). rewrite Hcll in Hmod, Hgr.
      eexists. split; [by erewrite call_ok|]. cbn [obs_unit snd]. rewrite app_nil_r.
      rewrite <- Hv, <- Hv', <- Hvn. by apply Hjoin.
  - (* LCopy *) step_var HR Hx o g Ho Hr Hv Hup. injection Hs as <- <-. rewrite <- Hv.
    apply sim_new; [done|]. by apply copy_spec.
  - (* LReverse *) step_var HR Hx o g Ho Hr Hv Hup. injection Hs as <- <-. rewrite <- Hv.
    apply sim_new; [done|]. by apply reverse_spec.
  - (* LSplit *) step_var HR Hx o g Ho Hr Hv Hup.
    assert (length vs = length g) as Hl by (by rewrite <- Hv, map_length). rewrite Hl in Hs.
    destruct (bad_index k (length g) i) as [e|] eqn:Hb.
    + injection Hs as <- <-. apply sim_exc; [done|]. by apply (split_exc k (fst c) o g).
    + injection Hs as <- <-. pose proof (split_ok k (fst c) o g i Hr Hb) as Hw. cbn zeta in Hw.
      apply wp_elim in Hw as ([o1 o2] & s' & Hm & Hc). eexists. split; [by erewrite call_ok|].
      cbn [obs_new2 snd fst]. destruct c. rewrite <- Hv. by eapply rel_new2.
  - (* LGet *) step_var HR Hx o g Ho Hr Hv Hup.
    assert (length vs = length g) as Hl by (by rewrite <- Hv, map_length). rewrite Hl in Hs.
    assert (k <> Circular -> getitem o (mix i) (fst c) = ll_getitem o (mix i) (fst c)) as Hgi.
    { intros Hk. destruct (obj_eq Hr) as (ob & Hob & Hkb & _). unfold getitem.
      erewrite bind_ok by (by apply get_obj_ok). rewrite Hkb. by destruct k. }
    assert (k <> Circular -> match i with
      | AInt z => if bool_decide (z < - Z.of_nat (length g) \/ Z.of_nat (length g) <= z)%Z then Some (RExc IndexError, w)
          else match vs !! Z.to_nat (if bool_decide (z < 0)%Z then z + Z.of_nat (length g) else z) with
               | Some v => Some (RVal v, w) | None => None end
      | ASlice start stop step => if bool_decide (default 1%Z step = 0%Z) then Some (RExc ValueError, w)
          else if bool_decide (default 1%Z step < 0)%Z then None
          else Some (RNew 1, w ++ [Some (slice_pos vs start stop (default 1%Z step))])
      | ANotInt => Some (RExc TypeError, w) end = Some (out, w') ->
      exists c', call (getitem o (mix i)) c obs_get = Some (out, c') /\ Rel (mcls k) c' w') as Hnc.
    { intros Hk Hs'. assert (is_cll (mcls k) = false) as Hcll by (by destruct k).
      specialize (Hgi Hk). destruct i as [z|start stop step|]; cbn [mix] in *.
      - pose proof (ll_getitem_int _ _ _ _ z Hr Hcll) as Hg. rewrite <- Hgi in Hg.
        destruct (bool_decide (_ \/ _)).
        + injection Hs' as <- <-. by apply sim_exc.
        + rewrite Hv in Hg. destruct (vs !! _) as [v|]; [|done]. injection Hs' as <- <-.
          by eapply (sim_read _ _ _ _ obs_get (GVal v)).
      - assert (getitem o (ISlice start stop step) (fst c) = ll_getitem o (ISlice start stop (Some (default 1%Z step))) (fst c)) as Hgi'.
        { rewrite Hgi. by destruct step. }
        case_bool_decide as H0.
        { injection Hs' as <- <-. apply sim_exc; [done|]. rewrite Hgi'.
          destruct (obj_eq Hr) as (ob & Hob & Hkb & _). unfold ll_getitem.
          erewrite bind_ok by (by apply get_obj_ok). 
          assert (check_index o (ISlice start stop (Some (default 1%Z step))) true true (fst c) = Ok tt (fst c)) as Hci.
          { unfold check_index. by erewrite bind_ok by (by apply get_obj_ok). }
          erewrite bind_ok by exact Hci. cbn [default from_option id] in *. by rewrite (proj2 (Z.eqb_eq _ _)). }
        case_bool_decide as H1; [done|]. injection Hs' as <- <-.
        pose proof (slice_spec _ _ _ _ start stop (default 1%Z step) Hr Hcll ltac:(lia)) as Hw.
        apply wp_elim in Hw as (a & s' & Hm & cc & -> & Hc). rewrite <- Hgi' in Hm.
        eexists. split; [rewrite (call_ok _ _ obs_get _ _ Hm); reflexivity|]. cbn [obs_get snd fst]. destruct c. rewrite <- Hv. by eapply rel_new.
      - injection Hs' as <- <-. apply sim_exc; [done|]. rewrite Hgi.
        destruct (obj_eq Hr) as (ob & Hob & Hkb & _). unfold ll_getitem.
        erewrite bind_ok by (by apply get_obj_ok).
        assert (check_index o IOther true true (fst c) = Exc TypeError (fst c)) as Hci.
        { unfold check_index. by erewrite bind_ok by (by apply get_obj_ok). }
        by erewrite bind_exc by exact Hci. }
    destruct k; [by apply Hnc; [done|destruct i]|by apply Hnc; [done|destruct i]|].
    pose proof (cll_getitem_ok _ _ _ i Hr) as Hg. destruct (bad_index _ _ _) as [e|].
    + injection Hs as <- <-. by apply sim_exc.
    + rewrite Hv in Hg. destruct (vs !! _) as [v|]; injection Hs as <- <-.
      * by eapply (sim_read _ _ _ _ obs_get (GVal v)).
      * by apply sim_exc.
  - (* LContains *) step_var HR Hx o g Ho Hr Hv Hup. destruct (is_val v) eqn:Hiv; [|done]. injection Hs as <- <-.
    eapply (sim_read _ _ _ _ obs_bool); [done| |done]. rewrite <- Hv. by eapply contains_ok.
  - (* LCount *) step_var HR Hx o g Ho Hr Hv Hup. destruct (is_val v) eqn:Hiv; [|done]. injection Hs as <- <-.
    eapply (sim_read _ _ _ _ obs_nat); [done| |done]. rewrite <- Hv. by eapply count_ok.
  - (* LLen *) step_var HR Hx o g Ho Hr Hv Hup. injection Hs as <- <-.
    eapply (sim_read _ _ _ _ obs_nat); [done| |done]. rewrite <- Hv, map_length. by eapply ll_len_ok.
  - (* LIsEmpty *) step_var HR Hx o g Ho Hr Hv Hup. injection Hs as <- <-.
    assert (bool_decide (vs = []) = Nat.eqb (length g) 0) as ->.
    { rewrite <- Hv. destruct g; [by apply bool_decide_eq_true|by apply bool_decide_eq_false]. }
    eapply (sim_read _ _ _ _ obs_bool); [done| |done]. by eapply ll_is_empty_ok.
  - (* LToList *) step_var HR Hx o g Ho Hr Hv Hup. injection Hs as <- <-.
    eapply (sim_read _ _ _ _ (fun vs => (RVals vs, []))); [done| |done]. rewrite <- Hv. by eapply to_list_ok.
  - (* LEq *)
    destruct (content w x) as [xs|] eqn:Hx; cbn [mbind option_bind] in Hs; [|done].
    destruct (content w y) as [ys|] eqn:Hy; cbn [mbind option_bind] in Hs; [|done]. injection Hs as <- <-.
    destruct (rel_var _ _ _ _ _ HR Hx) as (o & g & Ho & Hr & Hv & _).
    destruct (rel_var _ _ _ _ _ HR Hy) as (o' & g' & Ho' & Hr' & Hv' & _).
    cbn [model_step]. rewrite Ho, Ho'. cbn [mbind option_bind].
    eapply (sim_read _ _ _ _ obs_bool); [done| |done]. rewrite <- Hv, <- Hv'.
    by apply (list_eq_ok _ _ _ _ _ _ Hr Hr').
  - (* LNe *)
    destruct (content w x) as [xs|] eqn:Hx; cbn [mbind option_bind] in Hs; [|done].
    destruct (content w y) as [ys|] eqn:Hy; cbn [mbind option_bind] in Hs; [|done]. injection Hs as <- <-.
    destruct (rel_var _ _ _ _ _ HR Hx) as (o & g & Ho & Hr & Hv & _).
    destruct (rel_var _ _ _ _ _ HR Hy) as (o' & g' & Ho' & Hr' & Hv' & _).
    cbn [model_step]. rewrite Ho, Ho'. cbn [mbind option_bind].
    eapply (sim_read _ _ _ _ obs_bool); [done| |done]. rewrite <- Hv, <- Hv'.
    by apply (list_eq_ok _ _ _ _ _ _ Hr Hr').
Qed.

Theorem sim_run k ops : forall c w outs w',
  Rel (mcls k) c w -> spec_run k w ops = Some (outs, w') ->
  exists c', model_run k c ops = Some (outs, c') /\ Rel (mcls k) c' w'.
Proof.
  induction ops as [|op ops IH]; intros c w outs w' HR Hs; cbn [spec_run model_run] in *.
  { injection Hs as <- <-. by exists c. }
  destruct (spec_step k w op) as [[out w1]|] eqn:H1; cbn [mbind option_bind] in Hs; [|done].
  destruct (spec_run k w1 ops) as [[os w2]|] eqn:H2; cbn [mbind option_bind] in Hs; [|done].
  injection Hs as <- <-.
  destruct (sim_one _ _ _ _ _ _ HR H1) as (c1 & -> & HR1). cbn [mbind option_bind].
  destruct (IH _ _ _ _ HR1 H2) as (c2 & -> & HR2). by exists c2.
Qed.

End Sim.

Lemma rel0 k : Rel [] k conf0 [].
Proof.
  split; cbn; [done|constructor|set_solver| |].
  { intros k' o g Hin. by apply elem_of_nil in Hin. }
  exists (fun _ => []). split; intros *; by rewrite ?lookup_nil.
Qed.
