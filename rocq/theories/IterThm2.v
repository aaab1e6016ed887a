(** * Suspended iterators follow the positions of a Python list iterator. *)
From Verif Require Import Base ListModel ListRep ListCore ListCore2 ListSpec ListPure ListOps ListOps2 ListRun ListOps3 ListSim ListThm.
From Verif Require Import IterModel IterSpec IterThm.
Local Open Scope py_scope.

Lemma call_env {A} (m : M st A) c f out c' : call m c f = Some (out, c') -> exists e, snd c' = snd c ++ e.
Proof.
  unfold call. destruct (m (fst c)); intros [= <- <-]; [by eexists|]. exists []. by rewrite app_nil_r.
Qed.
Lemma step_env k c op out c' : model_step k c op = Some (out, c') -> exists e, snd c' = snd c ++ e.
Proof.
  destruct op as [items|y v|y v|y i v|y i v|y i|y|y|y v all|y|y d r|y d r|y z|y|y|y i|y i|y v|y v|y|y|y|y z|y z]; cbn [model_step];
    try (destruct (snd c !! y) as [oy|]; cbn [mbind option_bind]; [|done]);
    try (destruct (snd c !! z) as [oz|]; cbn [mbind option_bind]; [|done]); apply call_env.
Qed.

Lemma live_app w ws x : x < length w -> content (w ++ ws) x = content w x.
Proof. intros Hx. unfold content. by rewrite lookup_app_l. Qed.
Lemma live_store w y vs vs' x : content w y = Some vs -> is_Some (content (store w y vs') x) -> is_Some (content w x).
Proof.
  intros Hy. destruct (decide (y = x)) as [->|Hne]; [by rewrite Hy|].
  unfold content, store. by rewrite list_lookup_insert_ne.
Qed.
Lemma spec_live k w op out w' x : spec_step k w op = Some (out, w') -> x < length w ->
  is_Some (content w' x) -> is_Some (content w x).
Proof.
  intros Hs Hx Hl. destruct op as [items|y v|y v|y i v|y i v|y i|y|y|y v all|y|y d r|y d r|y z|y|y|y i|y i|y v|y v|y|y|y|y z|y z];
    cbn [spec_step] in Hs;
    try (destruct (content w y) as [vs|] eqn:Hy; cbn [mbind option_bind] in Hs; [|done]);
    try (destruct (content w z) as [zs|] eqn:Hz; cbn [mbind option_bind] in Hs; [|done]);
    repeat (match type of Hs with context [match ?e with _ => _ end] => destruct e end; try discriminate Hs);
    injection Hs as <- <-; try done;
    try (by rewrite live_app in Hl by done);
    try (by eapply live_store in Hl).
  1, 2: destruct (decide (z = x)) as [->|Hne]; [by rewrite Hz|];
    eapply (live_store _ _ _ _ _ Hy); unfold content in *; rewrite list_lookup_insert_ne in Hl by done; exact Hl.
Qed.

(** The state of a generator against the position of the reference iterator. *)
Definition it_ok (k : lcls) (c : conf) (w : world) (g : gen) (it : pyiter) : Prop :=
  match it with
  | PEnd => g = GDone
  | PAt x 0 => exists o, snd c !! x = Some o /\ g = GNew o
  | PAt x (S p) => exists o l, snd c !! x = Some o /\ g = GAt o p l
      /\ (is_Some (content w x) -> exists ch, rep k (fst c) o ch /\ locs ch !! p = Some l)
  end.

Lemma it_step k c w op out w' c' g it :
  Rel [] (kc k) c w -> spec_step k w op = Some (out, w') -> model_step k c op = Some (out, c') ->
  (forall x p vs, it = PAt x p -> content w x = Some vs -> mutates op x -> p <= front_kept k op vs) ->
  it_ok (kc k) c w g it -> it_ok (kc k) c' w' g it.
Proof.
  intros HR Hs Hc Hb Hok. destruct (step_env _ _ _ _ _ Hc) as [e He].
  destruct it as [x [|p]|]; [| |done]; cbn [it_ok] in *.
  { destruct Hok as (o & Ho & ->). exists o. split; [|done]. rewrite He. by apply lookup_app_l_Some. }
  destruct Hok as (o & l & Ho & -> & Hch). exists o, l.
  split_and!; [rewrite He; by apply lookup_app_l_Some|done|]. intros Hl.
  assert (x < length w) as Hx. { rewrite <- (rel_len _ _ _ _ HR). by eapply lookup_lt_Some. }
  pose proof (spec_live _ _ _ _ _ _ Hs Hx Hl) as [vs Hvs].
  destruct (Hch ltac:(by eexists)) as (ch & Hr & Hp).
  destruct (front_step [] k c w op out w' c' x vs o ch (S p) HR Hs Hc Hvs Hl Ho Hr) as (ch' & Hr' & Hf).
  - by apply Hb.
  - apply lookup_lt_Some in Hp. by rewrite map_length in Hp.
  - exists ch'. split; [done|]. rewrite <- (lookup_take (locs ch') (S p)) by lia.
    rewrite Hf. by rewrite lookup_take by lia.
Qed.

(** One [next]. *)
Lemma gen_test_ok k s o g n : rep k s o g ->
  gen_test o n (hd_loc (drop n g) (endp k g)) s =
    match g !! n with
    | Some m => Ok (IVal (g_val m), GAt o n (g_loc m)) s
    | None => Ok (IStop, GDone) s
    end.
Proof.
  intros Hr. destruct (obj_eq Hr) as (ob & Hob & _ & Hlen & _). unfold gen_test.
  erewrite bind_ok by (by apply get_obj_ok). rewrite Hlen.
  destruct (g !! n) as [m|] eqn:Hm.
  - rewrite (proj2 (Nat.ltb_lt _ _)) by (by eapply lookup_lt_Some).
    rewrite (drop_S _ _ _ Hm). cbn [hd_loc deref]. erewrite bind_ok by done.
    pose proof (rep_seg _ _ _ _ Hr) as Hs. rewrite <- (take_drop_middle _ _ _ Hm) in Hs at 1.
    apply lseg_app in Hs as [_ [(cm & Hcm & _ & Hdat & _) _]].
    assert (get_data (g_loc m) s = Ok (g_val m) s) as E.
    { unfold get_data, bind. by rewrite (get_cell_ok _ _ _ Hcm), <- Hdat. }
    by erewrite bind_ok by exact E.
  - apply lookup_ge_None in Hm. by rewrite (proj2 (Nat.ltb_ge _ _)).
Qed.
Lemma gen_new_ok k s o g : rep k s o g ->
  gen_next (GNew o) s =
    match g with
    | m :: _ => Ok (IVal (g_val m), GAt o 0 (g_loc m)) s
    | [] => Ok (IStop, GDone) s
    end.
Proof.
  intros Hr. destruct (obj_eq Hr) as (ob & Hob & _ & Hlen & Hhd & _). cbn [gen_next].
  erewrite bind_ok by (by apply get_obj_ok). destruct g as [|m g].
  - unfold gen_test. erewrite bind_ok by (by apply get_obj_ok). by rewrite Hlen.
  - rewrite Hhd by done. pose proof (gen_test_ok _ _ _ _ 0 Hr) as H. exact H.
Qed.
Lemma gen_at_ok k s o g p l : rep k s o g -> locs g !! p = Some l ->
  gen_next (GAt o p l) s =
    match g !! S p with
    | Some m => Ok (IVal (g_val m), GAt o (S p) (g_loc m)) s
    | None => Ok (IStop, GDone) s
    end.
Proof.
  intros Hr Hp. rewrite list_lookup_fmap in Hp. destruct (g !! p) as [n|] eqn:Hn; [|done].
  cbn in Hp. injection Hp as <-. cbn [gen_next].
  pose proof (rep_seg _ _ _ _ Hr) as Hs. rewrite <- (take_drop_middle _ _ _ Hn) in Hs at 1.
  apply lseg_app in Hs as [_ [(cn & Hcn & _ & _ & _ & _ & Hnx & _) _]].
  assert (get_next (g_loc n) s = Ok (hd_loc (drop (S p) g) (endp k g)) s) as E.
  { unfold get_next, bind. by rewrite (get_cell_ok _ _ _ Hcn), <- Hnx. }
  erewrite bind_ok by exact E. by apply gen_test_ok.
Qed.

(** A [next] always comes back and changes no list. *)
Lemma gen_test_total o n c s : (exists r g, gen_test o n c s = Ok (r, g) s) \/ (exists e, gen_test o n c s = Exc e s).
Proof.
  unfold gen_test, get_obj, get_data, get_cell, bind, deref, ret, raise.
  destruct (s_objs s !! o) as [ob|]; [|right; by eexists]. destruct (Nat.ltb _ _); [|left; by eexists _, _].
  destruct c as [l|]; [|right; by eexists]. destruct (s_nodes s !! l); [left; by eexists _, _|right; by eexists].
Qed.
Lemma gen_next_total g s : (exists r g', gen_next g s = Ok (r, g') s) \/ (exists e, gen_next g s = Exc e s).
Proof.
  destruct g as [o|o n l|]; cbn [gen_next]; [| |left; by eexists _, _].
  - unfold get_obj, bind. destruct (s_objs s !! o) as [ob|]; [|right; by eexists]. apply gen_test_total.
  - unfold get_next, get_cell, bind, ret. destruct (s_nodes s !! l) as [ce|]; [|right; by eexists]. apply gen_test_total.
Qed.
Lemma step_next_total c gs i g : exists r g', step_next c gs i g = Some (ONext r, (c, <[i := g']> gs)).
Proof.
  unfold step_next. destruct c as [s env]. cbn [fst snd].
  destruct (gen_next_total g s) as [(r & g' & ->)|(e & ->)]; by eexists _, _.
Qed.

(** The iterators in [T] are followed; the others may be anywhere. *)
Definition IRel (T : nat -> Prop) (k : lclass) (c : iconf) (w : world) (its : list pyiter) : Prop :=
  Rel [] (kc k) c.1 w /\ length c.2 = length its
  /\ (forall i g it, T i -> c.2 !! i = Some g -> its !! i = Some it -> it_ok (kc k) c.1 w g it).
(** [o'] is what the program sees where the reference gives [o]. *)
Definition agree (T : nat -> Prop) (t : stmt) (o o' : sout) : Prop :=
  match t with
  | SNext i => (exists r, o = ONext r) /\ (exists r', o' = ONext r') /\ (T i -> o' = o)
  | SIter _ => o = OIter /\ o' = OIter
  | SCall _ => exists r, o = OCall r /\ o' = OCall r
  end.

Lemma irel_insert (T : nat -> Prop) k c w gs its i g it :
  Rel [] (kc k) c w -> length gs = length its ->
  (forall j g it, T j -> gs !! j = Some g -> its !! j = Some it -> it_ok (kc k) c w g it) ->
  (T i -> it_ok (kc k) c w g it) ->
  IRel T k (c, <[i := g]> gs) w (<[i := it]> its).
Proof.
  intros HR Hl HI Hn. split; [done|]. cbn [fst snd]. split; [by rewrite !insert_length|].
  intros j g1 it1 HT Hg Hit. destruct (decide (i = j)) as [->|Hne].
  - pose proof (lookup_lt_Some _ _ _ Hg) as Hlt. rewrite insert_length in Hlt.
    rewrite list_lookup_insert in Hg by done. rewrite list_lookup_insert in Hit by lia.
    injection Hg as <-. injection Hit as <-. by apply Hn.
  - rewrite list_lookup_insert_ne in Hg by done. rewrite list_lookup_insert_ne in Hit by done. by eapply HI.
Qed.

Lemma isim_one (T : nat -> Prop) k c w its t out w' its' :
  (forall i, Decision (T i)) ->
  IRel T k c w its -> spec_istep k w its t = Some (out, (w', its')) ->
  (forall op, t = SCall op -> behind T k w its op) ->
  exists out' c', model_istep k c t = Some (out', c') /\ agree T t out out' /\ IRel T k c' w' its'.
Proof.
  destruct c as [c gs]. intros HTd (HR & Hl & HI) Hs Hb. cbn [fst snd] in *.
  destruct t as [op|x|i]; cbn [spec_istep model_istep fst snd] in *.
  - destruct (spec_step k w op) as [[r w1]|] eqn:H1; cbn [mbind option_bind] in Hs; [|done].
    injection Hs as <- <- <-. destruct (sim_one [] _ _ _ _ _ _ HR H1) as (c1 & Hc & HR1).
    rewrite Hc. cbn [mbind option_bind]. eexists _, _. split; [done|]. split; [by eexists|]. split; [done|]. cbn [fst snd].
    specialize (Hb _ eq_refl). split; [done|].
    intros j g it HT Hg Hit. eapply it_step; [exact HR|exact H1|exact Hc| |by eapply HI].
    intros x p vs ->. by apply (Hb j).
  - destruct (content w x) as [vs|] eqn:Hx; cbn [mbind option_bind] in Hs; [|done].
    injection Hs as <- <- <-. destruct (rel_var _ _ _ _ _ _ HR Hx) as (o & g & Ho & _).
    rewrite Ho. cbn [mbind option_bind]. eexists _, _. split; [done|]. split; [done|]. split; [done|]. cbn [fst snd].
    split; [by rewrite !app_length, Hl|]. intros j g1 it HT Hg Hit.
    apply lookup_app_Some in Hg as [Hg|[Hge Hg]].
    + pose proof (lookup_lt_Some _ _ _ Hg). rewrite lookup_app_l in Hit by lia. by eapply HI.
    + rewrite lookup_app_r in Hit by lia. rewrite <- Hl in Hit.
      apply list_lookup_singleton_Some in Hg as [_ <-]. apply list_lookup_singleton_Some in Hit as [_ <-]. by exists o.
  - destruct (its !! i) as [it|] eqn:Hi; cbn [mbind option_bind] in Hs; [|done].
    destruct (lookup_lt_is_Some_2 gs i) as [g Hg]; [rewrite Hl; by eapply lookup_lt_Some|].
    rewrite Hg. cbn [mbind option_bind].
    assert (exists it' r, out = ONext r /\ w' = w /\ its' = <[i := it']> its
      /\ (T i -> exists g', step_next c gs i g = Some (out, (c, <[i := g']> gs)) /\ it_ok (kc k) c w g' it')) as Hn.
    { destruct it as [x p|].
      - destruct (content w x) as [vs|] eqn:Hx; cbn [mbind option_bind] in Hs; [|done].
        destruct (rel_var _ _ _ _ _ _ HR Hx) as (o & ch & Ho & Hr & Hv & _).
        rewrite <- Hv, list_lookup_fmap in Hs.
        assert (T i -> gen_next g (fst c) = match ch !! p with
          | Some m => Ok (IVal (g_val m), GAt o p (g_loc m)) (fst c)
          | None => Ok (IStop, GDone) (fst c) end) as Hn.
        { intros HT. pose proof (HI _ _ _ HT Hg Hi) as Hok. destruct p as [|p]; cbn [it_ok] in Hok.
          - destruct Hok as (o1 & Ho1 & ->). rewrite Ho in Ho1. injection Ho1 as <-.
            rewrite (gen_new_ok _ _ _ _ Hr). by destruct ch.
          - destruct Hok as (o1 & l & Ho1 & -> & Hch). rewrite Ho in Ho1. injection Ho1 as <-.
            destruct (Hch ltac:(by eexists)) as (ch1 & Hr1 & Hp). rewrite (rep_fun _ _ _ _ _ Hr1 Hr) in Hp.
            exact (gen_at_ok _ _ _ _ _ _ Hr Hp). }
        destruct (ch !! p) as [m|] eqn:Hm; cbn [fmap option_fmap option_map] in Hs; injection Hs as <- <- <-.
        + eexists _, _. split_and!; [done..|]. intros HT. specialize (Hn HT). unfold step_next. rewrite Hn.
          destruct c as [s env]. cbn [fst snd] in *. eexists. split; [done|]. 
          exists o, (g_loc m). split_and!; [done|done|]. intros _. exists ch. split; [done|]. by rewrite list_lookup_fmap, Hm.
        + eexists _, _. split_and!; [done..|]. intros HT. specialize (Hn HT). unfold step_next. rewrite Hn.
          destruct c as [s env]. cbn [fst snd] in *. by eexists.
      - injection Hs as <- <- <-. exists PEnd, IStop. split_and!; [done|done|by rewrite list_insert_id|].
        intros HT. pose proof (HI _ _ _ HT Hg Hi) as Hok. cbn in Hok. subst g. exists GDone.
        unfold step_next. cbn [gen_next ret]. by destruct c. }
    destruct Hn as (it' & r & -> & -> & -> & Hn). destruct (HTd i) as [HT|HT].
    + destruct (Hn HT) as (g' & Hst & Hok). rewrite Hst. eexists _, _. split; [done|]. split.
      * split_and!; [by eexists|by eexists|done].
      * by apply irel_insert.
    + destruct (step_next_total c gs i g) as (r' & g' & ->). eexists _, _. split; [done|]. split.
      * split_and!; [by eexists|by eexists|done].
      * by apply irel_insert.
Qed.

Inductive agree_all (T : nat -> Prop) : list stmt -> list sout -> list sout -> Prop :=
| agree_nil : agree_all T [] [] []
| agree_cons t ts o o' os os' : agree T t o o' -> agree_all T ts os os' -> agree_all T (t :: ts) (o :: os) (o' :: os').

Lemma isim_run (T : nat -> Prop) k ts : (forall i, Decision (T i)) -> forall c w its outs w' its',
  IRel T k c w its -> spec_irun k w its ts = Some (outs, (w', its')) -> undisturbed T k w its ts ->
  exists outs' c', model_irun k c ts = Some (outs', c') /\ agree_all T ts outs outs' /\ IRel T k c' w' its'.
Proof.
  intros HTd. induction ts as [|t ts IH]; intros c w its outs w' its' HR Hs Hu; cbn [spec_irun model_irun undisturbed] in *.
  { injection Hs as <- <- <-. exists [], c. split; [done|]. split; [constructor|done]. }
  destruct (spec_istep k w its t) as [[o [w1 its1]]|] eqn:H1; cbn [mbind option_bind] in Hs; [|done].
  destruct (spec_irun k w1 its1 ts) as [[os [w2 its2]]|] eqn:H2; cbn [mbind option_bind] in Hs; [|done].
  injection Hs as <- <- <-. destruct Hu as [Hb Hu].
  destruct (isim_one _ _ _ _ _ _ _ _ _ HTd HR H1) as (o1 & c1 & -> & Ha & HR1).
  { intros op ->. done. }
  cbn [mbind option_bind]. destruct (IH _ _ _ _ _ _ HR1 H2 Hu) as (os' & c2 & -> & Has & HR2).
  eexists _, _. split; [done|]. split; [by constructor|done].
Qed.
Lemma irel0 T k : IRel T k iconf0 [] [].
Proof. split; [apply rel0|]. split; [done|]. intros i g it _ H. done. Qed.

Lemma agree_seen (T : nat -> Prop) ts outs outs' i : agree_all T ts outs outs' -> T i -> seen i ts outs' = seen i ts outs.
Proof.
  intros H HT. induction H as [|t ts o o' os os' Ha _ IH]; [done|]. destruct t as [op|x|j]; cbn in Ha.
  - destruct Ha as (r & -> & ->). done.
  - destruct Ha as [-> ->]. done.
  - destruct Ha as ((r & ->) & (r' & ->) & He). cbn [seen]. destruct (Nat.eqb_spec i j) as [<-|_]; [|done].
    specialize (He HT). injection He as ->. by rewrite IH.
Qed.
Lemma agree_calls T ts outs outs' : agree_all T ts outs outs' -> call_results outs' = call_results outs.
Proof.
  intros H. induction H as [|t ts o o' os os' Ha _ IH]; [done|]. destruct t as [op|x|j]; cbn in Ha.
  - destruct Ha as (r & -> & ->). cbn. by rewrite IH.
  - by destruct Ha as [-> ->].
  - by destruct Ha as ((r & ->) & (r' & ->) & _).
Qed.
Lemma agree_eq ts outs outs' : agree_all (fun _ => True) ts outs outs' -> outs' = outs.
Proof.
  intros H. induction H as [|t ts o o' os os' Ha _ IH]; [done|]. destruct t as [op|x|j]; cbn in Ha.
  - destruct Ha as (r & -> & ->). by rewrite IH.
  - destruct Ha as [-> ->]. by rewrite IH.
  - destruct Ha as (_ & _ & He). by rewrite He, IH.
Qed.

(** ** A loop over a list that is not changed meanwhile *)
Lemma spec_frame k w op out w' x vs : spec_step k w op = Some (out, w') -> ~ mutates op x ->
  content w x = Some vs -> content w' x = Some vs.
Proof.
  intros Hs Hn Hx. assert (x < length w) as Hlt by (apply content_some in Hx; by eapply lookup_lt_Some).
  destruct op as [items|y v|y v|y i v|y i v|y i|y|y|y v all|y|y d r|y d r|y z|y|y|y i|y i|y v|y v|y|y|y|y z|y z];
    cbn [spec_step mutates] in *;
    try (destruct (content w y) as [us|] eqn:Hy; cbn [mbind option_bind] in Hs; [|done]);
    try (destruct (content w z) as [zs|] eqn:Hz; cbn [mbind option_bind] in Hs; [|done]);
    repeat (match type of Hs with context [match ?e with _ => _ end] => destruct e end; try discriminate Hs);
    injection Hs as <- <-; try done;
    try (by rewrite live_app);
    unfold content, store in *; rewrite ?list_lookup_insert_ne by tauto; done.
Qed.

Lemma loop_spec k i x vs ts : forall p w its outs e,
  spec_irun k w its ts = Some (outs, e) -> content w x = Some vs -> only_reads x ts ->
  (its !! i = Some (PAt x p) /\ p <= length vs \/ its !! i = Some PEnd /\ p = length vs) ->
  seen i ts outs = take (asks i ts) (map IVal (drop p vs) ++ replicate (asks i ts) IStop)
  /\ undisturbed (fun j => j = i) k w its ts.
Proof.
  induction ts as [|t ts IH]; intros p w its outs e Hs Hx Hm Hi; cbn [spec_irun undisturbed] in *.
  { injection Hs as <- <-. done. }
  destruct (spec_istep k w its t) as [[o [w1 its1]]|] eqn:H1; cbn [mbind option_bind] in Hs; [|done].
  destruct (spec_irun k w1 its1 ts) as [[os e2]|] eqn:H2; cbn [mbind option_bind] in Hs; [|done].
  injection Hs as <- <-.
  assert (only_reads x ts) as Hm' by (intros op Hop; apply Hm; by right).
  destruct t as [op|y|j]; cbn [spec_istep] in H1.
  - destruct (spec_step k w op) as [[r w2]|] eqn:Hop; cbn [mbind option_bind] in H1; [|done].
    injection H1 as <- <- <-. assert (~ mutates op x) as Hnm by (apply Hm; by left).
    destruct (IH p w2 its os e2 H2) as [Hseen Hu]; [by eapply spec_frame|done|done|].
    split; [exact Hseen|]. split; [|done].
    intros j y q us -> Hj Hy Hmy. destruct Hi as [[Hi _]|[Hi _]]; rewrite Hi in Hj; [|done].
    injection Hj as <- <-. done.
  - destruct (content w y) as [us|]; cbn [mbind option_bind] in H1; [|done]. injection H1 as <- <- <-.
    destruct (IH p w (its ++ [PAt y 0]) os e2 H2 Hx Hm') as [Hseen Hu]; [|done].
    destruct Hi as [[Hi ?]|[Hi ?]]; [left|right]; (split; [by apply lookup_app_l_Some|done]).
  - destruct (its !! j) as [it|] eqn:Hj; cbn [mbind option_bind] in H1; [|done].
    destruct (decide (i = j)) as [<-|Hne].
    + destruct Hi as [[Hi Hp]|[Hi ->]]; rewrite Hi in Hj; injection Hj as <-.
      * rewrite Hx in H1. cbn [mbind option_bind] in H1. pose proof (lookup_lt_Some _ _ _ Hi) as Hlt.
        destruct (vs !! p) as [v|] eqn:Hv; injection H1 as <- <- <-.
        -- destruct (IH (S p) w _ os e2 H2 Hx Hm') as [Hseen Hu].
           { left. rewrite list_lookup_insert by done. split; [done|]. apply lookup_lt_Some in Hv. lia. }
           split; [|done]. cbn [seen asks]. rewrite Nat.eqb_refl, Hseen. rewrite (drop_S _ _ _ Hv).
           cbn [map app Nat.add firstn]. f_equal. change (1 + asks i ts) with (S (asks i ts)).
           rewrite replicate_S_end, (app_assoc _ (replicate _ _)).
           rewrite (take_app_le _ [IStop]); [done|]. rewrite app_length, replicate_length. lia.
        -- apply lookup_ge_None in Hv. assert (p = length vs) as -> by lia.
           destruct (IH (length vs) w _ os e2 H2 Hx Hm') as [Hseen Hu].
           { right. by rewrite list_lookup_insert by done. }
           split; [|done]. cbn [seen asks]. rewrite Nat.eqb_refl, Hseen, drop_all. done.
      * injection H1 as <- <- <-. destruct (IH (length vs) w its os e2 H2 Hx Hm') as [Hseen Hu]; [by right|].
        split; [|done]. cbn [seen asks]. rewrite Nat.eqb_refl, Hseen, drop_all. done.
    + assert (exists r it', o = ONext r /\ w1 = w /\ its1 = <[j := it']> its) as (r & it' & -> & -> & ->).
      { destruct it as [y q|].
        - destruct (content w y) as [us|]; cbn [mbind option_bind] in H1; [|done].
          destruct (us !! q); injection H1 as <- <- <-; by eexists _, _.
        - injection H1 as <- <- <-. exists IStop, PEnd. split_and!; [done|done|]. by rewrite list_insert_id. }
      destruct (IH p w _ os e2 H2 Hx Hm') as [Hseen Hu].
      { destruct Hi as [[Hi ?]|[Hi ?]]; [left|right]; (split; [by rewrite list_lookup_insert_ne|done]). }
      split; [|done]. cbn [seen asks]. rewrite (proj2 (Nat.eqb_neq i j)) by done. exact Hseen.
Qed.
