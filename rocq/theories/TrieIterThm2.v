(** * Loops over tries whose nodes do not change *)
From stdpp Require Import gmap.
From Verif Require Import Base TrieModel TrieRep TrieSpec TrieSpec2 TrieThm TrieThm2 TrieThm3 TrieProps SuffixModel TrieThm4 SuffixSpec SuffixThm LevelModel TrieThm5 TrieThm6 TrieProps2 TrieIterModel TrieIterSpec TrieIterThm.
Local Open Scope py_scope.

(** ** Splitting a run *)
Lemma zrun_app c a : forall q d, model_zrun c q (a ++ d) =
  match model_zrun c q a with
  | Some (o1, q1) => match model_zrun c q1 d with Some (o2, q2) => Some (o1 ++ o2, q2) | None => None end
  | None => None
  end.
Proof.
  induction a as [|t a IH]; intros q d.
  - cbn [app model_zrun]. by destruct (model_zrun c q d) as [[o q2]|].
  - cbn [app model_zrun]. destruct (model_zstep c q t) as [[o q1]|]; [|done]. cbn [mbind option_bind].
    rewrite IH. destruct (model_zrun c q1 a) as [[o1 q2]|]; [|done]. cbn [mbind option_bind].
    by destruct (model_zrun c q2 d) as [[o2 q3]|].
Qed.
Lemma zseen_app i a : forall oa c oc, length oa = length a -> zseen i (a ++ c) (oa ++ oc) = zseen i a oa ++ zseen i c oc.
Proof.
  induction a as [|t a IH]; intros [|o oa] c oc H; try done. injection H as H. cbn [app zseen].
  destruct t, o; try (by apply IH). rewrite <- app_assoc. f_equal. by apply IH.
Qed.
Lemma zasks_app i a b : zasks i (a ++ b) = zasks i a + zasks i b.
Proof. induction a as [|[| | |j] a IH]; cbn [app zasks]; try done. rewrite IH. lia. Qed.
Lemma zmade_app a b : forall n, zmade n (a ++ b) -> zmade n a /\ zmade (n + ziters a) b.
Proof.
  induction a as [|[o|l| |i] a IH]; intros n H; cbn [app zmade ziters] in *.
  - by rewrite Nat.add_0_r.
  - by apply IH.
  - by apply IH.
  - apply IH in H. by rewrite <- Nat.add_succ_comm.
  - destruct H as [Hi H]. apply IH in H as [H1 H2]. by split_and!.
Qed.
(** A fresh iterator that is not asked stays fresh. *)
Lemma zstep_fresh c i s gs t o s' gs' : (gs !! i = Some ZGNew \/ length gs <= i) -> t <> ZNext i ->
  model_zstep c (s, gs) t = Some (o, (s', gs')) -> gs' !! i = Some ZGNew \/ length gs' <= i.
Proof.
  intros Hi Ht. destruct t as [op|l| |j]; cbn [model_zstep fst snd].
  - by destruct (trie_call c op s) as [a s1|e s1|]; [| |done]; intros [= <- <- <-].
  - by destruct (look_call c l s) as [a s1|e s1|]; [| |done]; intros [= <- <- <-].
  - intros [= <- <- <-]. destruct Hi as [Hi|Hi]; [left; by apply lookup_app_l_Some|]. destruct (decide (i = length gs)) as [->|].
    + left. rewrite lookup_app_r by done. by rewrite Nat.sub_diag.
    + right. rewrite app_length. cbn. lia.
  - assert (j <> i) as Hne by congruence. destruct (gs !! j) as [g|]; [|done]. cbn [mbind option_bind].
    destruct (zg_next g s) as [[r g'] s1|e s1|]; [| |done]; intros [= <- <- <-]; rewrite insert_length; by rewrite list_lookup_insert_ne by done.
Qed.
Lemma zrun_fresh c i ts : forall s gs outs e, (gs !! i = Some ZGNew \/ length gs <= i) -> zasks i ts = 0 ->
  model_zrun c (s, gs) ts = Some (outs, e) -> (e.2 !! i = Some ZGNew \/ length e.2 <= i) /\ zseen i ts outs = [].
Proof.
  induction ts as [|t ts IH]; intros s gs outs e Hi Ha Hrun.
  { by injection Hrun as <- <-. }
  cbn [model_zrun] in Hrun. destruct (model_zstep c (s, gs) t) as [[o [s1 gs1]]|] eqn:E1; [|done]. cbn [mbind option_bind] in Hrun.
  destruct (model_zrun c (s1, gs1) ts) as [[os q2]|] eqn:E2; [|done]. cbn in Hrun. injection Hrun as <- <-.
  assert (t <> ZNext i) as Ht. { intros ->. cbn [zasks] in Ha. rewrite Nat.eqb_refl in Ha. lia. }
  assert (zasks i ts = 0) as Ha'. { destruct t; cbn [zasks] in Ha; [done..|]. lia. }
  destruct (IH s1 gs1 os q2 (zstep_fresh _ _ _ _ _ _ _ _ Hi Ht E1) Ha' E2) as [H1 H2]. split; [done|].
  destruct t as [| | |j]; cbn [zseen]; try by destruct o. destruct o; try done. destruct (Nat.eqb_spec j i) as [->|]; done.
Qed.
Lemma okz0 c : okz c zconf0.
Proof. split; [apply okst_new|]. apply Forall_nil. done. Qed.
Lemma zrun_split c pre ts i : zmade 0 (pre ++ ZNext i :: ts) -> zasks i pre = 0 ->
  exists o1 o2 s gs e, model_zrun c zconf0 pre = Some (o1, (s, gs)) /\ model_zrun c (s, gs) (ZNext i :: ts) = Some (o2, e) /\
    model_zrun c zconf0 (pre ++ ZNext i :: ts) = Some (o1 ++ o2, e) /\
    zseen i (pre ++ ZNext i :: ts) (o1 ++ o2) = zseen i (ZNext i :: ts) o2 /\
    okz c (s, gs) /\ zmade (length gs) (ZNext i :: ts) /\ trie_run c (updates pre) trie_new = Some s /\ gs !! i = Some ZGNew.
Proof.
  intros Hm Ha. destruct (zmade_app _ _ _ Hm) as [Hm1 Hm2].
  destruct (zrun_total c pre trie_new [] (okz0 c) Hm1) as (o1 & s & gs & H1 & Hz & Hl1 & Hg1 & Hr & _).
  assert (length gs = 0 + ziters pre) as Hg by done. rewrite <- Hg in Hm2.
  destruct (zrun_total c (ZNext i :: ts) s gs Hz Hm2) as (o2 & s' & gs' & H2 & _).
  exists o1, o2, s, gs, (s', gs'). split; [done|]. split; [done|]. split.
  { rewrite zrun_app. unfold zconf0. by rewrite H1, H2. }
  destruct (zrun_fresh c i pre trie_new [] o1 (s, gs) ltac:(right; cbn; lia) Ha H1) as [Hf Hs].
  split; [by rewrite zseen_app, Hs|]. split; [done|]. split; [done|]. split; [done|].
  destruct Hf as [Hf|Hf]; [done|]. destruct Hm2 as [Hi _]. cbn in Hf. lia.
Qed.

(** ** A generator in a store that keeps the nodes of [v] *)
Definition agree (v s : ts) : Prop := forall i n, t_nodes v !! i = Some n -> t_nodes s !! i = Some n.
Lemma agree_refl s : agree s s.
Proof. by intros i n. Qed.
Lemma agree_lt v s i : agree v s -> i < length (t_nodes v) -> i < length (t_nodes s) /\ kids s i = kids v i /\ datum s i = datum v i.
Proof.
  intros H [n Hn]%lookup_lt_is_Some. pose proof (H _ _ Hn) as Hs. split; [by eapply lookup_lt_Some|]. unfold kids, datum. by rewrite Hn, Hs.
Qed.
Definition pinv (v : ts) (L : gmap nat word) (g : zgen) (fut : list word) : Prop :=
  match g with
  | ZGNew => False
  | ZGDone => fut = []
  | ZGAt cur rest next => exists k, (forall i, i ∈ cur :: rest -> is_Some (L !! i)) /\
      (forall i, i ∈ next ++ (cur :: rest) ≫= kids v -> near L k i) /\
      fut = map (datum v) (rest ++ mjoin (lev_list v k (next ++ (cur :: rest) ≫= kids v)))
  end.
Definition goes (v : ts) (L : gmap nat word) (fut : list word) (r : zgot) (g' : zgen) : Prop :=
  match fut with x :: fut' => r = ZVal x /\ pinv v L g' fut' | [] => r = ZStop /\ g' = ZGDone end.
Lemma live_lt v L i : rep v L -> is_Some (L !! i) -> i < length (t_nodes v).
Proof. intros R [p Hp]. by eapply rep_lt. Qed.
Lemma level_goes v L s k l : rep v L -> agree v s -> (forall i, i ∈ l -> near L k i) ->
  exists r g', zg_level l s = Ok (r, g') s /\ goes v L (map (datum v) (mjoin (lev_list v k l))) r g'.
Proof.
  intros R Ha Hl. destruct l as [|i l].
  { rewrite lev_list_nil. by eexists _, _. }
  destruct k as [|k]. { destruct (near_0 L i). apply Hl. left. }
  cbn [zg_level]. assert (forall j, j ∈ i :: l -> is_Some (L !! j)) as Hlive. { intros j (p & Hp & _)%Hl. by eexists. }
  destruct (agree_lt v s i Ha) as (Hlt & _ & Hd). { eapply live_lt; [done|]. apply Hlive. left. }
  rewrite zg_yield_ok, Hd by done. eexists _, _. split; [done|]. cbn [lev_list].
  change (mjoin ((i :: l) :: lev_list v k ((i :: l) ≫= kids v))) with ((i :: l) ++ mjoin (lev_list v k ((i :: l) ≫= kids v))).
  cbn [app map goes]. split; [done|]. exists k. split; [done|]. split; [|done].
  cbn [app]. intros j (a & Hj & Hin)%elem_of_list_bind. eapply near_kids; [done|by apply Hl|done].
Qed.
Lemma pinv_step v L s g fut : rep v L -> agree v s -> pinv v L g fut -> exists r g', zg_next g s = Ok (r, g') s /\ goes v L fut r g'.
Proof.
  intros R Ha. destruct g as [|cur rest next|]; cbn [pinv]; [done| |intros ->; by eexists _, _].
  intros (k & Hlive & Hnear & ->). cbn [zg_next].
  destruct (agree_lt v s cur Ha) as (Hlt & Hk & _). { eapply live_lt; [done|]. apply Hlive. left. }
  rewrite (bind_ok _ _ _ _ _ (zchildren_ok s cur Hlt)), Hk. destruct rest as [|i rest].
  - change ([cur] ≫= kids v) with (kids v cur ++ []) in *. rewrite app_nil_r in *. cbn [app]. by apply level_goes.
  - destruct (agree_lt v s i Ha) as (Hlt' & _ & Hd). { eapply live_lt; [done|]. apply Hlive. right. left. }
    rewrite zg_yield_ok, Hd by done. eexists _, _. split; [done|]. cbn [app map goes]. split; [done|]. exists k.
    change ((cur :: i :: rest) ≫= kids v) with (kids v cur ++ (i :: rest) ≫= kids v) in *. rewrite <- app_assoc. split; [|done].
    intros j Hj. apply Hlive. by right.
Qed.
Lemma first_goes s L W : trep s L W -> exists r g', zg_next ZGNew s = Ok (r, g') s /\
  goes s L (mjoin (map (map (datum s)) (the_levels s))) r g'.
Proof.
  intros T. pose proof (x_rep _ _ _ _ T) as R. cbn [zg_next]. rewrite (bind_ok _ _ _ _ _ (is_empty_ok s L W T)).
  rewrite mjoin_map. case_bool_decide as HW.
  - destruct (depth_height_empty s L W T HW) as (_ & _ & _ & _ & ->). by eexists _, _.
  - rewrite (bind_ok _ _ _ s s) by done. rewrite (bind_ok _ _ _ _ _ (zchildren_ok s (t_root s) (rep_lt _ _ _ _ R (r_root _ _ R)))).
    apply level_goes; [done|apply agree_refl|]. intros i Hi. eapply near_mono; [by eapply near_top|lia].
Qed.
Lemma take_more {A} (l : list A) x n : take n (l ++ replicate n x) = take n (l ++ replicate (S n) x).
Proof.
  replace (S n) with (n + 1) by lia. rewrite replicate_add, app_assoc.
  by rewrite (take_app_le (l ++ _)) by (rewrite app_length, replicate_length; lia).
Qed.
Lemma zrun_plain c v L i ts : forall s gs g fut outs e, rep v L -> agree v s -> only_looks ts ->
  okz c (s, gs) -> zmade (length gs) ts -> gs !! i = Some g -> pinv v L g fut ->
  model_zrun c (s, gs) ts = Some (outs, e) ->
  zseen i ts outs = exact_loop fut (zasks i ts).
Proof.
  induction ts as [|t ts IH]; intros s gs g fut outs e R Ha Ho Hz Hm Hi Hg Hrun; [by injection Hrun as <- <-|].
  destruct (zmade_cons _ _ _ Hm) as [Hb Hm'].
  destruct (zstep_ok c s gs t _ Hz eq_refl Hb) as (o & s1 & gs1 & E & Hz1 & Ht). pose proof (zstep_len _ _ _ _ _ _ _ E) as Hl.
  rewrite <- Hl in Hm'. cbn [model_zrun] in Hrun. rewrite E in Hrun. cbn [mbind option_bind] in Hrun.
  destruct (model_zrun c (s1, gs1) ts) as [[os q2]|] eqn:E2; [|done]. cbn in Hrun. injection Hrun as <- <-.
  assert (only_looks ts) as Ho'. { intros w. destruct (Ho w) as [H1 H2]. split; intros H; [apply H1|apply H2]; by right. }
  destruct t as [op|l| |j].
  - destruct Ht as (Haf & -> & [x ->] & _). destruct op as [w|w|].
    + destruct (Ho w) as [H _]. destruct H. left.
    + destruct (Ho w) as [_ H]. destruct H. left.
    + injection Haf as <-. refine (IH _ gs g fut os q2 R _ Ho' Hz1 Hm' Hi Hg E2). intros j n Hj. cbn. apply lookup_app_l_Some. by apply Ha.
  - destruct Ht as (-> & -> & [x ->] & _). by apply (IH s gs g fut os q2 R Ha Ho').
  - destruct Ht as (-> & -> & ->). apply (IH s (gs ++ [ZGNew]) g fut os q2 R Ha Ho'); try done. by apply lookup_app_l_Some.
  - destruct Ht as (-> & gj & r & g' & Hj & En & -> & ->). cbn [zseen zasks]. destruct (Nat.eqb_spec j i) as [->|Hne].
    + rewrite Hi in Hj. injection Hj as <-. destruct (pinv_step v L s g fut R Ha Hg) as (r' & g'' & En' & Hgo).
      rewrite En in En'. injection En' as <- <-. pose proof (list_lookup_insert gs i g' (lookup_lt_Some _ _ _ Hi)) as Hi'.
      cbn [app plus]. unfold exact_loop, goes in *. destruct fut as [|x fut].
      * destruct Hgo as [-> ->]. rewrite (IH s _ ZGDone [] os q2 R Ha Ho' Hz1 Hm' Hi' eq_refl E2). done.
      * destruct Hgo as [-> Hg']. rewrite (IH s _ g' fut os q2 R Ha Ho' Hz1 Hm' Hi' Hg' E2). cbn [map app take]. f_equal. apply take_more.
    + cbn [app plus]. apply (IH s (<[j:=g']> gs) g fut os q2 R Ha Ho'); try done. by rewrite list_lookup_insert_ne.
Qed.
