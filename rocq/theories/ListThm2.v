(** * More consequences: extend, construction from a list, ordering, termination. *)
From Verif Require Import Base ListModel ListRep ListCore ListCore2 ListSpec ListPure ListOps ListOps2 ListRun ListOps3 ListSim ListThm.
Local Open Scope py_scope.

Lemma model_run_app k ops1 ops2 : forall c, model_run k c (ops1 ++ ops2) =
  '(o1, c1) ← model_run k c ops1; '(o2, c2) ← model_run k c1 ops2; Some (o1 ++ o2, c2).
Proof.
  induction ops1 as [|op ops IH]; intros c; cbn [model_run app].
  { cbn [mbind option_bind]. by destruct (model_run k c ops2) as [[]|]. }
  destruct (model_step k c op) as [[o c1]|]; cbn [mbind option_bind]; [|done].
  rewrite IH. destruct (model_run k c1 ops) as [[os c2]|]; cbn [mbind option_bind]; [|done].
  by destruct (model_run k c2 ops2) as [[os' c3]|].
Qed.

Lemma call_at {A} (m : M st A) s env f a s' : m s = Ok a s' ->
  call m (s, env) f = Some (fst (f a), (s', env ++ snd (f a))).
Proof. apply (call_ok m (s, env)). Qed.

(** ** extend *)
Theorem extend_concat k h outs w x y xs ys :
  spec_run k [] h = Some (outs, w) -> x <> y -> w !! x = Some (Some xs) -> w !! y = Some (Some ys) ->
  exists c, model_run k conf0 (h ++ [LExtend x y; LToList x; LToList y])
            = Some (outs ++ [RUnit; RVals (xs ++ ys); RVals ys], c).
Proof.
  intros Hh Hxy Hx Hy. apply content_some in Hx, Hy.
  destruct (run_rel _ _ _ _ Hh) as ([s env] & Hrun & HR).
  destruct (rel_vars _ _ _ _ _ _ _ _ HR Hxy Hx Hy)
    as (o & o' & g & g' & Ho & Ho' & Hne & Hr & Hv & Hr' & Hv' & Hdis & _). cbn [fst snd] in *.
  rewrite model_run_app, Hrun. cbn [mbind option_bind model_run model_step snd]. rewrite Ho, Ho'.
  cbn [mbind option_bind].
  assert (exists s', extend o o' s = Ok tt s' /\ to_list o s' = Ok (xs ++ ys) s' /\ to_list o' s' = Ok ys s') as (s' & He & H1 & H2).
  { destruct (is_cll (mcls k)) eqn:Hcll.
    - destruct k; try done. cbn [mcls] in *.
      pose proof (cll_extend_spec s o o' g g' Hr Hr' Hne Hdis) as Hw.
      apply wp_elim in Hw as ([] & s' & Hm & gd' & Hrn & Hvn & Hmod & Hgr & _).
      exists s'. split_and!; [done| |].
      + rewrite (to_list_ok Hrn), map_app. by rewrite Hv, Hvn, Hv'.
      + rewrite <- Hv'. apply (@to_list_ok CCLL). eapply rep_frame; [exact Hr'|exact Hmod| |].
        * by intros ->%elem_of_list_singleton.
        * intros l Hl Hl'. by eapply Hdis.
    - pose proof (extend_spec (mcls k) s o o' g g' Hcll Hr Hr' Hne Hdis) as Hw.
      apply wp_elim in Hw as ([] & s' & Hm & Hrn & Hmod). exists s'. split_and!; [done| |].
      + rewrite (to_list_ok Hrn), map_app. by rewrite Hv, Hv'.
      + destruct (obj_eq Hr') as (ob & Hob & _ & Hlen & Hhd & _).
        unfold to_list. assert (s_objs s' !! o' = Some ob) as Hob'.
        { rewrite <- Hob. eapply mod_objs; [exact Hmod|by eapply lookup_lt_Some|].
          by intros ->%elem_of_list_singleton. }
        erewrite bind_ok by (by apply get_obj_ok). rewrite Hlen, <- Hv'.
        pose proof (rep_seg _ _ _ _ Hrn) as Hs. rewrite endp_noncll in Hs by done.
        apply lseg_app in Hs as [_ Hs].
        eapply iter_from_ok; [exact Hs|done|]. intros Hg. rewrite Hhd by done. by destruct g'. }
  rewrite (call_at _ _ _ obs_unit _ _ He). cbn [mbind option_bind obs_unit fst snd]. rewrite app_nil_r, Ho.
  cbn [mbind option_bind]. rewrite (call_at _ _ _ (fun vs => (RVals vs, [])) _ _ H1). cbn [mbind option_bind fst snd].
  rewrite app_nil_r, Ho'. cbn [mbind option_bind].
  rewrite (call_at _ _ _ (fun vs => (RVals vs, [])) _ _ H2). eexists. done.
Qed.

(** The receiver is an ordinary list afterwards. *)
Theorem extend_receiver k h outs w x y xs ys :
  spec_run k [] h = Some (outs, w) -> x <> y -> w !! x = Some (Some xs) -> w !! y = Some (Some ys) ->
  exists w', spec_run k [] (h ++ [LExtend x y]) = Some (outs ++ [RUnit], w')
    /\ w' !! x = Some (Some (xs ++ ys))
    /\ (k = Circular -> w' !! y = Some (Some ys)).
Proof.
  intros Hh Hxy Hx Hy. pose proof (lookup_lt_Some _ _ _ Hx) as Hltx.
  pose proof (proj2 (content_some _ _ _) Hx) as Hx'. pose proof (proj2 (content_some _ _ _) Hy) as Hy'.
  rewrite spec_run_app, Hh. cbn [mbind option_bind spec_run spec_step]. rewrite Hx', Hy'.
  cbn [mbind option_bind]. rewrite (bool_decide_eq_false_2 (x = y)) by done. cbn [andb].
  assert (store w x (xs ++ ys) !! x = Some (Some (xs ++ ys))) as Hst.
  { unfold store. by apply list_lookup_insert. }
  destruct k.
  - case_bool_decide as H0; cbn [mbind option_bind].
    + subst ys. eexists. split; [done|]. by rewrite app_nil_r.
    + eexists. split; [done|]. split; [|done]. by rewrite list_lookup_insert_ne.
  - case_bool_decide as H0; cbn [mbind option_bind].
    + subst ys. eexists. split; [done|]. by rewrite app_nil_r.
    + eexists. split; [done|]. split; [|done]. by rewrite list_lookup_insert_ne.
  - eexists. split; [done|]. split; [done|]. intros _. unfold store. by rewrite list_lookup_insert_ne.
Qed.

(** ** X(other) *)
Lemma rel_var_rep k s env w x vs : Rel [] k (s, env) w -> w !! x = Some (Some vs) ->
  exists o g, env !! x = Some o /\ rep k s o g /\ vals g = vs.
Proof.
  intros HR Hx. apply content_some in Hx. destruct (rel_var _ _ _ _ _ _ HR Hx) as (o & g & Ho & Hr & Hv & _).
  eauto.
Qed.

Lemma map_norm_stored vs : Forall stored vs -> map norm_item vs = vs.
Proof. induction 1 as [|v vs [_ Hv] _ IH]; [done|]. cbn. by rewrite Hv, IH. Qed.

Lemma construct_from_created k k' s o g : rep k s o g -> is_instance k k' = false ->
  wp (construct_from k' o) (fun o' s' => created k' s o' (vals g) s') s.
Proof.
  intros Hr Hi. destruct (obj_eq Hr) as (ob & Hob & Hk & _). unfold construct_from.
  apply wp_bind. eapply wp_get_obj; [exact Hob|]. rewrite Hk, Hi.
  apply wp_bind. eapply wp_intro; [exact (to_list_ok Hr)|].
  pose proof (rep_stored_list _ _ _ _ Hr) as Hst.
  eapply wp_mono; [apply construct_spec|].
  - eapply Forall_impl; [exact Hst|]. by intros ? [? _].
  - intros o' s'. by rewrite (map_norm_stored _ Hst).
Qed.

(** The live variables of a program, as a frame. *)
Fixpoint live_frame (k : lcls) (G : nat -> list gn) (x : nat) (env : list nat) (w : world) : framed :=
  match env, w with
  | o :: env', Some _ :: w' => (k, o, G x) :: live_frame k G (S x) env' w'
  | _ :: env', None :: w' => live_frame k G (S x) env' w'
  | _, _ => []
  end.
Lemma live_frame_in k G k' o g : forall env w x, (k', o, g) ∈ live_frame k G x env w <->
  exists i vs, k' = k /\ g = G (x + i) /\ env !! i = Some o /\ w !! i = Some (Some vs).
Proof.
  induction env as [|e env IH]; intros w x.
  { cbn. split; [intros H; by apply elem_of_nil in H|]. intros (i & vs & _ & _ & H & _). by rewrite lookup_nil in H. }
  destruct w as [|[v|] w].
  { cbn. split; [intros H; by apply elem_of_nil in H|]. intros (i & vs & _ & _ & _ & H). by rewrite lookup_nil in H. }
  - cbn [live_frame]. rewrite elem_of_cons, IH. split.
    + intros [[= -> -> ->]|(i & vs & -> & -> & Ho & Hw)].
      * exists 0, v. by rewrite Nat.add_0_r.
      * exists (S i), vs. split_and!; [done|f_equal; lia|done|done].
    + intros ([|i] & vs & -> & -> & Ho & Hw).
      * left. injection Ho as ->. by rewrite Nat.add_0_r.
      * right. exists i, vs. split_and!; [done|f_equal; lia|done|done].
  - cbn [live_frame]. rewrite IH. split.
    + intros (i & vs & -> & -> & Ho & Hw). exists (S i), vs. split_and!; [done|f_equal; lia|done|done].
    + intros ([|i] & vs & -> & -> & Ho & Hw); [done|]. exists i, vs. split_and!; [done|f_equal; lia|done|done].
Qed.

Theorem from_independent k k' h outs w x vs :
  is_instance (mcls k) (mcls k') = false ->
  spec_run k [] h = Some (outs, w) -> w !! x = Some (Some vs) ->
  exists s env o n s', model_run k conf0 h = Some (outs, (s, env)) /\ env !! x = Some o
   /\ construct_from (mcls k') o s = Ok n s' /\ to_list n s' = Ok vs s'
   (* the new list is not affected by what happens to the old ones *)
   /\ (forall more outs' w', spec_run k w more = Some (outs', w') ->
         exists s2 env2, model_run k (s', env) more = Some (outs', (s2, env2)) /\ to_list n s2 = Ok vs s2)
   (* the new list is an ordinary k' list and the old ones are not affected by it *)
   /\ (forall more outs' w', spec_run k' [Some vs] more = Some (outs', w') ->
         exists s2 env2, model_run k' (s', [n]) more = Some (outs', (s2, env2))
           /\ forall y oy ys, env !! y = Some oy -> w !! y = Some (Some ys) -> to_list oy s2 = Ok ys s2).
Proof.
  intros Hi Hh Hx. destruct (run_rel _ _ _ _ Hh) as ([s env] & Hrun & HR).
  destruct (rel_var_rep _ _ _ _ _ _ HR Hx) as (o & g & Ho & Hr & Hv).
  destruct (wp_elim _ _ _ (construct_from_created _ (mcls k') _ _ _ Hr Hi)) as (n & s' & Hc & g' & Hr' & Hv' & Hn & Hfr & Hm).
  exists s, env, o, n, s'. split_and!; [done|done|done| | |].
  - rewrite (to_list_ok Hr'). by rewrite Hv', Hv.
  - intros more outs' w' Hs.
    assert (Rel [(mcls k', n, g')] (mcls k) (s', env) w) as HRF.
    { destruct HR as [Hlen Hnd Hb _ (G & HG & HD)]. cbn [fst snd] in *. split; cbn [fst snd]; [done|done| | |].
      - intros o1 Ho1. specialize (Hb _ Ho1). pose proof (mod_olen _ _ _ _ Hm). lia.
      - intros k1 o1 g1 [= -> -> ->]%elem_of_list_singleton. split; [done|]. intros Hin. specialize (Hb _ Hin). lia.
      - exists G. split; [|done]. intros y ys Hy. destruct (HG _ _ Hy) as (oy & Hoy & Hry & Hvy & _).
        exists oy. split_and!; [done| |done|].
        + eapply rep_frame; [exact Hry|exact Hm|set_solver|set_solver].
        + intros k1 o1 g1 l [= -> -> ->]%elem_of_list_singleton Hl Hl'.
          pose proof (rep_bound _ _ _ _ _ Hry Hl'). specialize (Hfr _ Hl). lia. }
    destruct (sim_run _ _ _ _ _ _ _ HRF Hs) as ([s2 env2] & Hr2 & HR2). exists s2, env2. split; [done|].
    destruct (rel_framed _ _ _ _ HR2 (mcls k') n g') as [Hrn _]; [by apply elem_of_list_singleton|].
    cbn [fst] in Hrn. rewrite (to_list_ok Hrn). by rewrite Hv', Hv.
  - intros more outs' w' Hs. destruct HR as [Hlen Hnd Hb _ (G & HG & HD)]. cbn [fst snd] in *.
    assert (Rel (live_frame (mcls k) G 0 env w) (mcls k') (s', [n]) [Some vs]) as HRF.
    { split; cbn [fst snd].
      - done.
      - apply NoDup_singleton.
      - intros o1 ->%elem_of_list_singleton. by eapply rep_obound.
      - intros k1 o1 g1 (i & ys & -> & -> & Hoi & Hwi)%live_frame_in. cbn [Nat.add].
        destruct (HG _ _ Hwi) as (oi & Hoi' & Hri & _). rewrite Hoi in Hoi'. injection Hoi' as <-. split.
        + eapply rep_frame; [exact Hri|exact Hm|set_solver|set_solver].
        + intros ->%elem_of_list_singleton. apply elem_of_list_lookup_2 in Hoi. specialize (Hb _ Hoi). lia.
      - exists (fun _ => g'). split.
        + intros [|y] ys Hy; [|done]. injection Hy as <-. exists n. split_and!; [done|done|by rewrite Hv', Hv|].
          intros k1 o1 g1 l (i & ys & -> & -> & Hoi & Hwi)%live_frame_in Hl Hl'. cbn [Nat.add] in Hl.
          destruct (HG _ _ Hwi) as (oi & _ & Hri & _). pose proof (rep_bound _ _ _ _ _ Hri Hl).
          specialize (Hfr _ Hl'). lia.
        + intros [|y] [|z] ? ? ? Hne Hy Hz; try done. }
    destruct (sim_run _ _ _ _ _ _ _ HRF Hs) as ([s2 env2] & Hr2 & HR2). exists s2, env2. split; [done|].
    intros y oy ys Hoy Hy. destruct (HG _ _ Hy) as (oy' & Hoy' & Hry & Hvy & _). rewrite Hoy in Hoy'. injection Hoy' as <-.
    destruct (rel_framed _ _ _ _ HR2 (mcls k) oy (G y)) as [Hrn _].
    { apply live_frame_in. by exists y, ys. }
    cbn [fst] in Hrn. rewrite (to_list_ok Hrn). by rewrite Hvy.
Qed.

(** Immediately after the construction the elements agree, whatever the classes. *)
Theorem from_same_elements k k' h outs w x vs :
  spec_run k [] h = Some (outs, w) -> w !! x = Some (Some vs) ->
  exists s env o n s', model_run k conf0 h = Some (outs, (s, env)) /\ env !! x = Some o
   /\ construct_from (mcls k') o s = Ok n s' /\ to_list n s' = Ok vs s' /\ to_list o s' = Ok vs s'.
Proof.
  intros Hh Hx. destruct (run_rel _ _ _ _ Hh) as ([s env] & Hrun & HR).
  destruct (rel_var_rep _ _ _ _ _ _ HR Hx) as (o & g & Ho & Hr & Hv).
  destruct (is_instance (mcls k) (mcls k')) eqn:Hi.
  - destruct (obj_eq Hr) as (ob & Hob & Hk & Hlen & Hhd & _).
    assert (construct_from (mcls k') o s = alloc_obj (LObj (mcls k') (o_head ob)
       (if is_dll (mcls k') then o_tail ob else None) (o_len ob)) s) as Hc.
    { unfold construct_from. erewrite bind_ok by (by apply get_obj_ok). by rewrite Hk, Hi. }
    eexists s, env, o, _, _. split_and!; [done|done|rewrite Hc; reflexivity| |].
    + unfold to_list. erewrite bind_ok.
      2: { apply get_obj_ok. cbn. rewrite lookup_app_r by lia. by rewrite Nat.sub_diag. }
      cbn [o_len o_head]. rewrite Hlen, <- Hv. eapply iter_from_ok; [exact (rep_seg _ _ _ _ Hr)|done|].
      intros Hne. rewrite Hhd by done. by rewrite endp_hd.
    + unfold to_list. erewrite bind_ok.
      2: { apply get_obj_ok. cbn. by apply lookup_app_l_Some. }
      rewrite Hlen, <- Hv. eapply iter_from_ok; [exact (rep_seg _ _ _ _ Hr)|done|].
      intros Hne. rewrite Hhd by done. by rewrite endp_hd.
  - destruct (wp_elim _ _ _ (construct_from_created _ (mcls k') _ _ _ Hr Hi)) as (n & s' & Hc & g' & Hr' & Hv' & Hn & Hfr & Hm).
    exists s, env, o, n, s'. split_and!; [done|done|done| |].
    + rewrite (to_list_ok Hr'). by rewrite Hv', Hv.
    + rewrite <- Hv. apply (@to_list_ok (mcls k)). eapply rep_frame; [exact Hr|exact Hm|set_solver|set_solver].
Qed.

(** ** Equality and order *)
Theorem equality_exact k h outs w x y xs ys :
  spec_run k [] h = Some (outs, w) -> w !! x = Some (Some xs) -> w !! y = Some (Some ys) ->
  exists c b, model_run k conf0 (h ++ [LEq x y; LNe x y]) = Some (outs ++ [RBool b; RBool (negb b)], c)
    /\ (b = true <-> xs = ys).
Proof.
  intros Hh Hx Hy. apply content_some in Hx, Hy.
  destruct (run_refines k (h ++ [LEq x y; LNe x y]) (outs ++ [RBool (bool_decide (xs = ys)); RBool (negb (bool_decide (xs = ys)))]) w) as [c Hc].
  { rewrite spec_run_app, Hh. cbn [mbind option_bind spec_run spec_step]. rewrite Hx, Hy.
    cbn [mbind option_bind]. rewrite Hx. cbn [mbind option_bind]. rewrite Hy. done. }
  exists c, (bool_decide (xs = ys)). split; [exact Hc|]. apply bool_decide_eq_true.
Qed.

Lemma str_ltb_irrefl s : str_ltb s s = false.
Proof. induction s as [|c s IH]; [done|]. cbn. by rewrite N.ltb_irrefl. Qed.
Lemma str_ltb_tri s : forall t, str_ltb s t = false -> str_ltb t s = false -> s = t.
Proof.
  induction s as [|c s IH]; intros [|d t]; try done. cbn.
  destruct (N.ltb_spec c d); [done|]. destruct (N.ltb_spec d c); [done|]. intros H1 H2.
  f_equal; [lia|by apply IH].
Qed.
Lemma str_ltb_asym s : forall t, str_ltb s t = true -> str_ltb t s = false.
Proof.
  induction s as [|c s IH]; intros [|d t]; try done. cbn.
  destruct (N.ltb_spec c d); destruct (N.ltb_spec d c); try done; [lia|]. apply IH.
Qed.
Lemma py_lt_none x y : py_lt x y = None <-> py_lt y x = None.
Proof. by destruct x, y. Qed.
Lemma py_lt_irrefl x y : py_lt x y <> None -> x = y -> py_lt x y = Some false.
Proof.
  intros H ->. destruct y as [|[]| | | |]; cbn in *; try done; [by rewrite Z.ltb_irrefl|by rewrite str_ltb_irrefl].
Qed.
Lemma py_lt_tri x y : py_lt x y = Some false -> py_lt y x = Some false -> x = y.
Proof.
  destruct x as [|[]| | | |], y as [|[]| | | |]; cbn; try done.
  - intros [= H1] [= H2]. apply Z.ltb_ge in H1, H2. do 2 f_equal. lia.
  - intros [= H1] [= H2]. f_equal. by apply str_ltb_tri.
Qed.
Lemma py_lt_asym x y : py_lt x y = Some true -> py_lt y x = Some false.
Proof.
  destruct x as [|[]| | | |], y as [|[]| | | |]; cbn; try done.
  - intros [= H1%Z.ltb_lt]. f_equal. apply Z.ltb_ge. lia.
  - intros [= H1]. f_equal. by apply str_ltb_asym.
Qed.

(** What the comparison loop computes. *)
Definition pairs_ok (P : pyval -> pyval -> Prop) (a b : list pyval) : Prop :=
  forall i x y, a !! i = Some x -> b !! i = Some y -> P x y.
Lemma pairs_nil_l P b : pairs_ok P [] b.
Proof. intros i x y H. by rewrite lookup_nil in H. Qed.
Lemma pairs_nil_r P a : pairs_ok P a [].
Proof. intros i x y _ H. by rewrite lookup_nil in H. Qed.
Lemma pairs_cons P x a y b : pairs_ok P (x :: a) (y :: b) <-> P x y /\ pairs_ok P a b.
Proof.
  split.
  - intros H. split; [by apply (H 0)|]. intros i u v Hu Hv. by apply (H (S i)).
  - intros [H0 H] [|i] u v Hu Hv; [by injection Hu as <-; injection Hv as <-|]. by apply (H i).
Qed.

Lemma cmp_pure_ok op a : forall b c ae, Forall stored a ->
  pairs_ok (fun x y => py_op op x y <> None) a b ->
  exists n e, cmp_pure op c ae a b = Some (c + n, e) /\ n <= Nat.min (length a) (length b)
    /\ (n = Nat.min (length a) (length b) <-> pairs_ok (fun x y => x = y \/ py_op op x y = Some true) a b)
    /\ (e = true <-> ae = true /\ pairs_ok eq a b).
Proof.
  induction a as [|x a IH]; intros b c ae Hst Hc.
  { exists 0, ae. cbn. rewrite Nat.add_0_r. split_and!; [done|lia| |].
    - split; [intros _; apply pairs_nil_l|done].
    - split; [intros ->; split; [done|apply pairs_nil_l]|by intros [-> _]]. }
  destruct b as [|y b].
  { exists 0, ae. cbn. rewrite Nat.add_0_r. split_and!; [done|lia| |].
    - split; [intros _; apply pairs_nil_r|done].
    - split; [intros ->; split; [done|apply pairs_nil_r]|by intros [-> _]]. }
  apply Forall_cons in Hst as [Hx Hst]. apply pairs_cons in Hc as [Hxy Hc].
  cbn [cmp_pure length Nat.min]. rewrite py_eq_dec_stored by done. case_bool_decide as He.
  - destruct (IH b (S c) ae Hst Hc) as (n & e & -> & Hle & H1 & H2).
    exists (S n), e. rewrite !pairs_cons, <- H1. split_and!; [do 2 f_equal; lia|lia| |].
    + split; [intros [= ->]; auto|]. intros [_ ->]. done.
    + rewrite H2. tauto.
  - destruct (py_op op x y) as [[]|] eqn:Ho; [| |done].
    + destruct (IH b (S c) false Hst Hc) as (n & e & -> & Hle & H1 & H2).
      exists (S n), e. rewrite !pairs_cons, <- H1. split_and!; [do 2 f_equal; lia|lia| |].
      * split; [intros [= ->]; auto|]. intros [_ ->]. done.
      * rewrite H2. split; [by intros [? _]|]. by intros (_ & ? & _).
    + exists 0, false. rewrite !pairs_cons, Nat.add_0_r. split_and!; [done|lia| |].
      * split; [done|]. intros [[|] _]; [done|congruence].
      * split; [done|]. by intros (_ & ? & _).
Qed.

Lemma pairs_eq_prefix a b : length a <= length b -> pairs_ok eq a b -> exists r, b = a ++ r.
Proof.
  revert b. induction a as [|x a IH]; intros [|y b] Hl Hp; cbn in *; try lia; [by exists []|by eexists|].
  apply pairs_cons in Hp as [<- Hp]. destruct (IH b) as [r ->]; [lia|done|]. by exists r.
Qed.
Lemma pairs_eq_same a b : length a = length b -> pairs_ok eq a b -> a = b.
Proof.
  intros Hl Hp. destruct (pairs_eq_prefix a b ltac:(lia) Hp) as [r ->].
  rewrite app_length in Hl. destruct r; [by rewrite app_nil_r|cbn in Hl; lia].
Qed.
Lemma pairs_refl a : pairs_ok eq a a.
Proof. intros i x y Hx Hy. congruence. Qed.
Lemma pairs_app_eq a r : pairs_ok eq a (a ++ r).
Proof. intros i x y Hx Hy. erewrite lookup_app_l_Some in Hy by done. congruence. Qed.
Lemma pairs_sym a b : pairs_ok eq a b -> pairs_ok eq b a.
Proof. intros H i x y Hx Hy. symmetry. by eapply H. Qed.

Lemma cmp_ops_ok k s o o' g1 g2 : rep k s o g1 -> rep k s o' g2 -> comparable (vals g1) (vals g2) ->
  let a := vals g1 in let b := vals g2 in
  exists lt le gt ge,
    list_lt o o' s = Ok lt s /\ (lt = true <-> below a b /\ a <> b)
    /\ list_le o o' s = Ok le s /\ (le = true <-> below a b)
    /\ list_ge o o' s = Ok ge s /\ (ge = true <-> below b a)
    /\ list_gt o o' s = Ok gt s /\ (gt = true <->
         (exists r, r <> [] /\ a = b ++ r)
         \/ (length a <= length b /\ (forall i x y, a !! i = Some x -> b !! i = Some y -> py_lt x y = Some false)
             /\ ~ exists r, b = a ++ r)).
Proof.
  intros Hr1 Hr2 Hc a b.
  destruct (obj_eq Hr1) as (ob & Hob & Hkb & Hlen & _). destruct (obj_eq Hr2) as (oc & Hoc & Hkc & Hlen2 & _).
  assert (Forall stored a) as Hst by (by eapply rep_stored_list).
  assert (length g1 = length a) as Hla by (unfold a; by rewrite map_length).
  assert (length g2 = length b) as Hlb by (unfold b; by rewrite map_length).
  assert (forall op, pairs_ok (fun x y => py_op op x y <> None) a b) as Hop.
  { intros op i x y Hx Hy. specialize (Hc i x y Hx Hy). pose proof (py_lt_none x y) as Hn.
    destruct op; cbn; try done; destruct (py_lt x y), (py_lt y x); try done; exfalso; naive_solver. }
  assert (forall op, exists n e, compare op o o' s = Ok (n, e) s /\ n <= Nat.min (length a) (length b)
    /\ (n = Nat.min (length a) (length b) <-> pairs_ok (fun x y => x = y \/ py_op op x y = Some true) a b)
    /\ (e = true <-> pairs_ok eq a b)) as Hcmp.
  { intros op. destruct (cmp_pure_ok op a b 0 true Hst (Hop op)) as (n & e & Hn & Hle & H1 & H2).
    exists n, e. split_and!; [|done|done|naive_solver]. rewrite (compare_ok op _ _ _ _ _ _ Hr1 Hr2).
    fold a b. by rewrite Hn. }
  assert (forall P Q, (forall x y, py_lt x y <> None -> P x y <-> Q x y) -> pairs_ok P a b <-> pairs_ok Q a b) as Hequiv.
  { intros P Q HPQ. split; intros H i x y Hx Hy; specialize (H i x y Hx Hy); specialize (Hc i x y Hx Hy); by apply HPQ. }
  assert (pairs_ok (fun x y => x = y \/ py_op OpLt x y = Some true) a b <-> pairs_ok (fun x y => py_lt y x = Some false) a b) as HLt.
  { apply Hequiv. intros x y Hn. cbn. split.
    - intros [->|H]; [by apply py_lt_irrefl|by apply py_lt_asym].
    - intros H. destruct (py_lt x y) as [[]|] eqn:E; [by right|left; by apply py_lt_tri|done]. }
  assert (pairs_ok (fun x y => x = y \/ py_op OpLe x y = Some true) a b <-> pairs_ok (fun x y => py_lt y x = Some false) a b) as HLe.
  { apply Hequiv. intros x y Hn. cbn. split.
    - intros [->|H]; [by apply py_lt_irrefl|]. by destruct (py_lt y x) as [[]|].
    - intros ->. by right. }
  assert (pairs_ok (fun x y => x = y \/ py_op OpGt x y = Some true) a b <-> pairs_ok (fun x y => py_lt x y = Some false) a b) as HGt.
  { apply Hequiv. intros x y Hn. cbn. split.
    - intros [->|H]; [by apply py_lt_irrefl|by apply py_lt_asym].
    - intros H. destruct (py_lt y x) as [[]|] eqn:E; [by right|left; by apply py_lt_tri|].
      exfalso. by apply Hn, py_lt_none. }
  assert (pairs_ok (fun x y => x = y \/ py_op OpGe x y = Some true) a b <-> pairs_ok (fun x y => py_lt x y = Some false) a b) as HGe.
  { apply Hequiv. intros x y Hn. cbn. split.
    - intros [->|H]; [by apply py_lt_irrefl|]. by destruct (py_lt x y) as [[]|].
    - intros ->. by right. }
  destruct (Hcmp OpLt) as (n1 & e1 & E1 & L1 & F1 & G1). destruct (Hcmp OpLe) as (n2 & e2 & E2 & L2 & F2 & G2).
  destruct (Hcmp OpGt) as (n3 & e3 & E3 & L3 & F3 & G3). destruct (Hcmp OpGe) as (n4 & e4 & E4 & L4 & F4 & G4).
  rewrite HLt in F1. rewrite HLe in F2. rewrite HGt in F3. rewrite HGe in F4.
  pose proof (check_cmp_ok _ _ _ _ _ _ Hr1 Hr2) as Hchk.
  exists (if e1 then Nat.ltb (length a) (length b) else Nat.eqb n1 (length a)), (Nat.eqb n2 (length a)),
    (if e3 then Nat.ltb (length b) (length a) else Nat.eqb n3 (length a)), (Nat.eqb n4 (length b)).
  assert (below a b <-> length a <= length b /\ pairs_ok (fun x y => py_lt y x = Some false) a b) as Hbel by done.
  split_and!.
  - unfold list_lt. erewrite bind_ok by exact Hchk. erewrite bind_ok by (by apply get_obj_ok).
    erewrite bind_ok by (by apply get_obj_ok). erewrite bind_ok by exact E1. cbn [fst snd]. rewrite Hlen, Hlen2, Hla, Hlb. done.
  - rewrite Hbel, <- F1. destruct e1.
    + rewrite Nat.ltb_lt. destruct G1 as [G1 _]. specialize (G1 eq_refl).
      assert (n1 = Nat.min (length a) (length b)) as Hn1.
      { apply F1. apply HLt. intros i x y Hx Hy. left. by eapply G1. }
      split.
      * intros Hlt. split; [split; [lia|done]|]. intros He. rewrite He in Hlt. lia.
      * intros [[Hle _] Hne]. destruct (decide (length a = length b)) as [Heq|]; [|lia].
        exfalso. by apply Hne, pairs_eq_same.
    + rewrite Nat.eqb_eq. split.
      * intros ->. split; [split; [lia|lia]|]. intros He. destruct G1 as [_ G1].
        assert (false = true) by (apply G1; rewrite <- He; apply pairs_refl). done.
      * intros [[Hle ->] _]. lia.
  - unfold list_le. erewrite bind_ok by exact Hchk. erewrite bind_ok by (by apply get_obj_ok).
    erewrite bind_ok by exact E2. cbn [fst snd]. rewrite Hlen, Hla. done.
  - rewrite Hbel, <- F2, Nat.eqb_eq. lia.
  - unfold list_ge. erewrite bind_ok by exact Hchk. erewrite bind_ok by (by apply get_obj_ok).
    erewrite bind_ok by exact E4. cbn [fst snd]. rewrite Hlen2, Hlb. done.
  - assert (below b a <-> length b <= length a /\ pairs_ok (fun x y => py_lt x y = Some false) a b) as Hbel'.
    { unfold below, pairs_ok. naive_solver. }
    rewrite Hbel', <- F4, Nat.eqb_eq. lia.
  - unfold list_gt. erewrite bind_ok by exact Hchk. erewrite bind_ok by (by apply get_obj_ok).
    erewrite bind_ok by (by apply get_obj_ok). erewrite bind_ok by exact E3. cbn [fst snd]. rewrite Hlen, Hlen2, Hla, Hlb. done.
  - change (forall i x y, a !! i = Some x -> b !! i = Some y -> py_lt x y = Some false)
      with (pairs_ok (fun x y => py_lt x y = Some false) a b). rewrite <- F3. destruct e3.
    + rewrite Nat.ltb_lt. destruct G3 as [G3 _]. specialize (G3 eq_refl). split.
      * intros Hlt. left. destruct (pairs_eq_prefix b a) as [r Hr]; [lia|by apply pairs_sym|].
        exists r. split; [|done]. intros ->. rewrite app_nil_r in Hr. rewrite Hr in Hlt. lia.
      * intros [(r & Hne & ->)|(Hle & _ & Hnp)].
        -- rewrite app_length. destruct r; [done|cbn; lia].
        -- exfalso. apply Hnp. by apply pairs_eq_prefix.
    + rewrite Nat.eqb_eq. destruct G3 as [_ G3].
      assert (~ pairs_ok eq a b) as Hnp by (intros H; by specialize (G3 H)).
      split.
      * intros ->. right. split_and!; [lia|lia|]. intros [r ->]. apply Hnp, pairs_app_eq.
      * intros [(r & Hne & ->)|(Hle & -> & _)]; [|lia]. exfalso. apply Hnp, pairs_sym, pairs_app_eq.
Qed.

Theorem order_exact k h outs w x y xs ys :
  spec_run k [] h = Some (outs, w) -> w !! x = Some (Some xs) -> w !! y = Some (Some ys) ->
  comparable xs ys ->
  exists s env o o' lt le gt ge, model_run k conf0 h = Some (outs, (s, env))
    /\ env !! x = Some o /\ env !! y = Some o'
    /\ list_lt o o' s = Ok lt s /\ (lt = true <-> below xs ys /\ xs <> ys)
    /\ list_le o o' s = Ok le s /\ (le = true <-> below xs ys)
    /\ list_ge o o' s = Ok ge s /\ (ge = true <-> below ys xs)
    /\ list_gt o o' s = Ok gt s /\ (gt = true <->
         (exists r, r <> [] /\ xs = ys ++ r)
         \/ (length xs <= length ys /\ (forall i u v, xs !! i = Some u -> ys !! i = Some v -> py_lt u v = Some false)
             /\ ~ exists r, ys = xs ++ r)).
Proof.
  intros Hh Hx Hy Hc. destruct (run_rel _ _ _ _ Hh) as ([s env] & Hrun & HR).
  destruct (rel_var_rep _ _ _ _ _ _ HR Hx) as (o & g & Ho & Hr & <-).
  destruct (rel_var_rep _ _ _ _ _ _ HR Hy) as (o' & g' & Ho' & Hr' & <-).
  destruct (cmp_ops_ok _ _ _ _ _ _ Hr Hr' Hc) as (lt & le & gt & ge & H).
  by exists s, env, o, o', lt, le, gt, ge.
Qed.

Lemma below_antisym a b : below a b -> below b a -> a = b.
Proof.
  intros [H1 H2] [H3 H4]. apply pairs_eq_same; [lia|]. intros i x y Hx Hy.
  apply py_lt_tri; [by eapply H4|by eapply H2].
Qed.
Lemma comparable_sym a b : comparable a b -> comparable b a.
Proof. intros H i x y Hx Hy Hn. apply (H i y x Hy Hx). by apply py_lt_none. Qed.

(** The relations a client sees between [x] and [y]. *)
Theorem order_consistent k h outs w x y xs ys :
  spec_run k [] h = Some (outs, w) -> w !! x = Some (Some xs) -> w !! y = Some (Some ys) ->
  comparable xs ys ->
  exists s env o o', model_run k conf0 h = Some (outs, (s, env)) /\ env !! x = Some o /\ env !! y = Some o'
    /\ list_le o o' s = list_ge o' o s
    /\ (list_lt o o' s = Ok true s -> list_le o' o s = Ok false s /\ list_le o o' s = Ok true s)
    /\ (length xs = length ys -> list_lt o o' s = list_gt o' o s)
    /\ (list_le o o' s = Ok true s -> list_le o' o s = Ok true s -> xs = ys).
Proof.
  intros Hh Hx Hy Hc. destruct (run_rel _ _ _ _ Hh) as ([s env] & Hrun & HR).
  destruct (rel_var_rep _ _ _ _ _ _ HR Hx) as (o & g & Ho & Hr & <-).
  destruct (rel_var_rep _ _ _ _ _ _ HR Hy) as (o' & g' & Ho' & Hr' & <-).
  destruct (cmp_ops_ok _ _ _ _ _ _ Hr Hr' Hc) as (lt & le & gt & ge & Hlt & Elt & Hle & Ele & Hge & Ege & Hgt & Egt).
  destruct (cmp_ops_ok _ _ _ _ _ _ Hr' Hr (comparable_sym _ _ Hc)) as (lt' & le' & gt' & ge' & Hlt' & Elt' & Hle' & Ele' & Hge' & Ege' & Hgt' & Egt').
  exists s, env, o, o'. rewrite Hlt, Hle, Hle', Hge', Hgt'. split_and!; try done.
  - f_equal. apply Bool.eq_true_iff_eq. by rewrite Ele, Ege'.
  - intros [= ->]. apply proj1 in Elt. destruct (Elt eq_refl) as [Hb Hne]. split.
    + destruct le'; [|done]. exfalso. apply Hne. apply below_antisym; [done|]. by apply Ele'.
    + f_equal. by apply Ele.
  - intros Hl. f_equal. apply Bool.eq_true_iff_eq. rewrite Elt, Egt'. split.
    + intros [[_ Hb] Hne]. right. split_and!; [lia| |].
      * intros i u v Hu Hv. by eapply (Hb i).
      * intros [r Hr0]. apply Hne. rewrite Hr0 in Hl |- *. rewrite app_length in Hl.
        destruct r; [by rewrite app_nil_r|cbn in Hl; lia].
    + intros [(r & Hne & Hr0)|(_ & Hb & Hnp)].
      * exfalso. rewrite Hr0, app_length in Hl. destruct r; [done|cbn in Hl; lia].
      * split; [split; [lia|]|].
        -- intros i u v Hu Hv. by eapply (Hb i).
        -- intros He. apply Hnp. exists []. by rewrite app_nil_r.
  - intros [= ->] [= ->]. apply below_antisym; [by apply Ele|by apply Ele'].
Qed.

(** ** Termination *)
Lemma circular_next h : forall g pv q l, lseg h false pv g q -> l ∈ locs g ->
  (forall x, q = Some x -> x ∈ locs g) -> q <> None ->
  exists c x, h !! l = Some c /\ c_next c = Some x /\ x ∈ locs g.
Proof.
  intros g pv q l Hs Hl Hq Hqn. apply elem_of_list_fmap in Hl as (n & -> & Hin).
  apply elem_of_list_split in Hin as (g1 & g2 & ->). apply lseg_app in Hs as [_ [(c & Hc & _ & _ & _ & _ & Hnx & _) _]].
  exists c. destruct g2 as [|m g2]; cbn [hd_loc] in Hnx.
  - destruct q as [x|]; [|done]. exists x. split_and!; [done|done|by apply Hq].
  - exists (g_loc m). split_and!; [done|done|]. rewrite map_app. cbn. set_solver.
Qed.

Lemma self_extend_loop o : forall fuel s g counter curr prev,
  rep CCLL s o g -> counter < length g -> curr ∈ locs g -> prev = last_loc None g ->
  cll_extend_loop fuel o o counter (Some curr) prev s = Diverge.
Proof.
  induction fuel as [|fuel IH]; intros s g counter curr prev Hr Hc Hin Hp.
  - destruct (obj_eq Hr) as (ob & Hob & _ & Hlen & _). cbn [cll_extend_loop].
    erewrite bind_ok by (by apply get_obj_ok). rewrite Hlen. by rewrite (proj2 (Nat.ltb_lt _ _)).
  - destruct (obj_eq Hr) as (ob & Hob & Hk & Hlen & _). cbn [cll_extend_loop].
    erewrite bind_ok by (by apply get_obj_ok). rewrite Hlen. rewrite (proj2 (Nat.ltb_lt _ _)) by done.
    cbn [deref]. erewrite bind_ok by done.
    apply elem_of_list_fmap in Hin as (n & -> & Hin).
    assert (exists c, s_nodes s !! g_loc n = Some c /\ c_data c = g_val n) as (c & Hcn & Hdat).
    { pose proof (rep_seg _ _ _ _ Hr) as Hs. apply elem_of_list_split in Hin as (g1 & g2 & ->).
      apply lseg_app in Hs as [_ [(c & Hcc & _ & Hd & _) _]]. by exists c. }
    assert (get_data (g_loc n) s = Ok (g_val n) s) as Hgd.
    { unfold get_data, bind. rewrite (get_cell_ok _ _ _ Hcn). by rewrite <- Hdat. }
    erewrite bind_ok by exact Hgd. erewrite bind_ok by (by apply get_obj_ok). rewrite Hk. cbn [is_dll].
    assert (stored (g_val n)) as Hst.
    { pose proof (rep_stored _ _ _ _ Hr) as Hall. rewrite Forall_forall in Hall. by apply Hall. }
    pose proof (append_node_spec s o g prev (g_val n) Hr Hst (or_intror Hp)) as Hw.
    apply wp_bind_inv in Hw. apply wp_elim in Hw as (nw & s0 & Hnw & Hw).
    apply wp_bind_inv in Hw. apply wp_elim in Hw as (r & s1 & Hins & Hw).
    cbn in Hw. destruct Hw as (x & -> & Hxv & Hr1 & Hm & Hxl & Hol).
    erewrite bind_ok by exact Hnw. erewrite bind_ok by exact Hins.
    destruct (circular_next (s_nodes s1) (g ++ [x]) None (endp CCLL (g ++ [x])) (g_loc n)) as (c1 & y & Hc1 & Hnx & Hy).
    { exact (rep_seg _ _ _ _ Hr1). }
    { rewrite map_app. apply elem_of_app. left. apply elem_of_list_fmap. by exists n. }
    { unfold endp. cbn [is_cll]. intros z Hz. destruct g as [|m g]; [by apply elem_of_nil in Hin|].
      injection Hz as <-. cbn. set_solver. }
    { unfold endp. cbn [is_cll]. by destruct g. }
    assert (get_next (g_loc n) s1 = Ok (Some y) s1) as Hgn.
    { unfold get_next, bind. rewrite (get_cell_ok _ _ _ Hc1). by rewrite <- Hnx. }
    erewrite bind_ok by exact Hgn. eapply (IH s1 (g ++ [x])); [done|rewrite app_length; cbn; lia|done|].
    by rewrite last_loc_snoc.
Qed.

Lemma self_extend_diverges s o g fuel : rep CCLL s o g -> g <> [] -> cll_extend fuel o o s = Diverge.
Proof.
  intros Hr Hne. destruct (obj_eq Hr) as (ob & Hob & Hk & Hlen & Hhd & _). unfold cll_extend.
  erewrite bind_ok by (by apply get_obj_ok). rewrite Hlen. destruct (Nat.eqb_spec (length g) 0) as [H0|H0]; [by destruct g|].
  erewrite bind_ok by (by apply get_obj_ok). rewrite Hlen. rewrite (proj2 (Nat.eqb_neq _ _)) by done.
  erewrite bind_ok.
  2: { rewrite Hhd by done. rewrite <- (endp_hd CCLL) by done. eapply get_node_loop_spec; [by eapply rep_seg|lia]. }
  cbn [snd]. rewrite Hhd by done.
  assert (exists l, hd_loc g None = Some l /\ l ∈ locs g) as (l & -> & Hl).
  { destruct g as [|n g]; [done|]. exists (g_loc n). cbn. set_solver. }
  eapply self_extend_loop; [exact Hr|lia|done|].
  clear Hl. destruct g as [|p g' _] using rev_ind; [done|]. rewrite app_length. cbn [length].
  replace (length g' + 1 - 1) with (length g') by lia. rewrite drop_app. cbn. by rewrite last_loc_snoc.
Qed.

Theorem circular_self_extend_loops h outs w x vs :
  spec_run Circular [] h = Some (outs, w) -> w !! x = Some (Some vs) -> vs <> [] ->
  exists s env o, model_run Circular conf0 h = Some (outs, (s, env)) /\ env !! x = Some o
    /\ (forall fuel, cll_extend fuel o o s = Diverge)
    /\ model_run Circular conf0 (h ++ [LExtend x x]) = None.
Proof.
  intros Hh Hx Hne. destruct (run_rel _ _ _ _ Hh) as ([s env] & Hrun & HR).
  destruct (rel_var_rep _ _ _ _ _ _ HR Hx) as (o & g & Ho & Hr & <-).
  assert (g <> []) as Hg by (by intros ->).
  exists s, env, o. split_and!; [done|done| |].
  { intros fuel. by eapply self_extend_diverges. }
  rewrite model_run_app, Hrun. cbn [mbind option_bind model_run model_step snd]. rewrite Ho. cbn [mbind option_bind].
  destruct (obj_eq Hr) as (ob & Hob & Hk & _). unfold call. cbn [fst]. unfold extend.
  erewrite !bind_ok by (by apply get_obj_ok). rewrite Hk. cbn [is_instance mcls]. rewrite bool_decide_eq_true_2 by done.
  by rewrite (self_extend_diverges _ _ _ _ Hr Hg).
Qed.

(** A chain whose links never leave a set of nodes not holding [v]. *)
Lemma search_cycle s v (L : list nat) :
  (forall l, l ∈ L -> exists c x, s_nodes s !! l = Some c /\ c_next c = Some x /\ x ∈ L /\ py_eq (c_data c) v = false) ->
  forall fuel l, l ∈ L -> search_loop fuel v l s = Diverge.
Proof.
  intros HL. induction fuel as [|fuel IH]; intros l Hl; [done|].
  destruct (HL l Hl) as (c & x & Hc & Hn & Hx & Hv). cbn [search_loop].
  assert (get_next l s = Ok (Some x) s) as Hgn.
  { unfold get_next, bind. rewrite (get_cell_ok _ _ _ Hc). by rewrite <- Hn. }
  assert (get_data l s = Ok (c_data c) s) as Hgd.
  { unfold get_data, bind. by rewrite (get_cell_ok _ _ _ Hc). }
  erewrite bind_ok by exact Hgn. cbv beta iota. erewrite bind_ok by exact Hgd. rewrite Hv. by apply IH.
Qed.

Theorem self_extend_search_loops k h outs w x vs v :
  k <> Circular -> spec_run k [] h = Some (outs, w) -> w !! x = Some (Some vs) -> vs <> [] ->
  is_val v = true -> v <> PNone -> v ∉ vs ->
  exists s env o obj hd, model_run k conf0 (h ++ [LExtend x x]) = Some (outs ++ [RUnit], (s, env))
    /\ env !! x = Some o /\ s_objs s !! o = Some obj /\ o_head obj = Some hd
    /\ (forall fuel, search_loop fuel v hd s = Diverge)
    /\ model_run k conf0 (h ++ [LExtend x x; LContains x v]) = None.
Proof.
  intros Hk Hh Hx Hne Hval Hvn Hv. destruct (run_rel _ _ _ _ Hh) as ([s env] & Hrun & HR).
  destruct (rel_var_rep _ _ _ _ _ _ HR Hx) as (o & g & Ho & Hr & <-).
  assert (g <> []) as Hg by (by intros ->).
  destruct (obj_eq Hr) as (ob & Hob & Hkb & Hlen & Hhd & Htl).
  assert (is_cll (mcls k) = false) as Hcll by (by destruct k).
  pose proof (rep_seg _ _ _ _ Hr) as Hs. rewrite endp_noncll in Hs by done.
  destruct g as [|p gp _] using rev_ind; [done|]. clear Hne Hg.
  destruct (lseg_last _ _ _ _ _ _ Hs) as (cp & Hcp & Hdp & _).
  set (hd := match hd_loc (gp ++ [p]) None with Some l => l | None => 0 end).
  assert (hd_loc (gp ++ [p]) None = Some hd) as Hhdl by (unfold hd; by destruct gp).
  assert (hd ∈ locs (gp ++ [p])) as Hhdin.
  { unfold hd. destruct gp; cbn; set_solver. }
  (* every cell of the chain after  last.next := head *)
  set (d := is_dll (mcls k)).
  assert (forall h1, (forall l c, s_nodes s !! l = Some c -> exists c', h1 !! l = Some c' /\ c_data c' = c_data c
      /\ (l <> g_loc p -> c_next c' = c_next c) /\ (l = g_loc p -> c_next c' = Some hd)) ->
     forall objs l, l ∈ locs (gp ++ [p]) -> exists c y, s_nodes (St h1 objs) !! l = Some c /\ c_next c = Some y
        /\ y ∈ locs (gp ++ [p]) /\ py_eq (c_data c) v = false) as Hcyc.
  { intros h1 H1 objs l Hl. cbn [s_nodes].
    assert (exists c, s_nodes s !! l = Some c /\ py_eq (c_data c) v = false /\
       (l <> g_loc p -> exists y, c_next c = Some y /\ y ∈ locs (gp ++ [p]))) as (c & Hc & Heq & Hnx).
    { apply elem_of_list_fmap in Hl as (n & -> & Hn). pose proof (rep_stored _ _ _ _ Hr) as Hst.
      rewrite Forall_forall in Hst. specialize (Hst _ Hn).
      assert (g_val n <> v) as Hnv by (intros <-; apply Hv; apply elem_of_list_fmap; by exists n).
      apply elem_of_list_split in Hn as (g1 & g2 & Hg12). pose proof Hs as Hs0. rewrite Hg12 in Hs0.
      apply lseg_app in Hs0 as [_ [(c & Hc & _ & Hd & _ & _ & Hnext & _) _]]. exists c. split_and!; [done| |].
      - rewrite Hd, py_eq_dec_stored by done. by apply bool_decide_eq_false.
      - intros Hlp. destruct g2 as [|m g2].
        + exfalso. apply Hlp. apply app_inj_tail in Hg12 as [_ ->]. done.
        + exists (g_loc m). split; [done|]. rewrite Hg12, map_app. cbn. set_solver. }
    destruct (H1 _ _ Hc) as (c' & Hc' & Hd' & Hn1 & Hn2). destruct (decide (l = g_loc p)) as [->|Hlp].
    - exists c', hd. rewrite Hd'. split_and!; [done|by apply Hn2|done|done].
    - destruct (Hnx Hlp) as (y & Hy & Hyin). exists c', y. rewrite Hd', Hn1 by done. done. }
  assert (exists h1 obj', extend o o s = Ok tt (St h1 (<[o := obj']> (s_objs s)))
     /\ o_head obj' = Some hd /\ o_cls obj' = mcls k /\ 0 < o_len obj'
     /\ (forall l c, s_nodes s !! l = Some c -> exists c', h1 !! l = Some c' /\ c_data c' = c_data c
      /\ (l <> g_loc p -> c_next c' = c_next c) /\ (l = g_loc p -> c_next c' = Some hd))) as (h1 & obj' & Hext & Hob' & Hk' & Hpos & H1).
  { assert (length (gp ++ [p]) <> 0) as Hl0 by (rewrite app_length; cbn; lia).
    assert (o_head ob = Some hd) as Hohd by (rewrite Hhd; [done|by destruct gp]).
    assert (exists chd, s_nodes s !! hd = Some chd /\ c_dbl chd = d) as (chd & Hchd & Hdhd).
    { unfold hd. destruct gp as [|n gp]; cbn [hd_loc app] in *.
      - destruct Hs as [(c & Hc & Hd & _) _]. by exists c.
      - destruct Hs as [(c & Hc & Hd & _) _]. by exists c. }
    assert (exists h1, set_next (g_loc p) (Some hd) s = Ok tt (St h1 (s_objs s))
      /\ (forall l c, s_nodes s !! l = Some c -> exists c', h1 !! l = Some c' /\ c_data c' = c_data c
      /\ (l <> g_loc p -> c_next c' = c_next c) /\ (l = g_loc p -> c_next c' = Some hd))) as (h1 & Hset & Hh1).
    { unfold set_next. erewrite bind_ok by (by apply get_cell_ok). rewrite Hdp. fold d.
      pose proof (lookup_lt_Some _ _ _ Hcp) as Hlp. pose proof (lookup_lt_Some _ _ _ Hchd) as Hlh.
      destruct d eqn:Ed.
      - erewrite bind_ok by (by apply get_cell_ok). rewrite Hdhd.
        erewrite bind_ok by reflexivity.
        assert (exists chd', <[g_loc p := upd_next cp (Some hd)]> (s_nodes s) !! hd = Some chd'
           /\ c_data chd' = c_data chd /\ (hd <> g_loc p -> c_next chd' = c_next chd)
           /\ (hd = g_loc p -> c_next chd' = Some hd)) as (chd' & Hchd' & Hx1 & Hx2 & Hx3).
        { destruct (decide (hd = g_loc p)) as [He|He].
          - rewrite He in *. rewrite Hcp in Hchd. injection Hchd as <-. eexists. split; [by apply list_lookup_insert|]. by cbn.
          - rewrite list_lookup_insert_ne by done. by exists chd. }
        erewrite bind_ok; [|apply get_cell_ok; exact Hchd']. eexists. split; [reflexivity|]. cbn [s_nodes].
        intros l c Hc. destruct (decide (l = hd)) as [->|Hlhd].
        + rewrite list_lookup_insert by (by rewrite insert_length). eexists. split; [done|]. cbn.
          rewrite Hchd in Hc. injection Hc as <-. done.
        + rewrite list_lookup_insert_ne by done. destruct (decide (l = g_loc p)) as [->|Hlp'].
          * rewrite list_lookup_insert by done. rewrite Hcp in Hc. injection Hc as <-. by eexists.
          * rewrite list_lookup_insert_ne by done. by exists c.
      - eexists. split; [reflexivity|]. intros l c Hc. destruct (decide (l = g_loc p)) as [->|Hlp'].
        + rewrite list_lookup_insert by done. rewrite Hcp in Hc. injection Hc as <-. by eexists.
        + rewrite list_lookup_insert_ne by done. by exists c. }
    unfold extend. erewrite !bind_ok by (by apply get_obj_ok). rewrite Hkb, is_instance_refl.
    destruct k; [| |done]; cbn [mcls] in *.
    - unfold ll_extend. erewrite bind_ok by (by apply get_obj_ok). rewrite Hlen.
      rewrite (proj2 (Nat.eqb_neq _ _)) by done. erewrite bind_ok by (by apply get_obj_ok).
      rewrite Hlen. rewrite (proj2 (Nat.eqb_neq _ _)) by done.
      destruct (get_node_spec _ _ _ _ (length (gp ++ [p])) Hr ltac:(lia)) as (c & Hget & _).
      erewrite bind_ok by exact Hget. cbn [fst]. rewrite firstn_all, last_loc_snoc. cbn [deref].
      erewrite bind_ok by done. rewrite Hohd. erewrite bind_ok by exact Hset.
      do 2 (erewrite bind_ok by (apply get_obj_ok; exact Hob)).
      eexists _, _. split; [reflexivity|]. cbn. split_and!; [done|done|lia|done].
    - unfold dll_extend. erewrite bind_ok by (by apply get_obj_ok). rewrite Hlen.
      rewrite (proj2 (Nat.eqb_neq _ _)) by done. erewrite bind_ok by (by apply get_obj_ok).
      rewrite Hlen. rewrite (proj2 (Nat.eqb_neq _ _)) by done.
      rewrite Htl, last_loc_snoc by (done || by destruct gp). cbn [deref]. erewrite bind_ok by done.
      rewrite Hohd. erewrite bind_ok by exact Hset.
      do 2 (erewrite bind_ok by (apply get_obj_ok; exact Hob)).
      eexists _, _. split; [reflexivity|]. cbn. split_and!; [done|done|lia|done]. }
  set (s1 := St h1 (<[o:=obj']> (s_objs s))) in *.
  assert (s_objs s1 !! o = Some obj') as Hob1.
  { cbn. apply list_lookup_insert. by eapply lookup_lt_Some. }
  assert (forall fuel, search_loop fuel v hd s1 = Diverge) as Hloop.
  { intros fuel. eapply search_cycle; [|exact Hhdin]. apply (Hcyc h1 H1). }
  assert (model_run k conf0 (h ++ [LExtend x x]) = Some (outs ++ [RUnit], (s1, env))) as Hrun1.
  { rewrite model_run_app, Hrun. cbn [mbind option_bind model_run model_step snd]. rewrite Ho. cbn [mbind option_bind].
    rewrite (call_at _ _ _ obs_unit _ _ Hext). cbn [mbind option_bind obs_unit fst snd]. by rewrite app_nil_r. }
  exists s1, env, o, obj', hd. split_and!; [done..|].
  change [LExtend x x; LContains x v] with ([LExtend x x] ++ [LContains x v]). rewrite app_assoc, model_run_app, Hrun1.
  cbn [mbind option_bind model_run model_step snd]. rewrite Ho. cbn [mbind option_bind].
  unfold call. cbn [fst]. unfold contains. erewrite bind_ok by (by apply get_obj_ok). rewrite Hk'.
  assert (ll_contains o v s1 = Diverge) as Hct.
  { unfold ll_contains. erewrite bind_ok by (by apply get_obj_ok).
    assert (Nat.eqb (o_len obj') 0 = false) as Hz by (apply Nat.eqb_neq; lia). rewrite Hz, Hob'.
    destruct v; try done; unfold py_assert; cbn [ret];
      (erewrite bind_ok by done); (erewrite bind_ok by done);
      (erewrite bind_ok by reflexivity); unfold bind; by rewrite Hloop. }
  destruct k; [| |done]; cbn [mcls]; by rewrite Hct.
Qed.

Theorem rejected_unchanged k h outs w op e w' :
  spec_run k [] h = Some (outs, w) -> spec_step k w op = Some (RExc e, w') ->
  forall x vs, w !! x = Some (Some vs) ->
  exists c, model_run k conf0 (h ++ [op; LToList x]) = Some (outs ++ [RExc e; RVals vs], c).
Proof.
  intros Hh Hop x vs Hx. assert (w' = w) as -> by (by eapply spec_exc_same). apply content_some in Hx.
  eapply run_refines. rewrite spec_run_app, Hh. cbn [mbind option_bind spec_run]. rewrite Hop.
  cbn [mbind option_bind spec_step]. by rewrite Hx.
Qed.

Theorem run_terminates k ops outs w : spec_run k [] ops = Some (outs, w) -> model_run k conf0 ops <> None.
Proof. intros Hs. destruct (run_refines _ _ _ _ Hs) as [c ->]. done. Qed.

Theorem extend_circular_independent h outs w x y xs ys more outs' w' z zs w1 :
  spec_run Circular [] h = Some (outs, w) -> x <> y -> w !! x = Some (Some xs) -> w !! y = Some (Some ys) ->
  w1 = <[x := Some (xs ++ ys)]> w ->
  spec_run Circular w1 more = Some (outs', w') -> Forall (fun m => ~ mutates m z) more -> w1 !! z = Some (Some zs) ->
  exists c, model_run Circular conf0 ((h ++ [LExtend x y]) ++ more ++ [LToList z])
            = Some ((outs ++ [RUnit]) ++ outs' ++ [RVals zs], c).
Proof.
  intros Hh Hxy Hx Hy -> Hm Hmut Hz. eapply reads_back; [|exact Hm|done|done].
  apply content_some in Hx, Hy. rewrite spec_run_app, Hh. cbn [mbind option_bind spec_run spec_step].
  rewrite Hx, Hy. cbn [mbind option_bind]. by rewrite (bool_decide_eq_false_2 (x = y)).
Qed.

Theorem split_parts k h outs w x vs i :
  spec_run k [] h = Some (outs, w) -> w !! x = Some (Some vs) ->
  i <= length vs -> (k = Circular -> i = 0 \/ i < length vs) ->
  exists c, model_run k conf0 (h ++ [LSplit x (AInt (Z.of_nat i)); LToList x; LToList (length w); LToList (S (length w))])
    = Some (outs ++ [RNew 2; RVals vs; RVals (firstn i vs); RVals (skipn i vs)], c).
Proof.
  intros Hh Hx Hi Hk.
  assert (derives k (LSplit x (AInt (Z.of_nat i))) x vs [firstn i vs; skipn i vs]) as Hd.
  { cbn. rewrite Nat2Z.id. repeat split; try lia. intros Hc. destruct (Hk Hc); lia. }
  destruct (derived_independent _ _ _ _ _ _ _ _ Hh Hx Hd) as (Hs & _ & _).
  set (w' := w ++ map Some [firstn i vs; skipn i vs]) in *.
  assert (w' !! x = Some (Some vs)) as H1%content_some.
  { unfold w'. by rewrite lookup_app_l by (by eapply lookup_lt_Some). }
  assert (w' !! length w = Some (Some (firstn i vs))) as H2%content_some.
  { unfold w'. by rewrite lookup_app_r, Nat.sub_diag by lia. }
  assert (w' !! S (length w) = Some (Some (skipn i vs))) as H3%content_some.
  { unfold w'. rewrite lookup_app_r by lia. by replace (S (length w) - length w) with 1 by lia. }
  eapply run_refines. rewrite (app_assoc h [_] [_; _; _] : h ++ [_; _; _; _] = _).
  rewrite spec_run_app, Hs. cbn [mbind option_bind spec_run spec_step]. rewrite H1.
  cbn [mbind option_bind]. rewrite H2. cbn [mbind option_bind]. rewrite H3. cbn [mbind option_bind length].
  by rewrite <- app_assoc.
Qed.
