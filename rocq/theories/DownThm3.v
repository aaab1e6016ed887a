(** * How far the calls on a search tree walk (C83): AVL *)
From iris.proofmode Require Import proofmode.
From Verif Require Import Base TreeModel TreeSpec BstModel BalModel BstSpec BstSep BstRules BstZip BstDel BstPure BstThm SplayThm AvlThm WalkModel WalkSpec WalkThm2.
From Verif Require Import TreeIterThm TreeIterThm3 TreeIterThm4 DepthSpec DepthThm DepthThm2 DepthThm3 DepthThm6 DownModel DownSpec DownThm DownThm2.
Local Open Scope py_scope.

Lemma am_up fu : forall f p s z s', avl_up_n fu p s = Ok z s' -> at_most s (avl_up_c f p) z.
Proof.
  induction fu as [|fu IH]; intros f p s z s' H; (destruct p as [i|]; [|destruct f; (eapply am_le; [apply tk_ret|lia])]); [done|].
  destruct f as [|f]; [apply tk_diverge|]. cbn [avl_up_n] in H. cbn [avl_up_c].
  destruct z as [|z]. { exfalso. revert H. unfold bind, ret. repeat case_match; intros; simplify_eq. }
  change (S z) with (1 + z). eapply am_bind; [intros k; unfold tick; cbn; lia|]. intros u s0 k k' E. injection E as _ <- _.
  apply am_lfb. intros g s1 E1. rewrite (bind_ok _ _ _ _ _ E1) in H.
  apply am_lfb. intros [] s2 E2. rewrite (bind_ok _ _ _ _ _ E2) in H.
  apply am_lfb. intros b s3 E3. rewrite (bind_ok _ _ _ _ _ E3) in H.
  destruct b; [|apply am_lfb; intros m s4 E4; rewrite (bind_ok _ _ _ _ _ E4) in H; apply am_lfb; intros [] s5 E5; rewrite (bind_ok _ _ _ _ _ E5) in H];
    (apply (IH f _ _ _ s'); unfold bind in H; match type of H with context [avl_up_n ?a ?b ?c] => destruct (avl_up_n a b c) as [w s9| |]; try done end; injection H as <- <-; done).
Qed.
Lemma al_up f : forall fu p s z s', f <= fu -> avl_up_n fu p s = Ok z s' -> at_least s (avl_up_c f p) z.
Proof.
  induction f as [|f IH]; intros fu p s z s' Hf H; (destruct p as [i|]; [|destruct fu; cbn in H; injection H as <- _; apply tk_ret]); [apply tk_diverge|].
  destruct fu as [|fu]; [lia|]. cbn [avl_up_n] in H. cbn [avl_up_c].
  destruct z as [|z]. { exfalso. revert H. unfold bind, ret. repeat case_match; intros; simplify_eq. }
  change (S z) with (1 + z). eapply al_bind; [intros k; unfold tick; cbn; lia|]. intros u s0 k k' E. injection E as _ <- _.
  apply al_lfb. intros g s1 E1. rewrite (bind_ok _ _ _ _ _ E1) in H.
  apply al_lfb. intros [] s2 E2. rewrite (bind_ok _ _ _ _ _ E2) in H.
  apply al_lfb. intros b s3 E3. rewrite (bind_ok _ _ _ _ _ E3) in H.
  destruct b; [|apply al_lfb; intros m s4 E4; rewrite (bind_ok _ _ _ _ _ E4) in H; apply al_lfb; intros [] s5 E5; rewrite (bind_ok _ _ _ _ _ E5) in H];
    (apply (IH fu _ _ _ s'); [lia|]; unfold bind in H; match type of H with context [avl_up_n ?a ?b ?c] => destruct (avl_up_n a b c) as [w s9| |]; try done end; injection H as <- <-; done).
Qed.
Lemma tk_avl_insert s T x : rep s T -> avl_ok T -> increasing (ino T) -> takes s (avl_insert_c (PNum x)) (path x (vals T) + nodes_above x (vals T)).
Proof.
  intros H HA Hi. destruct (rep_held s T H) as (T1 & H1 & EV & EL). unfold avl_insert_c.
  apply tk_lfb. intros y s' E. injection E as <- <-.
  apply (tk_lfk _ _ _ _ _ (rep_empty s T H)). destruct (decide (T = Nil)) as [->|HT].
  { do 3 (apply tk_lfb; intros). apply tk_ret. }
  assert ((match T with Nil => true | _ => false end) = false) as -> by (by destruct T).
  eapply tk_bind; [rewrite -EV; by apply (tk_insert_value CAVL x (Fin 0) s T1 H1)|].
  intros r s1 k k' Er%(co_ok _ _ _ _ _ _ _ (co_insert_value CAVL x (Fin 0))).
  apply tk_lfb. intros p s2 Ep. apply tk_lfb. intros n s3 E3. injection E3 as En <-.
  apply tk_bind0; [|intros; apply tk_ret].
  destruct (insert_up s T x (Nat.max n (nlevels T)) H HA Hi HT) as (a & s3 & E & ->); [lia|]. rewrite (bind_ok _ _ _ _ _ Er) (bind_ok _ _ _ _ _ Ep) in E.
  split; [by eapply am_up|]. eapply al_up; [|exact E]. lia.
Qed.
Lemma way_back_zfind x T : x ∈ ino T -> increasing (ino T) ->
  way_back x (vals T) = nodes_above x (vals T) + replacement_branch (zfind x T).2.
Proof.
  intros Hx Hi. apply (zfind_in x T Hi) in Hx. unfold way_back, vals. rewrite subtree_at_zfind. destruct (zfind x T).2 as [|l ix u] eqn:E; [done|].
  rewrite -(branch_map snd) -(branch_map p_val). done.
Qed.
(** A removal from an AVL tree shortens it by 1, so that the code does walk back. *)
Lemma remove_there s T x : rep s T -> avl_ok T -> increasing (ino T) -> T <> Nil -> x ∈ ino T ->
  ((zfind x T).1 = [] -> leafb (zfind x T).2 = false) -> exists a s', remove_value CAVL x s = Ok a s' /\ t_len s' <> t_len s.
Proof.
  intros (h & Hs & HTr & Hr & Hn) HA Hi HT Hx HL. apply (zfind_in x T Hi) in Hx.
  assert (tree None T ⊢ twp (remove_value CAVL x) (t_root s) (t_len s) (fun _ _ n => ⌜n = (t_len s + -1)%Z⌝%I)) as Hm.
  { iIntros "HT". iApply (twp_remove_value CAVL x T); [done|done|done|]. iFrame "HT". destruct (zfind x T).2; [done|]. by iIntros "_". }
  destruct (twp_run _ _ _ _ _ Hm HTr Hs) as (a & s' & h' & E & _ & HQ). exists a, s'. split; [done|].
  assert (t_len s' = (t_len s + -1)%Z) as -> by exact HQ. lia.
Qed.
Lemma tk_avl_remove s T x : rep s T -> avl_ok T -> increasing (ino T) ->
  takes s (avl_remove_c (PNum x)) (if only_value x (vals T) then 0 else removal_steps x (vals T) + way_back x (vals T)).
Proof.
  intros H HA Hi. destruct (rep_held s T H) as (T1 & H1 & EV & EL). unfold avl_remove_c. rewrite -EV.
  eapply tk_eq; [apply (tk_remove_with (PNum x) _ s T1 (fun x => removal_steps x (vmap T1) + way_back x (vmap T1)) H1)|].
  2:{ destruct T1; [|done]. by destruct (only_value _ _). }
  intros ? [= <-] HT1 Eo. assert (T <> Nil) as HT. { intros ->. by destruct T1. }
  apply tk_lfb. intros n0 s' E. injection E as <- <-. eapply tk_bind; [by apply (tk_remove_value CAVL x s T1 H1)|].
  intros r s1 k k' Er%(co_ok _ _ _ _ _ _ _ (co_remove_value CAVL x)). rewrite EV in Eo |- *.
  apply tk_lfb. intros n1 s' E. injection E as <- <-. destruct (decide (x ∈ ino T)) as [Hx|Hx].
  - assert ((zfind x T).1 = [] -> leafb (zfind x T).2 = false) as HLf.
    { intros HK. pose proof (zfind_plug x T) as HP. pose proof (zfind_val x T) as HV. rewrite HK in HP. cbn in HP. rewrite HP in HV |- *.
      destruct (leafb T) eqn:El; [|done]. exfalso. destruct T as [|[] ix []]; try done. specialize (HV _ _ _ eq_refl).
      cbn in Eo. by rewrite HV bool_decide_eq_true_2 in Eo. }
    destruct (remove_there s T x H HA Hi HT Hx HLf) as (a & s' & E & EN). rewrite E in Er. injection Er as <- <-.
    rewrite (proj2 (Z.eqb_neq _ _) EN). apply tk_lfb. intros n s3 E3. injection E3 as En <-. apply tk_bind0; [|intros; apply tk_ret].
    destruct (remove_up s T x (Nat.max n (length (zfind x T).1 + replacement_branch (zfind x T).2)) H HA Hi HT Hx HLf) as (z & s3 & E2 & Ez); [lia|].
    change (bin_map p_val (bin_map snd T)) with (vals T) in Ez. rewrite -way_back_zfind in Ez; [|done|done]. subst z. rewrite (bind_ok _ _ _ _ _ E) in E2.
    split; [by eapply am_up|]. eapply al_up; [|exact E2]. lia.
  - destruct (remove_absent s T x H Hi HT Hx) as (a & s' & E & EL'). rewrite E in Er. injection Er as <- <-. rewrite EL' Z.eqb_refl.
    eapply tk_eq; [apply tk_ret|]. unfold way_back, vals. rewrite subtree_at_zfind. pose proof (zfind_in x T Hi) as HZ. destruct (zfind x T).2; [done|]. exfalso. apply Hx, HZ. done.
Qed.
Lemma nodes_above_levels x t : nodes_above x t <= nlevels t.
Proof. unfold nodes_above. pose proof (path_levels x t). destruct (subtree_at x t); lia. Qed.
Lemma way_back_levels x t : way_back x t <= nlevels t.
Proof.
  unfold way_back, nodes_above. pose proof (path_subtree x t) as HS. destruct (subtree_at x t) as [|l y r] eqn:E; [lia|]. specialize (HS ltac:(done)).
  assert (replacement_branch (Bin l y r) < nlevels (Bin l y r)).
  { cbn [replacement_branch nlevels]. pose proof (right_levels l). pose proof (left_levels r). destruct r; lia. }
  lia.
Qed.
