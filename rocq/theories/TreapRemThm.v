(** * Treap: removals that fail, and histories of removals that do not *)
From Coq Require Import Sorted.
From iris.proofmode Require Import proofmode.
From Verif Require Import Base NumOrd TreeModel TreeSpec BstModel BalModel BstSpec BstSep BstRules BstZip BstDel BinThm BstPure BstThm AvlThm RbThm RbDel RbDel3 TreapThm TreapSpec.
Local Open Scope py_scope.

Lemma sinkable_sks x T : sinkable x (bin_map snd T) <-> sks x T.
Proof.
  unfold sinkable, sks, sk. rewrite node_at_zfind. destruct (zfind x T).2 as [|l ix u]; [done|]. cbn [bin_map].
  change (inorder (bin_map snd l)) with (pin l). change (inorder (bin_map snd u)) with (pin u).
  assert (forall a b, num_leb a b = true <-> num_le a b) as Hle by (intros a b; unfold num_leb; by rewrite -num_ltb_le negb_true_iff).
  split; intros [H1 H2]; (split; [done|]); intros q Hq; by apply Hle, H2.
Qed.
Lemma sks_dec x T : sks x T \/ ~ sks x T.
Proof.
  unfold sks. destruct (zfind x T).2 as [|l ix u]; [by left|]. unfold sk.
  assert ((forall p, last (pin l) = Some p -> num_lt (Fin (-1)) (p_prio p)) \/ ~ (forall p, last (pin l) = Some p -> num_lt (Fin (-1)) (p_prio p))) as [H1|H1].
  { destruct (last (pin l)) as [p|]; [|by left]. unfold num_lt. destruct (num_ltb (Fin (-1)) (p_prio p)) eqn:E; [left; by intros ? [= <-]|right]. intros H. specialize (H _ eq_refl). congruence. }
  2:{ right. tauto. }
  destruct (head (pin u)) as [p|]; [|left; by split]. destruct (num_ltb (p_prio p) (Fin (-1))) eqn:E; [right|left].
  - intros [_ H]. specialize (H _ eq_refl). apply num_ltb_le in H. congruence.
  - split; [done|]. intros ? [= <-]. by apply num_ltb_le.
Qed.
Lemma rep_len s T : rep s T -> t_len s = Z.of_nat (bsize T).
Proof. by intros (h & _ & _ & _ & ?). Qed.
Lemma twp_treap_stuck m : forall fu K l i x u r n (Q : exn + (option nat * nat) -> option nat -> Z -> hprop),
  bsize l + bsize u <= m -> m <= fu -> heap l -> heap u -> ~ sk l u ->
  r = croot K (Some i) -> increasing (zl K ++ ino (Bin l (i, x) u) ++ zr K) ->
  ctxp K (Some i) ∗ tree (cpar K) (Bin l (i, x) u) ∗
  (∀ T', ⌜pin T' = pin (plug K (Bin l (i, x) u))⌝ -∗ tree None T' -∗ Q (inl AttributeError) (rp T') n) ⊢
  twp (catch (treap_down fu (cpar K) i)) r n Q.
Proof.
  induction m as [|m IH]; intros fu K l i x u r n Q Hm Hfu Hl Hu Hk -> Hinc.
  { exfalso. apply Hk. destruct l, u; cbn in Hm; try lia. done. }
  destruct fu as [|fu]; [lia|]. cbn [treap_down].
  iIntros "(HK & HT & HQ)". cbn [tree fst snd]. iDestruct "HT" as "(Hi & Hl & Hu)".
  cbind. iApply (twp_node_is_leaf i x l u). iFrame "Hi". iIntros "Hi". destruct (leafb (Bin l (i, x) u)) eqn:El.
  { exfalso. apply Hk. by destruct l, u. }
  cget. cget. cbind. iApply (twp_prio_of _ l). iFrame "Hl". iIntros "Hl". cbind. iApply (twp_prio_of _ u). iFrame "Hu". iIntros "Hu".
  destruct (num_ltb (tprio u) (tprio l)) eqn:E.
  - destruct l as [|a [j y] b].
    { iApply twp_ccbind. unfold rotate_right. cget. cbn [deref rp]. iApply twp_raise_bind.
      iSpecialize ("HQ" $! (plug K (Bin Nil (i, x) u)) with "[//]"). rewrite rp_plug. iApply "HQ". iApply at_tree. cbn [rp fst tree snd]. iFrame. }
    cbn [tree fst snd]. cbn in Hm.
    cbind. iApply (twp_rotate_right CTreap (cpar K) a i x b j y u). cbn [tree fst snd rp]. iFrame "Hi Hl Hu". rewrite !node_treap. iIntros "HT".
    assert (increasing (zl K ++ ino (Bin a (j, y) (Bin b (i, x) u)) ++ zr K)) as Hinc'.
    { cbn [zl zr ino snd] in Hinc |- *. by rewrite -?app_assoc /= -?app_assoc in Hinc |- *. }
    cbind. iApply (twp_attach CTreap K _ (cpar K) (Bin a (j, y) (Bin b (i, x) u))); [done|by apply side_ok_in|]. iFrame "HK HT".
    rewrite recontext_treap. iIntros "HK HT".
    iAssert (tree (cpar K) (Bin a (j, y) (Bin b (i, x) u))) with "[HT]" as "HT"; [by destruct K|].
    cbn [tree fst snd rp]. iDestruct "HT" as "(Hj & Ha & Hi & Hb & Hu)". cget. cbind. wret.
    iApply (IH fu (InR a (j, y) :: K) b i x u); [lia|lia|by destruct Hl as (_ & _ & _ & ?)|done| | | |].
    + by rewrite (sk_step_left a (j, y) b u).
    + cbn [croot fnode fst]. by destruct K.
    + cbn [zl zr ino snd] in Hinc |- *. by rewrite -?app_assoc /= -?app_assoc in Hinc |- *.
    + cbn [ctxp cpar fnode tree fst snd]. iFrame "HK Hj Ha Hi Hb Hu". iIntros (T') "%HT' HT". iApply ("HQ" with "[%] HT").
      rewrite HT'. rewrite !pin_plug !pin_bin. cbn [pzl pzr]. by rewrite -?app_assoc /= -?app_assoc.
  - destruct u as [|a [j y] b].
    { iApply twp_ccbind. unfold rotate_left. cget. cbn [deref rp]. iApply twp_raise_bind.
      iSpecialize ("HQ" $! (plug K (Bin l (i, x) Nil)) with "[//]"). rewrite rp_plug. iApply "HQ". iApply at_tree. cbn [rp fst tree snd]. iFrame. }
    cbn [tree fst snd]. cbn in Hm.
    cbind. iApply (twp_rotate_left CTreap (cpar K) l i x a j y b). cbn [tree fst snd rp]. iFrame "Hi Hl Hu". rewrite !node_treap. iIntros "HT".
    assert (increasing (zl K ++ ino (Bin (Bin l (i, x) a) (j, y) b) ++ zr K)) as Hinc'.
    { cbn [zl zr ino snd] in Hinc |- *. by rewrite -?app_assoc /= -?app_assoc in Hinc |- *. }
    cbind. iApply (twp_attach CTreap K _ (cpar K) (Bin (Bin l (i, x) a) (j, y) b)); [done|by apply side_ok_in|]. iFrame "HK HT".
    rewrite recontext_treap. iIntros "HK HT".
    iAssert (tree (cpar K) (Bin (Bin l (i, x) a) (j, y) b)) with "[HT]" as "HT"; [by destruct K|].
    cbn [tree fst snd rp]. iDestruct "HT" as "(Hj & (Hi & Hl & Ha) & Hb)". cget. cbind. wret.
    iApply (IH fu (InL (j, y) b :: K) l i x a); [lia|lia|done|by destruct Hu as (_ & _ & ? & _)| | | |].
    + by rewrite (sk_step_right l a (j, y) b).
    + cbn [croot fnode fst]. by destruct K.
    + cbn [zl zr ino snd] in Hinc |- *. by rewrite -?app_assoc /= -?app_assoc in Hinc |- *.
    + cbn [ctxp cpar fnode tree fst snd]. iFrame "HK Hj Hb Hi Hl Ha". iIntros (T') "%HT' HT". iApply ("HQ" with "[%] HT").
      rewrite HT'. rewrite !pin_plug !pin_bin. cbn [pzl pzr]. by rewrite -?app_assoc /= -?app_assoc.
Qed.
Lemma treap_remove_stuck s T x : rep s T -> heap T -> ~ sks x T -> increasing (ino T) ->
  exists s' T', tree_remove CTreap (PNum x) s = Exc AttributeError s' /\ rep s' T' /\ pin T' = pin T.
Proof.
  intros H Hh Hk Hinc. cbn [tree_remove].
  destruct (rep_crun (treap_remove (PNum x)) s T (fun _ _ => False) (fun e T' r n => e = AttributeError /\ pin T' = pin T /\ r = rp T' /\ n = Z.of_nat (bsize T')) H)
    as [(a & s' & T' & _ & _ & [])|(e & s' & T' & h & E & (-> & HT' & Hr & Hn) & Hs & Ht)].
  2:{ exists s', T'. split_and!; try done. exists h. by split_and!. }
  iIntros "HT". unfold treap_remove, remove_with.
  assert (x ∈ ino T /\ leafb T = false) as [Hx Hlf].
  { pose proof (zfind_plug x T) as HP. pose proof (zfind_in x T Hinc) as HZ. unfold sks in Hk. destruct (zfind x T) as [K t]. cbn [fst snd] in *.
    destruct t as [|l ix u]; [tauto|]. split; [by apply HZ|]. destruct (leafb T) eqn:El; [|done]. exfalso. apply Hk.
    destruct T as [|[] ? []]; try done. destruct K as [|[] K']; cbn in HP; [by injection HP as -> _ ->|..]; exfalso; apply (f_equal (fun t => length (ino t))) in HP;
      rewrite ino_plug in HP; cbn in HP; do 3 (rewrite ?app_length in HP; cbn in HP); lia. }
  assert (T <> Nil) as HTn by (intros ->; set_solver).
  cbind. iApply twp_get_root. destruct T as [|l0 [i0 x0] u0] eqn:ET; [done|]. cbn [rp fst].
  iDestruct "HT" as "(Hi & Hl & Hu)". cbn [fst snd]. cbind. iApply (twp_node_is_leaf i0 x0 l0 u0). iFrame "Hi". iIntros "Hi". rewrite Hlf.
  cget. cbn [andb].
  iAssert (tree None T) with "[Hi Hl Hu]" as "HT"; [rewrite ET; cbn [tree fst snd]; iFrame|].
  rewrite -ET in H Hh Hk Hinc Hx Hlf HTn |- *. replace (Some i0) with (rp T) by (by rewrite ET). clear ET l0 i0 x0 u0.
  cbind. iApply (twp_search_root x T); [done|done|]. iFrame "HT". iIntros (j) "%Hj HT".
  destruct (zlast_node x T HTn) as (l & [j' y] & u & Ez & Hb). rewrite Ez in Hj. injection Hj as ->. cbn [snd] in Hb.
  assert (T = plug (zlast (zfind x T)).1 (Bin l (j, y) u)) as HTz by (by rewrite -Ez zlast_plug zfind_plug).
  cbind. iApply (twp_get_data_at T (zlast (zfind x T)).1 l (j, y) u); [done|done|]. iFrame "HT". iIntros "HT". cbn [snd]. rewrite Hb.
  assert (found x T = true) as Ef by (rewrite (found_in _ _ Hinc); by apply bool_decide_eq_true_2). rewrite Ef. cbn [negb].
  clear Hb HTz. pose proof (zfind_plug x T) as HP. pose proof Hinc as Hinc'. unfold found in Ef. unfold sks in Hk.
  destruct (zfind x T) as [K t]. cbn [fst snd] in *. destruct t as [|l' [i x'] u']; [done|]. rewrite zlast_bin in Ez. cbn in Ez. injection Ez as -> -> -> ->.
  rewrite -HP. cbind. iApply (twp_get_parent_at (plug K (Bin l (j, y) u)) K l (j, y) u); [done|done|]. iFrame "HT". iIntros "HT".
  cbind. iApply (twp_get_fuel (tree None (plug K (Bin l (j, y) u))) (bsize (plug K (Bin l (j, y) u)))); [apply tree_atleast|]. iFrame "HT". iIntros (fu Hfu) "HT".
  iDestruct (tree_at with "HT") as "[HK HT]". cbn [rp fst].
  assert (bsize l + bsize u <= fu) as Hfu'. { pose proof (ino_length (plug K (Bin l (j, y) u))) as HL. rewrite ino_plug app_length app_length (ino_length (Bin l (j, y) u)) in HL. cbn [bsize] in HL. lia. }
  pose proof Hh as Hh2. rewrite -HP in Hh2. apply heap_plug in Hh2 as (Hht & _ & _). destruct Hht as (_ & _ & Hhl & Hhu).
  rewrite -HP ino_plug in Hinc'.
  iApply twp_ccbind. iApply (twp_treap_stuck (bsize l + bsize u) fu K l j y u); [done|done|done|done|done| |done|].
  { by rewrite rp_plug. }
  iFrame "HK HT". iIntros (T') "%HT' HT". cbn [cpost]. iExists T'. iFrame "HT". iPureIntro. split_and!; try done.
  assert (length (ino T') = length (ino (plug K (Bin l (j, y) u)))) as HL by (by rewrite !ino_pin HT').
  by rewrite !ino_length in HL; rewrite HL.
Qed.

(** ** Histories *)
Lemma sink_step s T o : rep s T -> heap T -> increasing (ino T) -> (forall x, o = TRemove (PNum x) -> sks x T) ->
  exists r s' T', call CTreap o s = Some (r, s') /\ rep s' T' /\ heap T' /\ answer CTreap o (ino T) r /\ ino T' = next CTreap o (ino T) /\
    pairs T' ≡ₚ pairs_next o (pairs T).
Proof.
  intros H Hh Hinc Hp. destruct (is_removal o) eqn:Er.
  - destruct o as [|v| | | | | | | | | | | | |]; try done. destruct (decide (exists x, v = PNum x)) as [[x ->]|Hn].
    + destruct (treap_remove_run s T x H Hh) as (s' & T' & E & HR & HI & HH & HPp); [by apply Hp|done|].
      exists (OUnit (bool_decide (x ∉ ino T))), s', T'. cbn [answer next pairs_next]. rewrite HPp. split_and!; try done.
      apply call_ok. cbn [exec]. by rewrite (bind_ok _ _ _ _ _ E).
    + edestruct (remove_step CTreap s T v (fun T' => T' = T) H) as (r & s' & T' & E & HR & -> & HA & HN); [|done|].
      { intros x ->. exfalso. apply Hn. by eexists. }
      exists r, s', T. split_and!; try done. destruct v; try done. exfalso. apply Hn. by eexists.
  - destruct (treap_step false s T o H) as (r & s' & T' & E & HR & [HH _] & HA & HN & HP); [by split|done|done|]. by exists r, s', T'.
Qed.
Lemma sink_run os : forall s T, rep s T -> heap T -> increasing (ino T) ->
  (forall pre x post rs s' t, os = pre ++ TRemove (PNum x) :: post -> calls CTreap pre s = Some (rs, s') -> shape s' = Some t -> sinkable x t) ->
  exists rs s' T', calls CTreap os s = Some (rs, s') /\ rep s' T' /\ heap T' /\ answers CTreap os (ino T) rs /\ ino T' = set_after CTreap os (ino T) /\
    pairs T' ≡ₚ pairs_after os (pairs T).
Proof.
  induction os as [|o os IH]; intros s T H Hh Hinc HF; [by exists [], s, T|].
  destruct (sink_step s T o H Hh Hinc) as (r & s1 & T1 & E & HR & HH & HA & HN & HP).
  { intros x ->. apply sinkable_sks. eapply (HF [] x os); [done..|by apply rep_shape]. }
  destruct (IH s1 T1 HR HH) as (rs & s2 & T2 & E2 & HR2 & HE2 & HA2 & HN2 & HP2); [rewrite HN; by apply next_inc| |].
  - intros pre x post rs s' t -> Ec Ht. eapply (HF (o :: pre) x post); [done| |done]. cbn [calls]. by rewrite E Ec.
  - rewrite HN in HA2, HN2. exists (r :: rs), s2, T2. cbn [calls pairs_after]. rewrite E E2 -HP. by split_and!.
Qed.
