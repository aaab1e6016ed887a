(** * AVL: insertion and removal *)
From Coq Require Import Sorted.
From iris.proofmode Require Import proofmode.
From Verif Require Import Base NumOrd TreeModel TreeSpec BstModel BalModel BstSpec BstSep BstRules BstZip BstDel BinThm BstPure BstThm.
Local Open Scope py_scope.

(** ** The climb, on trees *)
Notation nd := (node CAVL).
Definition rebal (l : ptree) (ix : nat * pay) (u : ptree) : ptree :=
  if Nat.ltb (hh u) (hh l) then
    match l with
    | Nil => Nil
    | Bin a jy b =>
        if Nat.ltb (hh b) (hh a) then nd a jy (nd b ix u)
        else match b with Nil => Nil | Bin b1 kz b2 => nd (nd a jy b1) kz (nd b2 ix u) end
    end
  else
    match u with
    | Nil => Nil
    | Bin a jy b =>
        if Nat.ltb (hh b) (hh a) then match a with Nil => Nil | Bin a1 kz a2 => nd (nd l ix a1) kz (nd a2 jy b) end
        else nd (nd l ix a) jy b
    end.
Definition balb (l u : ptree) : bool := Nat.leb (hh u) (hh l + 1) && Nat.leb (hh l) (hh u + 1).
Definition fixup (l : ptree) (ix : nat * pay) (u : ptree) : ptree := if balb l u then nd l ix u else rebal l ix u.
Fixpoint climb (K : ctx) (t : ptree) : ptree :=
  match K with
  | [] => t
  | InL ix u :: K' => climb K' (fixup t ix u)
  | InR l ix :: K' => climb K' (fixup l ix t)
  end.
Fixpoint exact (t : ptree) : Prop :=
  match t with Nil => True | Bin l ix u => exact l /\ exact u /\ p_height ix.2 = Nat.max (hh l) (hh u) end.
Fixpoint exactK (K : ctx) : Prop :=
  match K with [] => True | InL _ u :: K' => exact u /\ exactK K' | InR l _ :: K' => exact l /\ exactK K' end.

Lemma nd_idem l i x u h : nd l (i, pay_height h x) u = nd l (i, x) u.
Proof. done. Qed.
Lemma fixup_idem l i x u h : fixup l (i, pay_height h x) u = fixup l (i, x) u.
Proof. done. Qed.
Lemma climb_reframe c t f K : climb (reframe c t f :: K) t = climb (f :: K) t.
Proof. by destruct c, f as [[i x] u|l [i x]]. Qed.
Lemma hh_nd l ix u : hh (nd l ix u) = S (Nat.max (hh l) (hh u)).
Proof. by destruct ix. Qed.
Lemma exact_nd l ix u : exact (nd l ix u) <-> exact l /\ exact u.
Proof. cbn. naive_solver. Qed.
Lemma exact_hh t : exact t -> hh t = nlevels t.
Proof. induction t as [|l IHl ix u IHu]; [done|]. cbn -[Nat.max]. intros (Hl & Hu & ->). by rewrite (IHl Hl) (IHu Hu). Qed.
(** The unbalanced cases of an exact tree. *)
Lemma rebal_cases l ix u (P : ptree -> Prop) : exact l -> exact u -> balb l u = false ->
  (forall a jy b, l = Bin a jy b -> hh u + 1 < hh l -> hh b < hh a -> P (nd a jy (nd b ix u))) ->
  (forall a jy b1 kz b2, l = Bin a jy (Bin b1 kz b2) -> hh u + 1 < hh l -> hh a <= hh (Bin b1 kz b2) -> P (nd (nd a jy b1) kz (nd b2 ix u))) ->
  (forall a1 kz a2 jy b, u = Bin (Bin a1 kz a2) jy b -> hh l + 1 < hh u -> hh b < hh (Bin a1 kz a2) -> P (nd (nd l ix a1) kz (nd a2 jy b))) ->
  (forall a jy b, u = Bin a jy b -> hh l + 1 < hh u -> hh a <= hh b -> P (nd (nd l ix a) jy b)) ->
  P (rebal l ix u).
Proof.
  intros Hl Hu Hb H1 H2 H3 H4. unfold rebal, balb in *.
  assert (hh u + 1 < hh l \/ hh l + 1 < hh u) as HH.
  { apply andb_false_iff in Hb as [Hb|Hb]; apply Nat.leb_gt in Hb; lia. }
  destruct (Nat.ltb_spec (hh u) (hh l)) as [Hlt|Hge].
  - destruct l as [|a jy b]; [cbn in Hlt; lia|]. destruct (Nat.ltb_spec (hh b) (hh a)); [apply H1; [done|lia|done]|].
    destruct b as [|b1 kz b2]; [|apply H2; [done|lia|done]]. exfalso. destruct Hl as (_ & _ & Hl). cbn in *. rewrite Hl in HH. lia.
  - destruct u as [|a jy b]; [cbn in *; lia|]. destruct (Nat.ltb_spec (hh b) (hh a)); [|apply H4; [done|lia|done]].
    destruct a as [|b1 kz b2]; [cbn in *; lia|]. apply H3; [done|lia|done].
Qed.
Lemma ino_nd l ix u : ino (nd l ix u) = ino l ++ p_val ix.2 :: ino u.
Proof. apply ino_node. Qed.
Lemma fixup_ino l ix u : exact l -> exact u -> ino (fixup l ix u) = ino l ++ p_val ix.2 :: ino u.
Proof.
  intros Hl Hu. unfold fixup. destruct (balb l u) eqn:Eb; [apply ino_nd|]. pattern (rebal l ix u). apply rebal_cases; [done..| | | |].
  - intros a jy b -> _ _. rewrite !ino_nd. cbn [ino]. by rewrite -app_assoc.
  - intros a jy b1 kz b2 -> _ _. rewrite !ino_nd. cbn [ino]. by rewrite -?app_assoc /= -?app_assoc /=.
  - intros a1 kz a2 jy b -> _ _. rewrite !ino_nd. cbn [ino]. by rewrite -?app_assoc /= -?app_assoc /=.
  - intros a jy b -> _ _. rewrite !ino_nd. cbn [ino]. by rewrite -app_assoc.
Qed.
Lemma fixup_exact l ix u : exact l -> exact u -> exact (fixup l ix u).
Proof.
  intros Hl Hu. unfold fixup. destruct (balb l u) eqn:Eb; [by apply exact_nd|]. pattern (rebal l ix u). apply rebal_cases; [done..| | | |].
  - intros a jy b -> _ _. rewrite !exact_nd. cbn in Hl. tauto.
  - intros a jy b1 kz b2 -> _ _. rewrite !exact_nd. cbn in Hl. tauto.
  - intros a1 kz a2 jy b -> _ _. rewrite !exact_nd. cbn in Hu. tauto.
  - intros a jy b -> _ _. rewrite !exact_nd. cbn in Hu. tauto.
Qed.
Lemma climb_ino K : forall t, exact t -> exactK K -> ino (climb K t) = zl K ++ ino t ++ zr K.
Proof.
  induction K as [|[ix u|l ix] K IH]; intros t Ht HK; cbn [climb zl zr exactK] in *; [by rewrite app_nil_r|..]; destruct HK as [H1 H2].
  - rewrite IH //; [|by apply fixup_exact]. rewrite fixup_ino //. by rewrite -!app_assoc.
  - rewrite IH //; [|by apply fixup_exact]. rewrite fixup_ino //. by rewrite -!app_assoc.
Qed.
Lemma climb_exact K : forall t, exact t -> exactK K -> exact (climb K t).
Proof.
  induction K as [|[ix u|l ix] K IH]; intros t Ht HK; cbn [climb exactK] in *; [done|..]; destruct HK as [H1 H2]; apply IH; try done; by apply fixup_exact.
Qed.
Lemma exact_plug K t : exact (plug K t) -> exact t /\ exactK K.
Proof.
  revert t. induction K as [|[ix u|l ix] K IH]; intros t H; [done|..]; cbn [plug fill exactK] in *; apply IH in H as [H H']; cbn in H; tauto.
Qed.

(** ** The climb, on the heap *)
Lemma fixup_nonnil l ix u : exact l -> exact u -> exists t1 jy t2, fixup l ix u = Bin t1 jy t2 /\ p_val jy.2 ∈ ino l ++ p_val ix.2 :: ino u.
Proof.
  intros Hl Hu. pose proof (fixup_ino l ix u Hl Hu) as HI. destruct (fixup l ix u) as [|t1 jy t2] eqn:E.
  - exfalso. cbn in HI. destruct (ino l); done.
  - exists t1, jy, t2. split; [done|]. rewrite -HI. cbn. set_solver.
Qed.
Lemma twp_is_left_child j y pl pr i x p1 p2 pp r n Q :
  j ↦ Cell y pl pr (Some i) ∗ i ↦ Cell x p1 p2 pp ∗
  (j ↦ Cell y pl pr (Some i) -∗ i ↦ Cell x p1 p2 pp -∗ Q (num_ltb (p_val y) (p_val x)) r n) ⊢
  twp (is_left_child j) r n Q.
Proof.
  iIntros "(Hj & Hi & HQ)". unfold is_left_child. wget. wbind. wret. wget. wget. wret. iApply ("HQ" with "Hj Hi").
Qed.
Lemma inc_in_mid l1 x l2 y : increasing (l1 ++ x :: l2) -> (y ∈ l1 -> num_ltb y x = true) /\ (y ∈ l2 -> num_ltb y x = false).
Proof.
  intros (_ & _ & H1 & H2)%inc_mid. rewrite -> Forall_forall in H1, H2. split; intros Hy; [by apply H1|]. by apply num_lt_asym, H2.
Qed.
Lemma twp_avl_balanced i x par l q1 u q2 r n Q :
  i ↦ Cell x (rp l) (rp u) par ∗ tree q1 l ∗ tree q2 u ∗
  (i ↦ Cell x (rp l) (rp u) par -∗ tree q1 l -∗ tree q2 u -∗ Q (balb l u) r n) ⊢
  twp (avl_node_is_balanced i) r n Q.
Proof.
  iIntros "(Hi & Hl & Hu & HQ)". unfold avl_node_is_balanced. wbind. iApply (twp_children_heights i x par l q1 u q2). iFrame "Hi Hl Hu".
  iIntros "Hi Hl Hu". wret. iApply ("HQ" with "Hi Hl Hu").
Qed.
Lemma twp_avl_rebalance i x par l u r n Q : exact l -> exact u -> balb l u = false -> increasing (ino (Bin l (i, x) u)) ->
  tree par (Bin l (i, x) u) ∗
  (∀ j, ⌜rp (rebal l (i, x) u) = Some j⌝ -∗ tree par (rebal l (i, x) u) -∗ Q j r n) ⊢
  twp (avl_rebalance i) r n Q.
Proof.
  intros Hl Hu Hb Hinc. cbn [tree fst snd]. iIntros "[(Hi & Hl & Hu) HQ]". unfold avl_rebalance.
  wbind. iApply (twp_children_heights i x par l _ u). iFrame "Hi Hl Hu". iIntros "Hi Hl Hu". cbn [fst snd].
  assert (hh u + 1 < hh l \/ hh l + 1 < hh u) as HH.
  { apply andb_false_iff in Hb as [Hb|Hb]; apply Nat.leb_gt in Hb; lia. }
  unfold rebal. cbn [ino snd] in Hinc.
  destruct (Nat.ltb_spec (hh u) (hh l)) as [Hlt|Hge].
  - destruct l as [|a [j y] b]; [cbn in Hlt; lia|]. wget. wbind. wret. cbn [tree fst snd rp].
    iDestruct "Hl" as "(Hj & Ha & Hb)". wbind. iApply (twp_children_heights j y (Some i) a _ b). iFrame "Hj Ha Hb". iIntros "Hj Ha Hb". cbn [fst snd].
    assert (num_ltb (p_val y) (p_val x) = true) as Hyx by (apply (inc_in_mid _ _ _ (p_val y) Hinc); cbn; set_solver).
    apply inc_app in Hinc as (Hinc & _ & _).
    destruct (Nat.ltb_spec (hh b) (hh a)) as [Hab|Hab].
    + destruct a as [|a1 [k z] a2]; [cbn in Hab; lia|]. wget. wbind. iApply (twp_is_left_child j y _ _ i x). iFrame "Hj Hi". iIntros "Hj Hi".
      wbind. wret. cbn [tree fst snd rp]. iDestruct "Ha" as "(Hk & Ha1 & Ha2)".
      wbind. iApply (twp_is_left_child k z _ _ j y). iFrame "Hk Hj". iIntros "Hk Hj". rewrite Hyx.
      assert (num_ltb (p_val z) (p_val y) = true) as -> by (apply (inc_in_mid _ _ _ (p_val z) Hinc); cbn; set_solver).
      iApply (twp_rotate_right CAVL par (Bin a1 (k, z) a2) i x b j y u). cbn [tree fst snd rp]. iFrame "Hi Hu Hj Hb Hk Ha1 Ha2". iIntros "HT".
      iApply "HQ"; [done|done].
    + destruct b as [|b1 [k z] b2].
      { exfalso. destruct Hl as (_ & _ & Hl). cbn in *. rewrite Hl in HH. lia. }
      wget. wbind. iApply (twp_is_left_child j y _ _ i x). iFrame "Hj Hi". iIntros "Hj Hi".
      wbind. wret. cbn [tree fst snd rp]. iDestruct "Hb" as "(Hk & Hb1 & Hb2)".
      wbind. iApply (twp_is_left_child k z _ _ j y). iFrame "Hk Hj". iIntros "Hk Hj". rewrite Hyx.
      assert (num_ltb (p_val z) (p_val y) = false) as -> by (apply (inc_in_mid _ _ _ (p_val z) Hinc); cbn; set_solver).
      iApply (twp_rotate_left_right CAVL par a j y b1 k z b2 i x u). cbn [tree fst snd rp]. iFrame "Hi Hu Hj Ha Hk Hb1 Hb2". iIntros "HT".
      iApply "HQ"; [done|done].
  - destruct u as [|a [j y] b]; [cbn in *; lia|]. wget. wbind. wret. cbn [tree fst snd rp].
    iDestruct "Hu" as "(Hj & Ha & Hb)". wbind. iApply (twp_children_heights j y (Some i) a _ b). iFrame "Hj Ha Hb". iIntros "Hj Ha Hb". cbn [fst snd].
    assert (num_ltb (p_val y) (p_val x) = false) as Hyx by (apply (inc_in_mid _ _ _ (p_val y) Hinc); cbn; set_solver).
    apply inc_app in Hinc as (_ & Hinc & _). apply inc_cons in Hinc as [Hinc _]. cbn [ino snd] in Hinc.
    destruct (Nat.ltb_spec (hh b) (hh a)) as [Hab|Hab].
    + destruct a as [|a1 [k z] a2]; [cbn in Hab; lia|]. wget. wbind. iApply (twp_is_left_child j y _ _ i x). iFrame "Hj Hi". iIntros "Hj Hi".
      wbind. wret. cbn [tree fst snd rp]. iDestruct "Ha" as "(Hk & Ha1 & Ha2)".
      wbind. iApply (twp_is_left_child k z _ _ j y). iFrame "Hk Hj". iIntros "Hk Hj". rewrite Hyx.
      assert (num_ltb (p_val z) (p_val y) = true) as -> by (apply (inc_in_mid _ _ _ (p_val z) Hinc); cbn; set_solver).
      iApply (twp_rotate_right_left CAVL par b j y a2 k z a1 i x l). cbn [tree fst snd rp]. iFrame "Hi Hl Hj Hb Hk Ha1 Ha2". iIntros "HT".
      iApply "HQ"; [done|done].
    + destruct b as [|b1 [k z] b2].
      { exfalso. destruct Hu as (_ & _ & Hu). cbn in *. rewrite Hu in HH. lia. }
      wget. wbind. iApply (twp_is_left_child j y _ _ i x). iFrame "Hj Hi". iIntros "Hj Hi".
      wbind. wret. cbn [tree fst snd rp]. iDestruct "Hb" as "(Hk & Hb1 & Hb2)".
      wbind. iApply (twp_is_left_child k z _ _ j y). iFrame "Hk Hj". iIntros "Hk Hj". rewrite Hyx.
      assert (num_ltb (p_val z) (p_val y) = false) as -> by (apply (inc_in_mid _ _ _ (p_val z) Hinc); cbn; set_solver).
      iApply (twp_rotate_left CAVL par l i x a j y (Bin b1 (k, z) b2)). cbn [tree fst snd rp]. iFrame "Hi Hl Hj Ha Hk Hb1 Hb2". iIntros "HT".
      iApply "HQ"; [done|done].
Qed.
(** Where the ordering puts a subtree. *)
Lemma side_ok_in K t : increasing (zl K ++ ino t ++ zr K) -> side_ok K t.
Proof.
  destruct K as [|[ix u|l ix] K], t as [|t1 jy t2]; try done; cbn [side_ok zl zr]; intros H.
  - rewrite app_assoc in H. apply (inc_in_mid _ _ _ (p_val jy.2) H). cbn. set_solver.
  - rewrite -!app_assoc /= app_assoc in H. apply (inc_in_mid _ _ _ (p_val jy.2) H). cbn. set_solver.
Qed.
Lemma climb_fill K f t : climb (f :: K) t = climb K (match f with InL ix u => fixup t ix u | InR l ix => fixup l ix t end).
Proof. by destruct f. Qed.
Lemma twp_avl_up fu : forall K t r n Q, length K <= fu -> r = croot K (rp t) -> exact t -> exactK K ->
  increasing (zl K ++ ino t ++ zr K) ->
  ctxp K (rp t) ∗ tree (cpar K) t ∗ (tree None (climb K t) -∗ Q tt (rp (climb K t)) n) ⊢
  twp (avl_up fu (cpar K)) r n Q.
Proof.
  induction fu as [|fu IH]; intros K t r n Q Hfu Hr Ht HK Hinc.
  { destruct K; [|cbn in Hfu; lia]. iIntros "(_ & HT & HQ)". cbn in Hr. subst r. cbn. wret. by iApply "HQ". }
  destruct K as [|f K].
  { iIntros "(_ & HT & HQ)". cbn in Hr. subst r. cbn. wret. by iApply "HQ". }
  cbn in Hfu.
  assert (exists l i x u, fill f t = Bin l (i, x) u /\ (fnode f).1 = i /\ exact l /\ exact u /\ exactK K /\
    climb (f :: K) t = climb K (fixup l (i, x) u) /\ increasing (zl K ++ (ino l ++ p_val x :: ino u) ++ zr K)) as (l & i & x & u & Ef & Ei & Hl & Hu & HK' & Ec & Hi').
  { destruct f as [[i x] u|l [i x]]; cbn [exactK] in HK; destruct HK as [H1 H2].
    - exists t, i, x, u. split_and!; try done. cbn [zl zr] in Hinc. by rewrite -!app_assoc.
    - exists l, i, x, t. split_and!; try done. cbn [zl zr] in Hinc. by rewrite -!app_assoc in Hinc |- *. }
  rewrite Ec. clear Ec. cbn [cpar croot] in *. rewrite Ei in Hr |- *.
  iIntros "(HK & HT & HQ)". iAssert (ctxp K (rp (fill f t)) ∗ tree (cpar K) (fill f t))%I with "[HK HT]" as "[HK HT]".
  { rewrite -ctxp_fill Ei. iFrame. }
  rewrite Ef. cbn [tree fst snd rp].
  iDestruct "HT" as "(Hi & Hl & Hu)". cbn [avl_up]. wget. wbind.
  iApply (twp_fix_height i x _ l _ u). iFrame "Hi Hl Hu". iIntros "Hi Hl Hu".
  wbind. iApply (twp_avl_balanced i _ _ l _ u). iFrame "Hi Hl Hu". iIntros "Hi Hl Hu".
  assert (increasing (ino l ++ p_val x :: ino u)) as Hi2.
  { apply inc_app in Hi' as (_ & Hi' & _). by apply inc_app in Hi' as (Hi' & _ & _). }
  unfold fixup. destruct (balb l u) eqn:Eb.
  - iApply (IH K (nd l (i, x) u)); [lia|done|by apply exact_nd|done|by rewrite ino_nd|].
    cbn [rp node fst snd tree]. iFrame.
  - wbind. iApply (twp_avl_rebalance i (refresh CAVL l x u) (cpar K) l u); [done|done|done|by cbn [ino snd]|]. cbn [tree fst snd]. iFrame "Hi Hl Hu".
    cbn [refresh]. change (rebal l (i, pay_height (hh l `max` hh u) x) u) with (rebal l (i, x) u).
    iIntros (j) "%Hj HT".
    assert (rebal l (i, x) u = fixup l (i, x) u) as EF by (unfold fixup; by rewrite Eb).
    assert (exact (rebal l (i, x) u)) as HE by (rewrite EF; by apply fixup_exact).
    assert (ino (rebal l (i, x) u) = ino l ++ p_val x :: ino u) as HI by (rewrite EF; by apply fixup_ino).
    wbind. iApply (twp_attach CAVL K _ (cpar K) (rebal l (i, x) u)); [done| |].
    { apply side_ok_in. by rewrite HI. }
    iFrame "HK HT". iIntros "HK HT".
    destruct K as [|f' K].
    + cbn [recontext cpar climb]. destruct fu; cbn [avl_up]; wret; rewrite -Hj; by iApply "HQ".
    + cbn [recontext]. rewrite -(climb_reframe CAVL).
      assert (cpar (f' :: K) = cpar (reframe CAVL (rebal l (i, x) u) f' :: K)) as -> by (by destruct f').
      rewrite -Hj. iApply (IH (reframe CAVL (rebal l (i, x) u) f' :: K) (rebal l (i, x) u)); [by cbn in *; lia|by destruct f'|done|by destruct f'| |].
      * assert (zl (reframe CAVL (rebal l (i, x) u) f' :: K) = zl (f' :: K) /\ zr (reframe CAVL (rebal l (i, x) u) f' :: K) = zr (f' :: K)) as [-> ->] by (by destruct f' as [[? ?] ?|? [? ?]]).
        by rewrite HI.
      * iFrame "HK HQ". done.
Qed.

(** ** Balance *)
Fixpoint avlb (t : ptree) : Prop :=
  match t with Nil => True | Bin l _ u => avlb l /\ avlb u /\ hh l <= hh u + 1 /\ hh u <= hh l + 1 end.
Fixpoint avlK (K : ctx) (h : nat) : Prop :=
  match K with
  | [] => True
  | InL _ u :: K' => avlb u /\ h <= hh u + 1 /\ hh u <= h + 1 /\ avlK K' (S (Nat.max h (hh u)))
  | InR l _ :: K' => avlb l /\ h <= hh l + 1 /\ hh l <= h + 1 /\ avlK K' (S (Nat.max (hh l) h))
  end.
Lemma avlb_balanced t : exact t -> (avlb t <-> height_balanced (bin_map snd t)).
Proof.
  assert (forall t : ptree, nlevels (bin_map snd t) = nlevels t) as HN.
  { clear. induction t as [|l IHl ix u IHu]; [done|]. cbn -[Nat.max]. by rewrite IHl IHu. }
  induction t as [|l IHl ix u IHu]; [done|]. cbn -[Nat.max]. intros (Hl & Hu & _). rewrite (IHl Hl) (IHu Hu) !HN (exact_hh l Hl) (exact_hh u Hu). done.
Qed.
Lemma avl_plug K t : exact (plug K t) -> avlb (plug K t) -> avlb t /\ avlK K (hh t).
Proof.
  revert t. induction K as [|[ix u|l ix] K IH]; intros t H Hb; [done|..]; cbn [plug fill avlK] in *; destruct (IH _ H Hb) as [H1 H2];
    apply exact_plug in H as [H _]; cbn [exact] in H; destruct H as (_ & _ & HH); cbn [avlb] in H1; cbn [hh] in H2; rewrite HH in H2; tauto.
Qed.
Lemma balb_true l u : balb l u = true <-> hh l <= hh u + 1 /\ hh u <= hh l + 1.
Proof. unfold balb. rewrite andb_true_iff !Nat.leb_le. tauto. Qed.
Lemma avlb_nd l ix u : avlb (nd l ix u) <-> avlb l /\ avlb u /\ hh l <= hh u + 1 /\ hh u <= hh l + 1.
Proof. done. Qed.
Lemma exact_bin l ix u : exact (Bin l ix u) -> hh (Bin l ix u) = S (Nat.max (hh l) (hh u)).
Proof. cbn [exact hh]. by intros (_ & _ & ->). Qed.
Definition tilt (t : ptree) : Prop :=
  match t with Nil => False | Bin l _ u => (l = Nil /\ u = Nil) \/ hh l <> hh u end.
Ltac heights := repeat match goal with
  | H : exact (Bin ?l ?ix ?u) |- _ => lazymatch goal with H' : hh (Bin l ix u) = _ |- _ => fail | _ => pose proof (exact_bin l ix u H) end
  end.
(** A subtree that grew by one through an insertion. *)
Lemma ins_L t ix u h : exact t -> exact u -> avlb t -> avlb u -> h <= hh u + 1 -> hh u <= h + 1 ->
  hh t = h \/ (hh t = S h /\ tilt t) ->
  avlb (fixup t ix u) /\ (hh (fixup t ix u) = S (Nat.max h (hh u)) \/ (hh (fixup t ix u) = S (S (Nat.max h (hh u))) /\ tilt (fixup t ix u))).
Proof.
  intros Ht Hu At Au H1 H2 H. unfold fixup. destruct (balb t u) eqn:Eb.
  - apply balb_true in Eb. rewrite hh_nd avlb_nd. split; [tauto|]. destruct H as [->|[E HT]]; [by left|]. rewrite E.
    destruct (decide (S h = hh u)); [left; lia|]. right. split; [lia|]. cbn. right. lia.
  - assert (hh t = S h /\ tilt t /\ h = hh u + 1) as (E & HT & Eh).
    { assert (~ (hh t <= hh u + 1 /\ hh u <= hh t + 1)) as Hn by (rewrite -balb_true Eb; done). destruct H as [H|[? ?]]; [lia|]. split_and!; try done. lia. }
    clear H. pattern (rebal t ix u). apply rebal_cases; [done..| | | |].
    + intros a jy b -> _ Hab. pose proof Ht as (Ea & Eb' & _). pose proof (exact_bin _ _ _ Ht) as EH. cbn [avlb] in At. destruct At as (Aa & Ab & ? & ?).
      rewrite !hh_nd !avlb_nd !hh_nd. split; [split_and!; try done; lia|]. left. lia.
    + intros a jy b1 kz b2 -> _ Hab. pose proof Ht as (Ea & Eb' & _). pose proof (exact_bin _ _ _ Ht) as EH. pose proof (exact_bin _ _ _ Eb') as EH2.
      cbn [avlb] in At. destruct At as (Aa & (Ab1 & Ab2 & ? & ?) & ? & ?). cbn [tilt] in HT.
      assert (hh a <> hh (Bin b1 kz b2)) by (destruct HT as [[_ ?]|?]; done).
      rewrite !hh_nd !avlb_nd !hh_nd. split; [split_and!; try done; lia|]. left. lia.
    + intros; lia.
    + intros; lia.
Qed.
Lemma ins_R t ix u h : exact t -> exact u -> avlb t -> avlb u -> h <= hh u + 1 -> hh u <= h + 1 ->
  hh t = h \/ (hh t = S h /\ tilt t) ->
  avlb (fixup u ix t) /\ (hh (fixup u ix t) = S (Nat.max (hh u) h) \/ (hh (fixup u ix t) = S (S (Nat.max (hh u) h)) /\ tilt (fixup u ix t))).
Proof.
  intros Ht Hu At Au H1 H2 H. unfold fixup. destruct (balb u t) eqn:Eb.
  - apply balb_true in Eb. rewrite hh_nd avlb_nd. split; [tauto|]. destruct H as [->|[E HT]]; [by left|]. rewrite E.
    destruct (decide (S h = hh u)); [left; lia|]. right. split; [lia|]. cbn. right. lia.
  - assert (hh t = S h /\ tilt t /\ h = hh u + 1) as (E & HT & Eh).
    { assert (~ (hh u <= hh t + 1 /\ hh t <= hh u + 1)) as Hn by (rewrite -balb_true Eb; done). destruct H as [H|[? ?]]; [lia|]. split_and!; try done. lia. }
    clear H. pattern (rebal u ix t). apply rebal_cases; [done..| | | |].
    + intros; lia.
    + intros; lia.
    + intros a1 kz a2 jy b -> _ Hab. pose proof Ht as (Ea & Eb' & _). pose proof (exact_bin _ _ _ Ht) as EH. pose proof (exact_bin _ _ _ Ea) as EH2.
      cbn [avlb] in At. destruct At as ((Ab1 & Ab2 & ? & ?) & Ab & ? & ?).
      rewrite !hh_nd !avlb_nd !hh_nd. split; [split_and!; try done; lia|]. left. lia.
    + intros a jy b -> _ Hab. pose proof Ht as (Ea & Eb' & _). pose proof (exact_bin _ _ _ Ht) as EH. cbn [avlb] in At. destruct At as (Aa & Ab & ? & ?).
      cbn [tilt] in HT. assert (hh a <> hh b).
      { destruct HT as [[-> ->]|?]; [|done]. exfalso. cbn in *. lia. }
      rewrite !hh_nd !avlb_nd !hh_nd. split; [split_and!; try done; lia|]. left. lia.
Qed.
Lemma climb_ins K : forall t h, exact t -> exactK K -> avlb t -> avlK K h -> hh t = h \/ (hh t = S h /\ tilt t) -> avlb (climb K t).
Proof.
  induction K as [|[ix u|l ix] K IH]; intros t h Ht HK At AK H; [done|..]; cbn [exactK avlK climb] in *; destruct HK as [Hu HK], AK as (Au & H1 & H2 & AK).
  - destruct (ins_L t ix u h) as [A1 A2]; try done. eapply IH; try done. by apply fixup_exact.
  - destruct (ins_R t ix l h) as [A1 A2]; try done. eapply IH; try done. by apply fixup_exact.
Qed.
(** A subtree that may have shrunk by one through a removal: on the left, balance is
    restored (on the right it need not be, see C27). *)
Lemma del_L t ix u h : exact t -> exact u -> avlb t -> avlb u -> h <= hh u + 1 -> hh u <= h + 1 ->
  hh t = h \/ S (hh t) = h ->
  avlb (fixup t ix u) /\ (hh (fixup t ix u) = S (Nat.max h (hh u)) \/ S (hh (fixup t ix u)) = S (Nat.max h (hh u))).
Proof.
  intros Ht Hu At Au H1 H2 H. unfold fixup. destruct (balb t u) eqn:Eb.
  - apply balb_true in Eb. rewrite hh_nd avlb_nd. split; [tauto|]. lia.
  - assert (~ (hh t <= hh u + 1 /\ hh u <= hh t + 1)) as Hn by (rewrite -balb_true Eb; done).
    pattern (rebal t ix u). apply rebal_cases; [done..| | | |].
    + intros; lia.
    + intros; lia.
    + intros a1 kz a2 jy b -> _ Hab. pose proof Hu as (Ea & Eb' & _). pose proof (exact_bin _ _ _ Hu) as EH. pose proof (exact_bin _ _ _ Ea) as EH2.
      cbn [avlb] in Au. destruct Au as ((Ab1 & Ab2 & ? & ?) & Ab & ? & ?).
      rewrite !hh_nd !avlb_nd !hh_nd. split; [split_and!; try done; lia|]. lia.
    + intros a jy b -> _ Hab. pose proof Hu as (Ea & Eb' & _). pose proof (exact_bin _ _ _ Hu) as EH. cbn [avlb] in Au. destruct Au as (Aa & Ab & ? & ?).
      rewrite !hh_nd !avlb_nd !hh_nd. split; [split_and!; try done; lia|]. lia.
Qed.
Definition leftish (K : ctx) : Prop := Forall (fun f => match f with InL _ _ => True | InR _ _ => False end) K.
Lemma climb_del K : forall t h, leftish K -> exact t -> exactK K -> avlb t -> avlK K h -> hh t = h \/ S (hh t) = h -> avlb (climb K t).
Proof.
  induction K as [|[ix u|l ix] K IH]; intros t h HL Ht HK At AK H; [done|..]; apply Forall_cons in HL as [Hf HL]; [|done].
  cbn [exactK avlK climb] in *; destruct HK as [Hu HK], AK as (Au & H1 & H2 & AK).
  destruct (del_L t ix u h) as [A1 A2]; try done. eapply IH; try done. by apply fixup_exact.
Qed.

(** ** Insertion *)
Lemma twp_get_parent_at T K l ix u i r n Q : T = plug K (Bin l ix u) -> i = ix.1 ->
  tree None T ∗ (tree None T -∗ Q (cpar K) r n) ⊢ twp (get_parent i) r n Q.
Proof.
  intros -> ->. iIntros "[HT HQ]". iDestruct (tree_at with "HT") as "[HK HT]". destruct ix as [i x]. cbn [tree fst snd].
  iDestruct "HT" as "(Hi & Hl & Hu)". wget1. iApply "HQ". iApply at_tree. cbn [tree fst snd]. iFrame.
Qed.
Definition avl_ok (T : ptree) : Prop := exact T /\ avlb T.
Lemma avl_insert_run s T x p : rep s T -> avl_ok T -> increasing (ino T) ->
  exists s' T', tree_insert CAVL (PNum x) p s = Ok (bool_decide (x ∈ ino T)) s' /\ rep s' T' /\ ino T' = set_add x (ino T) /\ avl_ok T'.
Proof.
  intros H [Hex Hav] Hinc. cbn [tree_insert]. unfold avl_insert. rewrite (bind_ok (check_number (PNum x)) _ s x s eq_refl).
  rewrite (bind_ok _ _ _ _ _ (rep_empty s T H)). destruct (decide (T = Nil)) as [->|HT].
  { destruct (new_root s (Fin 0) x H) as (i & s' & E & HR). exists s', (leaf_of i (Pay x 0 (Fin 0) Red)). split_and!; try done. unfold avl_ok. cbn. split_and!; done || lia. }
  assert ((match T with Nil => true | _ => false end) = false) as -> by (by destruct T).
  edestruct (rep_run (let! r := insert_value CAVL x (Fin 0) in
     let! p := get_parent r.2 in let! n := get_fuel in avl_up n p;; ret r.1) s T
     (fun w T' => w = bool_decide (x ∈ ino T) /\ ino T' = set_add x (ino T) /\ avl_ok T') H) as (w & s' & T' & E & HR & -> & HQ); [|by exists s', T'].
  rewrite -(found_in x T Hinc).
  iIntros "HT". wbind. iApply (twp_insert_value CAVL x (Fin 0) T); [done|done|]. iFrame "HT". iIntros (w j new) "%Hw HT".
  pose proof (zfind_plug x T) as HP. pose proof (insert_size x T Hinc) as HSz.
  pose proof (zinsert_ino CAVL x new (Pay x 0 (Fin 0) Red) T eq_refl HT Hinc) as HI.
  unfold found in *. 
  assert (exists K t, zinsert CAVL x new (Pay x 0 (Fin 0) Red) T = plug K t /\ t <> Nil /\ rp t = Some j /\ exact t /\ exactK K /\ avlb (climb K t) /\
     w = (match (zfind x T).2 with Nil => false | _ => true end)) as (K & t & EZ & Htn & Ej & Et & EK & HA & ->).
  { unfold zinsert. destruct (zfind x T) as [K t] eqn:EZ. cbn [fst snd] in *. rewrite -HP in Hex Hav.
    destruct (exact_plug _ _ Hex) as [Ht HK]. destruct (avl_plug _ _ Hex Hav) as [At AK]. destruct t as [|l ix u].
    - destruct Hw as [-> ->]. destruct K as [|f K]; [by subst|].
      exists (reframe CAVL (leaf_of new (Pay x 0 (Fin 0) Red)) f :: K), (leaf_of new (Pay x 0 (Fin 0) Red)).
      split_and!; try done.
      + cbn [plug]. by rewrite fill_reframe.
      + by destruct f.
      + rewrite climb_reframe. eapply (climb_ins (f :: K) _ 0); try done; [cbn; lia|]. right. cbn. tauto.
    - destruct Hw as [-> Hw]. exists K, (Bin l ix u). split_and!; try done; [by destruct K|]. eapply climb_ins; try done. by left. }
  rewrite EZ. assert (increasing (zl K ++ ino t ++ zr K)) as Hi2. { rewrite -ino_plug -EZ HI. by apply set_add_inc. }
  destruct t as [|l ix u]; [done|]. cbn in Ej. injection Ej as <-. wbind.
  iApply (twp_get_parent_at (plug K (Bin l ix u)) K l ix u); [done|done|]. iFrame "HT". iIntros "HT". iDestruct (tree_at with "HT") as "[HK HT]".
  wbind. iApply (twp_get_fuel (ctxp K (rp (Bin l ix u))) (length K)); [apply plug_atleast|]. iFrame "HK". iIntros (fu Hfu) "HK".
  wbind. iApply (twp_avl_up fu K (Bin l ix u)); [lia| |done|done|done|].
  { rewrite -rp_plug -EZ. by rewrite rp_zinsert. }
  iFrame "HK HT". iIntros "HT". wret. cbn [fst].
  wpost (climb K (Bin l ix u)); [done| | |done| |done].
  - rewrite climb_ino // -ino_plug -EZ HI //.
  - split; [by apply climb_exact|done].
  - rewrite -(ino_length (climb K _)) climb_ino // -ino_plug -EZ HI HSz. destruct (zfind x T).2; lia.
Qed.

(** ** Removal *)
Lemma exactK_app K K' : exactK (K ++ K') <-> exactK K /\ exactK K'.
Proof. induction K as [|[ix u|l ix] K IH]; cbn [app exactK]; tauto. Qed.
Lemma exact_zmin u : exact u -> exactK (zmin u).1 /\ exact (zmin u).2.
Proof. intros H. rewrite -(zmin_plug u) in H. apply exact_plug in H. tauto. Qed.
Lemma exact_zmax u : exact u -> exactK (zmax u).1 /\ exact (zmax u).2.
Proof. intros H. rewrite -(zmax_plug u) in H. apply exact_plug in H. tauto. Qed.
Lemma avlb_plug K t : avlb (plug K t) -> avlb t.
Proof. revert t. induction K as [|[ix u|l ix] K IH]; intros t H; [done|..]; apply IH in H; cbn in H; tauto. Qed.
Lemma small_leaf u : exact u -> hh u <= 1 -> u = Nil \/ leafb u = true.
Proof.
  destruct u as [|l ix u]; [by left|]. intros (Hl & Hu & E) H. cbn in H. rewrite E in H. right.
  destruct l; [|cbn in H; lia]. destruct u; [done|cbn in H; lia].
Qed.
(** In a balanced tree, the subtree of the replacement has at most two nodes. *)
Definition short (t : ptree) : Prop :=
  match t with
  | Bin Nil _ u => u = Nil \/ leafb u = true
  | Bin l _ Nil => leafb l = true
  | _ => False
  end.
Lemma short_chain t : short t -> exact (chain CAVL t) /\ hh t = hh t.
Proof.
  intros H. split; [|done]. destruct t as [|l ix u]; [done|]. destruct l as [|l1 jy l2].
  - destruct u as [|u1 jy u2]; [done|]. destruct H as [?|H]; [done|]. rewrite chain_u H (chain_leaf _ _ H). by apply exact_nd.
  - destruct u; [|done]. change (leafb (Bin l1 jy l2) = true) in H. rewrite chain_l.
    rewrite H (chain_leaf _ _ H). by apply exact_nd.
Qed.
Lemma short_min u : exact u -> avlb u -> u <> Nil -> short (zmin u).2.
Proof.
  intros He Ha Hn. destruct (zmin_shape u Hn) as (ix & u' & E). pose proof (exact_zmin u He) as [_ H1].
  rewrite -(zmin_plug u) in Ha. apply avlb_plug in Ha. rewrite E in H1 Ha |- *. cbn in *. apply small_leaf; [tauto|lia].
Qed.
Lemma short_max u : exact u -> avlb u -> u <> Nil -> short (zmax u).2.
Proof.
  intros He Ha Hn. destruct (zmax_shape u Hn) as (l & ix & E). pose proof (exact_zmax u He) as [_ H1].
  rewrite -(zmax_plug u) in Ha. apply avlb_plug in Ha. rewrite E in H1 Ha |- *. cbn in *.
  destruct (small_leaf l) as [->|H]; [tauto|lia|by left|]. by destruct l.
Qed.
Lemma zrep_exact K l ix u : exact (plug K (Bin l ix u)) -> avlb (plug K (Bin l ix u)) ->
  let z := zrep CAVL (K, Bin l ix u) in exactK z.1 /\ short z.2.
Proof.
  intros He Ha. pose proof (exact_plug _ _ He) as [(El & Eu & _) EK]. apply avlb_plug in Ha as (Al & Au & _). cbn zeta. unfold zrep.
  destruct u as [|u1 jy u2].
  - destruct l as [|l1 jy l2]; [split; [done|by left]|].
    destruct (zmax_shape (Bin l1 jy l2)) as (l3 & ky & E); [done|]. cbn zeta. rewrite E. cbn [fst snd]. rewrite -E. split; [|by apply short_max].
    apply exactK_app. split; [by apply exact_zmax|done].
  - destruct (zmin_shape (Bin u1 jy u2)) as (ky & l3 & E); [done|]. cbn zeta. rewrite E. cbn [fst snd]. rewrite -E. split; [|by apply short_min].
    apply exactK_app. split; [by apply exact_zmin|done].
Qed.
Lemma short_only_right {A} ix (u : bin A) : (u = Nil \/ leafb u = true) -> only_right (Bin Nil ix u) /\ only_right u.
Proof. intros [->|H]; [done|]. destruct u as [|[] ? []]; done. Qed.
Lemma avl_replaceable l ix u : exact (Bin l ix u) -> avlb (Bin l ix u) -> replaceable (Bin l ix u).
Proof.
  intros (El & Eu & _) (Al & Au & _). destruct u as [|u1 jy u2].
  - cbn [replaceable]. destruct l as [|l1 jy l2]; [done|]. pose proof (short_max _ El Al) as Hs. specialize (Hs ltac:(done)).
    destruct (zmax_shape (Bin l1 jy l2)) as (l3 & ky & E); [done|]. rewrite (below_rightmost_zmax _ _ _ E). rewrite E in Hs.
    destruct l3 as [|l4 ? u4]; [done|]. cbn in Hs. destruct l4, u4; done.
  - cbn [replaceable]. pose proof (short_min _ Eu Au) as Hs. specialize (Hs ltac:(done)).
    destruct (zmin_shape (Bin u1 jy u2)) as (ky & l3 & E); [done|]. rewrite (below_leftmost_zmin _ _ _ E). rewrite E in Hs.
    destruct Hs as [->|Hs]; [done|]. destruct l3 as [|[] ? []]; done.
Qed.
(** The tree after a removal of a value that is there. *)
Definition avl_del (q : ctx * ptree) : ptree := climb (zrep CAVL q).1 (chain CAVL (zrep CAVL q).2).
Lemma twp_avl_remove x T n Q : T <> Nil -> avl_ok T -> increasing (ino T) -> x ∈ ino T ->
  ((zfind x T).1 = [] -> leafb (zfind x T).2 = false) ->
  tree None T ∗ (tree None (avl_del (zfind x T)) -∗ Q false (rp (avl_del (zfind x T))) (n + -1)%Z) ⊢
  twp (let! length_before := get_len in
    let! r := remove_value CAVL x in
    let! length_after := get_len in
    if Z.eqb length_after length_before then ret (fst r)
    else
      let! n := get_fuel in
      avl_up n (snd r) ;;
      ret (fst r)) (rp T) n Q.
Proof.
  intros HT [Hex Hav] Hinc Hx HL. iIntros "[HT HQ]". wbind. iApply twp_get_len. wbind.
  iApply (twp_remove_value CAVL x T); [done|done|done|]. iFrame "HT".
  apply zfind_in in Hx; [|done]. pose proof (zfind_plug x T) as HP.
  destruct (zfind x T) as [K t] eqn:EZ. cbn [fst snd] in *. destruct t as [|l ix u]; [done|]. iIntros "HT". cbn [fst snd].
  wbind. iApply twp_get_len. destruct (Z.eqb_spec (n + -1) n) as [?|_]; [lia|].
  assert (~ (K = [] /\ l = Nil /\ u = Nil)) as HL2. { intros (-> & -> & ->). by specialize (HL eq_refl). }
  pose proof (zremove_ino CAVL K l ix u HL2) as HI. pose proof (rp_zremove CAVL K l ix u HL2) as HRp. cbn zeta in HI.
  rewrite -HP in Hex Hav. pose proof (zrep_exact K l ix u Hex Hav) as [HK HS]. 
  assert (zl K ++ rest CAVL l u ++ zr K = set_del x (ino T)) as HD.
  { apply (removed_exact CAVL x T); [done|unfold removed; by rewrite EZ|]. rewrite EZ. cbn [snd]. apply avl_replaceable; [by eapply exact_plug|by eapply avlb_plug]. }
  rewrite HD in HI.
  assert (forall f K' t', zrep CAVL (K, Bin l ix u) = (f :: K', t') -> exists f' t1,
    plug (zremove CAVL (K, Bin l ix u)).1 (zremove CAVL (K, Bin l ix u)).2 = plug (f' :: K') t1 /\
    rp (zremove CAVL (K, Bin l ix u)).2 = cpar (f' :: K') /\ exact t1 /\ exactK (f' :: K') /\
    climb (f' :: K') t1 = avl_del (K, Bin l ix u)) as HZ.
  { intros f K' t' E. unfold zremove, avl_del. rewrite E in HK HS |- *. cbn [fst snd] in *. unfold putdel. destruct (leafb t') eqn:El.
    - exists (reframe CAVL Nil f), Nil. rewrite (chain_leaf _ _ El). cbn [plug]. rewrite fill_reframe climb_reframe. split_and!; try done; by destruct f.
    - exists f, (chain CAVL t'). cbn [plug]. split_and!; try done; [by destruct f|]. by apply short_chain. }
  destruct (zrep CAVL (K, Bin l ix u)) as [[|f K'] t'] eqn:Er.
  { exfalso. revert Er. unfold zrep. cbn zeta. destruct u as [|u1 jy u2]; [destruct l as [|l1 jy l2]|].
    - intros [= -> _]. by apply HL2.
    - destruct (zmax_shape (Bin l1 jy l2)) as (l3 & ky & E); [done|]. rewrite E. intros E'%(f_equal fst). cbn [fst] in E'. by apply app_nil in E' as [_ ?].
    - destruct (zmin_shape (Bin u1 jy u2)) as (ky & l3 & E); [done|]. rewrite E. intros E'%(f_equal fst). cbn [fst] in E'. by apply app_nil in E' as [_ ?]. }
  destruct (HZ f K' t' eq_refl) as (f' & t1 & E1 & E2 & E3 & E4 & E5). rewrite E1 E2 -E5 in HI HRp |- *.
  iDestruct (tree_at with "HT") as "[HK HT]".
  wbind. iApply (twp_get_fuel (ctxp (f' :: K') (rp t1)) (length (f' :: K'))); [apply plug_atleast|]. iFrame "HK". iIntros (fu Hfu) "HK".
  wbind. iApply (twp_avl_up fu (f' :: K') t1); [lia| |done|done| |].
  { rewrite -rp_plug HRp -HP rp_plug. done. }
  { rewrite -ino_plug HI. by apply set_del_inc. }
  iFrame "HK HT". iIntros "HT". wret. by iApply "HQ".
Qed.

Lemma rest_size x T : x ∈ ino T -> increasing (ino T) -> S (length (set_del x (ino T))) = bsize T.
Proof.
  intros Hx Hi. rewrite -ino_length. pose proof (inc_NoDup _ Hi) as Hn.
  apply elem_of_list_split in Hx as (l1 & l2 & E). rewrite E in Hi Hn |- *. apply inc_mid in Hi as (_ & _ & H1 & H2).
  rewrite set_del_mid; [|by apply lt_notin|by apply gt_notin]. rewrite !app_length /=. lia.
Qed.
Lemma head_leftish x T : increasing (ino T) -> head (ino T) = Some x ->
  exists ix u, leftish (zfind x T).1 /\ (zfind x T).2 = Bin Nil ix u.
Proof.
  intros Hi Hh. assert (x ∈ ino T) as Hx by (by (apply head_Some in Hh as [w ->]; left)). apply zfind_in in Hx; [|done].
  pose proof (zfind_plug x T) as HP. pose proof (zfind_val x T) as HV.
  destruct (zfind x T) as [K t]. cbn [fst snd] in *. destruct t as [|l ix u]; [done|]. specialize (HV l ix u eq_refl).
  assert (ino T = (zl K ++ ino l) ++ x :: (ino u ++ zr K)) as HT.
  { rewrite -HP ino_plug. cbn [ino]. rewrite HV -!app_assoc. done. }
  assert (zl K ++ ino l = []) as E0.
  { apply inc_NoDup in Hi. rewrite HT in Hi Hh. destruct (zl K ++ ino l) as [|y w]; [done|]. cbn in Hh. injection Hh as ->.
    cbn in Hi. apply NoDup_cons in Hi as [Hi _]. set_solver. }
  apply app_nil in E0 as [E1 E2%ino_nil]. subst l. exists ix, u. split; [|done]. clear -E1.
  induction K as [|[jy w|w jy] K IH]; [constructor|..]; cbn in E1; [constructor; [done|by apply IH]|].
  exfalso. destruct (zl K), (ino w); done.
Qed.
Lemma avl_del_min x T : avl_ok T -> increasing (ino T) -> head (ino T) = Some x -> ((zfind x T).1 = [] -> leafb (zfind x T).2 = false) -> avlb (avl_del (zfind x T)).
Proof.
  intros [He Ha] Hi Hh HL. destruct (head_leftish x T Hi Hh) as (ix & u & HK & Et). pose proof (zfind_plug x T) as HP.
  destruct (zfind x T) as [K t]. cbn [fst snd] in *. subst t. rewrite -HP in He Ha.
  pose proof (exact_plug _ _ He) as [(_ & Eu & Eh) EK]. pose proof (avl_plug _ _ He Ha) as [(_ & Au & _ & H1) AK].
  cbn [hh] in AK, Eh. rewrite Eh in AK. cbn in H1.
  destruct (small_leaf u Eu) as [->|Hu]; [lia|..]; unfold avl_del.
  - cbn [zrep fst snd]. rewrite (chain_leaf _ (Bin Nil ix Nil)) //. eapply climb_del; try done. by right.
  - destruct u as [|[] jy []]; try done. cbn [zrep zmin fst snd app]. rewrite (chain_leaf _ (Bin Nil jy Nil)) //.
    cbn [climb]. eapply climb_del; try done.
    right. cbn in Eu |- *. destruct Eu as (_ & _ & ->). done.
Qed.
Lemma avl_remove_run s T x : rep s T -> avl_ok T -> increasing (ino T) ->
  exists s' T', tree_remove CAVL (PNum x) s = Ok (bool_decide (x ∉ ino T)) s' /\ rep s' T' /\ ino T' = set_del x (ino T) /\
    exact T' /\ (head (ino T) = Some x \/ x ∉ ino T -> avlb T').
Proof.
  intros H HA Hinc. cbn [tree_remove]. unfold avl_remove.
  edestruct (remove_guard s T x (fun x => let! length_before := get_len in
    let! r := remove_value CAVL x in
    let! length_after := get_len in
    if Z.eqb length_after length_before then ret (fst r)
    else
      let! n := get_fuel in
      avl_up n (snd r) ;;
      ret (fst r)) (fun w T' => w = bool_decide (x ∉ ino T) /\ ino T' = set_del x (ino T) /\
    exact T' /\ (head (ino T) = Some x \/ x ∉ ino T -> avlb T')) H) as (w & s' & T' & E & HR & -> & HQ); [| | |by exists s', T'].
  - intros ->. done.
  - intros l ix u -> Hl ->. destruct l, u; try done. cbn [ino app]. split_and!; try done.
    + symmetry. apply bool_decide_eq_false. set_solver.
    + unfold set_del. rewrite filter_cons_False; [|tauto]. done.
  - intros HT Hl. destruct (decide (x ∈ ino T)) as [Hx|Hx].
    + assert ((zfind x T).1 = [] -> leafb (zfind x T).2 = false) as HL.
      { intros HK. pose proof (zfind_plug x T) as HP. pose proof (zfind_val x T) as HV.
        destruct (zfind x T) as [K t]. cbn [fst snd] in *. subst K. cbn in HP. subst t.
        destruct (leafb T) eqn:El; [|done]. exfalso. destruct T as [|l ix u]; [done|]. by eapply Hl; [..|symmetry; apply (HV l ix u)]. }
      assert (exact (avl_del (zfind x T)) /\ ino (avl_del (zfind x T)) = set_del x (ino T)) as [HE HI].
      { destruct HA as [He Ha]. apply zfind_in in Hx; [|done]. pose proof (zfind_plug x T) as HP.
        destruct (zfind x T) as [K t] eqn:EZ. cbn [fst snd] in *. destruct t as [|l ix u]; [done|]. rewrite -HP in He Ha.
        pose proof (zrep_exact K l ix u He Ha) as [HK HS]. apply short_chain in HS as [HS _].
        split; [by apply climb_exact|]. unfold avl_del. rewrite climb_ino //.
        assert (~ (K = [] /\ l = Nil /\ u = Nil)) as HL2. { intros (-> & -> & ->). by specialize (HL eq_refl). }
        rewrite -(ino_zremove CAVL (K, Bin l ix u)); [|by right|].
        - rewrite (zremove_ino CAVL K l ix u HL2). apply (removed_exact CAVL x T); [done|unfold removed; by rewrite EZ|].
          rewrite EZ. cbn [snd]. apply avl_replaceable; [by eapply exact_plug|by eapply avlb_plug].
        - unfold zrep. cbn zeta. destruct u as [|u1 jy u2]; [destruct l as [|l1 jy l2]|].
          + intros HK0. by apply HL2.
          + destruct (zmax_shape (Bin l1 jy l2)) as (l3 & ky & E); [done|]. rewrite E. cbn [fst]. intros E'. by apply app_nil in E' as [_ ?].
          + destruct (zmin_shape (Bin u1 jy u2)) as (ky & l3 & E); [done|]. rewrite E. cbn [fst]. intros E'. by apply app_nil in E' as [_ ?]. }
      iIntros "HT". iApply (twp_avl_remove x T); [done..|]. iFrame "HT". iIntros "HT". wpost (avl_del (zfind x T)); try done.
      * symmetry. apply bool_decide_eq_false. tauto.
      * intros [Hh|?]; [|done]. by apply avl_del_min.
      * rewrite -(rest_size x T) // -HI ino_length. lia.
    + iIntros "HT". wbind. iApply twp_get_len. wbind. pose proof (zfind_in x T Hinc) as HZ.
      destruct ((zfind x T).2) as [|? ? ?] eqn:EZ; [|exfalso; apply Hx, HZ; done].
      iApply (twp_remove_value CAVL x T); [done|done| |].
      { intros HK. by rewrite EZ. }
      iFrame "HT". rewrite EZ. iIntros (j) "%Hj HT". wbind. iApply twp_get_len. rewrite Z.eqb_refl. wret.
      wpost T; try done.
      * symmetry. by apply bool_decide_eq_true.
      * by rewrite set_del_notin.
      * apply HA.
      * intros _. apply HA.
Qed.

(** ** Histories *)
Lemma avl_ins_step s T o : rep s T -> avl_ok T -> increasing (ino T) -> (forall v, o <> TRemove v) -> changes CAVL o = true -> o <> TClear ->
  exists r s' T', call CAVL o s = Some (r, s') /\ rep s' T' /\ avl_ok T' /\ answer CAVL o (ino T) r /\ ino T' = next CAVL o (ino T).
Proof.
  intros H HA Hinc Hr Hc Hcl. destruct o; try done; [|by edestruct Hr]. apply insert_step; [done| |done]. intros x -> _. by apply avl_insert_run.
Qed.
Lemma avl_min_step s T o : rep s T -> avl_ok T -> increasing (ino T) -> removes_minimum o (ino T) -> changes CAVL o = true -> o <> TClear ->
  exists r s' T', call CAVL o s = Some (r, s') /\ rep s' T' /\ avl_ok T' /\ answer CAVL o (ino T) r /\ ino T' = next CAVL o (ino T).
Proof.
  intros H HA Hinc Hm Hc Hcl. destruct o; try (by apply avl_ins_step). apply remove_step; [done| |done]. intros x ->.
  destruct (avl_remove_run s T x H HA Hinc) as (s' & T' & E & HR & HI & HE & HB). exists s', T'. split_and!; try done. split; [done|]. apply HB. by apply Hm.
Qed.
Lemma avl_any_step s T o : rep s T -> avl_ok T -> increasing (ino T) ->
  exists r s' T', call CAVL o s = Some (r, s') /\ rep s' T' /\ exact T' /\ answer CAVL o (ino T) r /\ ino T' = next CAVL o (ino T).
Proof.
  intros H HA Hinc. assert (o = TClear \/ o <> TClear) as [->|Hcl] by (destruct o; (by left) || (by right)).
  { destruct (clear_step CAVL s T H) as (s' & E & HR). exists (OUnit false), s', Nil. by split_and!. }
  destruct (changes CAVL o) eqn:Ec.
  - assert ((forall v, o <> TRemove v) \/ exists v, o = TRemove v) as [Hr|[v ->]] by (destruct o; eauto).
    { destruct (avl_ins_step s T o H HA Hinc Hr Ec Hcl) as (r & s' & T' & E & HR & [HE _] & ?). by exists r, s', T'. }
    apply remove_step; [done| |by apply HA]. intros x ->.
    destruct (avl_remove_run s T x H HA Hinc) as (s' & T' & E & HR & HI & HE & HB). by exists s', T'.
  - destruct (read_step CAVL o s T Ec H (fun _ => Hinc)) as (r & s' & E & HR & HB & HN). exists r, s', T. split_and!; try done. apply HA.
Qed.
Lemma next_inc c o l : increasing l -> increasing (next c o l).
Proof. apply (set_after_inc c [o]). Qed.
Lemma avl_balanced_run os : forall s T, rep s T -> exact T -> increasing (ino T) ->
  (forall pre post rs s' t, os = pre ++ post -> post <> [] -> calls CAVL pre s = Some (rs, s') -> shape s' = Some t -> height_balanced t) ->
  exists rs s' T', calls CAVL os s = Some (rs, s') /\ rep s' T' /\ exact T' /\ answers CAVL os (ino T) rs /\ ino T' = set_after CAVL os (ino T).
Proof.
  induction os as [|o os IH]; intros s T H HE Hinc HB; [by exists [], s, T|].
  assert (avl_ok T) as HA. { split; [done|]. apply avlb_balanced; [done|]. eapply (HB [] (o :: os)); try done. by apply rep_shape. }
  destruct (avl_any_step s T o H HA Hinc) as (r & s1 & T1 & E & HR & HE1 & HA1 & HN).
  destruct (IH s1 T1 HR HE1) as (rs & s2 & T2 & E2 & HR2 & HE2 & HA2 & HN2).
  - rewrite HN. by apply next_inc.
  - intros pre post rs s' t -> Hp Ec Ht. eapply (HB (o :: pre) post); try done. cbn [calls]. by rewrite E Ec.
  - rewrite HN in HA2, HN2. exists (r :: rs), s2, T2. cbn [calls]. rewrite E E2. by split_and!.
Qed.
Lemma exact_heights T : exact T -> heights_exact (bin_map snd T).
Proof.
  assert (forall t : ptree, nlevels (bin_map snd t) = nlevels t) as HN.
  { clear. induction t as [|l IHl ix u IHu]; [done|]. cbn -[Nat.max]. by rewrite IHl IHu. }
  induction T as [|l IHl ix u IHu]; [done|]. cbn -[Nat.max]. intros (Hl & Hu & ->). rewrite !HN (exact_hh l Hl) (exact_hh u Hu).
  split_and!; [by apply IHl|by apply IHu|done].
Qed.
