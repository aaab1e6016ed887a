(** * RedBlackTree.remove on a valid tree: every outcome, continued *)
From Coq Require Import Sorted.
From iris.proofmode Require Import proofmode.
From Verif Require Import Base NumOrd TreeModel TreeSpec BstModel BalModel BstSpec RbSpec BstSep BstRules BstZip BstDel BinThm BstPure BstThm AvlThm SplayThm RbThm RbDel RbDel2 RbDel3 RbDel4.
Local Open Scope py_scope.

Lemma not_red_spare l ix u : ~ red_spare (bin_map snd (Bin l ix u)) ->
  if leafb (Bin l ix u) then col ix = Black else colr (zmin u).2 = Black /\ colr (zmax l).2 = Black.
Proof.
  intros H. destruct (leafb (Bin l ix u)) eqn:E.
  - destruct l, u; try done. cbn in H. destruct (col ix); [done|]. by destruct H.
  - assert (~ (option_map p_color (leftmost (bin_map snd u)) = Some Red \/ option_map p_color (rightmost (bin_map snd l)) = Some Red)) as H'.
    { destruct l, u; cbn [bin_map red_spare leafb] in *; try done; tauto. }
    rewrite leftmost_zmin rightmost_zmax in H'. destruct ((zmin u).2) as [|u1 [j1 y1] u2], ((zmax l).2) as [|u3 [k1 z1] u4]; cbn in H' |- *; split; try done.
    all: try (destruct (p_color y1) eqn:E1; [done|exfalso; apply H'; by (left; rewrite ?E1)]).
    all: destruct (p_color z1) eqn:E2; [done|exfalso; apply H'; by (right; rewrite ?E2)].
Qed.
Lemma paint_ino_plug K t : ino (paint Black (plug K t)) = ino (plug K t).
Proof. by rewrite ino_paint. Qed.
Lemma rp_paint k t : rp (paint k t) = rp t.
Proof. by destruct t as [|? [] ?]. Qed.

Lemma colr_paint t : colr (paint Black t) = Black.
Proof. by destruct t as [|? [] ?]. Qed.
Lemma rp_plug_cons f K t t' : rp (plug (f :: K) t) = rp (plug (f :: K) t').
Proof. cbn [plug]. rewrite !rp_plug. by destruct f. Qed.

Lemma rb_remove_outcome s T x : rep s T -> increasing (ino T) -> rbok T -> x ∈ ino T ->
  ~ red_spare (node_at x (bin_map snd T)) -> ~ is_leaf_tree (bin_map snd T) ->
  (exists s' T', tree_remove CRB (PNum x) s = Ok false s' /\ rep s' T' /\ colr T' = Black /\ ino T' = set_del x (ino T) /\ (rbok T' <-> removable x (bin_map snd T))) \/
  (~ removable x (bin_map snd T) /\ ((root_color (node_at x (bin_map snd T)) = Black /\ exists s', tree_remove CRB (PNum x) s = Exc AttributeError s') \/
     (root_color (node_at x (bin_map snd T)) = Red /\ exists s', tree_remove CRB (PNum x) s = Exc ValueError s' /\ rep s' T))).
Proof.
  intros H Hinc [HB [N HN]] Hx Hsp Hlf. cbn [tree_remove].
  set (ok := removable x (bin_map snd T)).
  set (Q := fun (w : bool) T' => w = false /\ colr T' = Black /\ ino T' = set_del x (ino T) /\ (rbok T' <-> ok)).
  set (P := fun e T' r n => ~ ok /\ ((root_color (node_at x (bin_map snd T)) = Black /\ e = AttributeError) \/
    (root_color (node_at x (bin_map snd T)) = Red /\ e = ValueError /\ T' = T /\ r = rp T /\ n = Z.of_nat (bsize T)))).
  destruct (rep_crun (rb_remove (PNum x)) s T Q P H) as [(a & s' & T' & E & HR & -> & HC & HI & HK)|(e & s' & T' & h & E & [Hok HE] & Hs & HT)].
  2:{ left. by exists s', T'. }
  2:{ right. split; [done|]. destruct HE as [[Hc ->]|(Hc & -> & -> & Hr & Hn)]; [left|right]; (split; [done|]); exists s'; [done|]. split; [done|]. exists h. by split_and!. }
  iIntros "HT". unfold rb_remove, remove_with.
  assert (T <> Nil) as HTn by (intros ->; set_solver).
  (* the guard *)
  cbind. iApply twp_get_root. destruct T as [|l0 [i0 x0] u0] eqn:ET; [done|]. cbn [rp fst].
  iDestruct "HT" as "(Hi & Hl & Hu)". cbn [fst snd]. cbind. iApply (twp_node_is_leaf i0 x0 l0 u0). iFrame "Hi". iIntros "Hi".
  assert (leafb (Bin l0 (i0, x0) u0) = false) as ->. { destruct (leafb _) eqn:E; [|done]. by apply leafb_spec in E. }
  cget. cbn [andb].
  iAssert (tree None T) with "[Hi Hl Hu]" as "HT"; [rewrite ET; cbn [tree fst snd]; iFrame|].
  rewrite -ET in H Hinc HB HN Hx Hsp Hlf ok Q P HTn |- *. replace (Some i0) with (rp T) by (by rewrite ET). clear ET l0 i0 x0 u0.
  (* the search *)
  cbind. iApply (twp_search_root x T); [done|done|]. iFrame "HT". iIntros (j) "%Hj HT".
  destruct (zlast_node x T HTn) as (l & [j' y] & u & Ez & Hb). rewrite Ez in Hj. injection Hj as ->. cbn [snd] in Hb.
  assert (T = plug (zlast (zfind x T)).1 (Bin l (j, y) u)) as HTz by (by rewrite -Ez zlast_plug zfind_plug).
  cbind. iApply (twp_get_data_at T (zlast (zfind x T)).1 l (j, y) u); [done|done|]. iFrame "HT". iIntros "HT". cbn [snd]. rewrite Hb.
  assert (found x T = true) as Ef by (rewrite (found_in _ _ Hinc); by apply bool_decide_eq_true_2). rewrite Ef. cbn [negb].
  clear Hb HTz. pose proof (zfind_plug x T) as HP. pose proof (zfind_val x T) as HV. pose proof Hinc as Hinc'. unfold found in Ef.
  pose proof (leaf_helped_zfind x T true) as HLH.
  assert (ok <-> match (zfind x T).2 with Nil => True | Bin Nil _ Nil => leaf_helped true x (bin_map snd T) | Bin _ iy u' => col iy = Black /\ leftmost_helped (bin_map snd u') end) as Hok.
  { unfold ok, removable. rewrite node_at_zfind in Hsp |- *. destruct (zfind x T).2 as [|l' iy u']; [cbn; tauto|]. destruct l', u'; cbn [bin_map] in *; tauto. }
  assert (root_color (node_at x (bin_map snd T)) = colr (zfind x T).2) as Hrc by (by rewrite node_at_zfind colr_root).
  rewrite node_at_zfind in Hsp.
  destruct (zfind x T) as [K t]. cbn [fst snd] in *. destruct t as [|l' [i x'] u']; [done|]. rewrite zlast_bin in Ez. cbn in Ez. injection Ez as -> -> -> ->.
  specialize (HV _ _ _ eq_refl). cbn [snd] in HV. apply not_red_spare in Hsp. cbn [colr snd] in Hrc.
  rewrite -HP ino_plug in Hinc'. cbn [ino snd] in Hinc'. rewrite -app_assoc /= app_assoc in Hinc'.
  assert (ino T = (zl K ++ ino l) ++ p_val y :: ino u ++ zr K) as HIT. { rewrite -HP ino_plug. cbn [ino snd]. by rewrite -!app_assoc. }
  assert (set_del x (ino T) = (zl K ++ ino l) ++ ino u ++ zr K) as HSD.
  { rewrite HIT -HV. apply inc_NoDup in Hinc'. apply NoDup_app in Hinc' as (_ & H1 & [H2 _]%NoDup_cons). apply set_del_mid; [|done].
    intros Hx'. apply (H1 _ Hx'). left. }
  assert (increasing ((zl K ++ ino l) ++ ino u ++ zr K)) as Hinc2. { rewrite -HSD. by apply set_del_inc. }
  rewrite -HP in HN HB. pose proof (rb_plug _ _ _ HN) as (n & Hn & HK & Htop & ->).
  assert (bsize T = S (length ((zl K ++ ino l) ++ ino u ++ zr K))) as Hsz.
  { rewrite -ino_length HIT !app_length. cbn [length]. rewrite !app_length. lia. }
  assert (forall T' r, r = rp T' -> colr T' = Black -> ino T' = (zl K ++ ino l) ++ ino u ++ zr K -> (rbok T' <-> ok) ->
    tree None T' ⊢ twp (catch (add_len (-1) ;; ret false)) r (Z.of_nat (bsize T)) (cpost Q P)) as Hend.
  { intros T' r Hr HC Hi Hrb. iIntros "HT". cbind. iApply twp_add_len. iApply twp_catch. wret. cbn [cpost]. wpost T'; [unfold Q; by rewrite HSD|done| |done]. rewrite Hsz -(ino_length T') Hi. lia. }
  assert (forall r, col (j, y) = Black -> ~ ok -> ⊢ cpost Q P (inl AttributeError) r (Z.of_nat (bsize T))) as Hfail.
  { intros r Hc Hno. iIntros. cbn [cpost]. iExists Nil. iSplit; [|done]. iPureIntro. split; [done|]. left. split; [by rewrite Hrc|done]. }
  iEval (rewrite -HP) in "HT". iDestruct (tree_at with "HT") as "[HK (Hj & Hl & Hu)]". cbn [fst snd].
  destruct (leafb (Bin l (j, y) u)) eqn:El.
  - (* a black leaf *)
    destruct l, u; try done. cbn [rp]. iClear "Hl Hu". cbind. unfold rb_find_replacement at 1. wbind. iApply (twp_node_is_leaf j y Nil Nil). iFrame "Hj". iIntros "Hj". cbn [leafb]. wret.
    cbind. iApply twp_get_color. iFrame "Hj". iIntros "Hj". cbind. wret. cbn [snd] in Hsp. rewrite Hsp.
    cbind. iApply (twp_get_fuel emp%I 0); [apply atleast_0|]. iSplitR; [done|]. iIntros (fu Hfu) "_".
    destruct K as [|f K]; [exfalso; cbn in HP; rewrite -HP in Hlf; by apply Hlf|].
    iApply twp_ccbind. cget. cbind. iApply (twp_transplant CRB (leaf_of j y) f K (S fu)); [done|cbn; lia|].
    cbn [leaf_of tree rp fst snd cpar]. iFrame "HK Hj". iSplitR; [done|]. iIntros "HT". cbn [deref]. cbind. wret.
    pose proof (leaf_black _ _ _ HN Hsp) as HK1. specialize (HLH f K (j, y) eq_refl).
    unfold putdel. cbn [leafb leaf_of].
    destruct f as [[pi px] S0|S0 [pi px]]; cbn [fillc node refresh fst snd fnode helped sib] in *; iDestruct (tree_at with "HT") as "[HK (Hp & Hl & Hu)]"; cbn [fst snd rp]; cget.
    + cbind. wret. iAssert (tree None (plug K (Bin Nil (pi, px) S0))) with "[HK Hp Hl Hu]" as "HT"; [iApply at_tree; cbn [tree fst snd rp]; iFrame|].
      assert (ino (plug K (Bin Nil (pi, px) S0)) = (zl (InL (pi, px) S0 :: K) ++ []) ++ [] ++ zr (InL (pi, px) S0 :: K)) as HI1.
      { rewrite ino_plug. cbn [ino app zl zr snd]. by rewrite app_nil_r. }
      iApply (twp_handleL K pi px S0); [by rewrite HI1|by rewrite -HP /= !rp_plug|]. iFrame "HT".
      pose proof (outL_valid K (pi, px) S0 HK1) as HV1. destruct (outL K (pi, px) S0) as [T'|] eqn:Eo.
      * iIntros "HT". iApply (Hend (paint Black T') with "HT"); [by rewrite rp_paint|apply colr_paint|rewrite ino_paint (outL_ino _ _ _ _ Eo) HI1 //|]. rewrite Hok HLH HV1. naive_solver.
      * iIntros (r'). iApply Hfail; [done|]. rewrite Hok HLH. naive_solver.
    + assert (rbt S0 1) as HS1 by (by destruct HK1).
      assert (S0 <> Nil) as HS0 by (by intros ->).
      assert (exists si, rp S0 = Some si) as [si Esi]. { destruct S0 as [|s1 [si sx] s2]; [done|]. by exists si. }
      rewrite Esi. cget. rewrite -Esi.
      iAssert (tree None (plug K (Bin S0 (pi, px) Nil))) with "[HK Hp Hl Hu]" as "HT"; [iApply at_tree; cbn [tree fst snd rp]; iFrame|].
      assert (ino (plug K (Bin S0 (pi, px) Nil)) = (zl (InR S0 (pi, px) :: K) ++ []) ++ [] ++ zr (InR S0 (pi, px) :: K)) as HI1.
      { rewrite ino_plug. cbn [ino app zl zr snd]. rewrite app_nil_r. by rewrite -!app_assoc. }
      iApply (twp_handleR K pi px S0); [by rewrite HI1|by rewrite -HP /= !rp_plug|done| |].
      { intros a1 s0 b1 -> Hc Hc1. destruct HS1 as (m & Em & _ & Hb1 & _). cbn in Hc. rewrite Hc in Em. injection Em as <-. by apply rbt_black0. }
      iFrame "HT".
      pose proof (outR_valid K (pi, px) S0 HK1) as HV1. destruct (outR K S0 (pi, px)) as [T'|] eqn:Eo.
      * iIntros "HT". iApply (Hend (paint Black T') with "HT"); [by rewrite rp_paint|apply colr_paint|rewrite ino_paint (outR_ino _ _ _ _ Eo) HI1 //|]. rewrite Hok HLH HV1. naive_solver.
      * iIntros (r'). iApply Hfail; [done|]. rewrite Hok HLH. naive_solver.
  - (* an inner node *)
    destruct Hsp as [Emin Emax]. destruct Hn as (m & En & Hnl & Hnu & HnR).
    assert (u <> Nil) as Hun.
    { intros ->. cbn in Hnu. subst m. destruct (colr_cases l) as [Hc|Hc].
      - apply rbt_black0 in Hnl; [|done]. by subst l.
      - apply rbt_red0 in Hnl as [iz ->]; [|done]. cbn in Hc, Emax. congruence. }
    assert (ok <-> p_color y = Black /\ leftmost_helped (bin_map snd u)) as Hok2.
    { rewrite Hok. destruct l, u; try done. }
    clear Hok HLH.
    cbind. iApply (twp_rb_find j y (cpar K) l u); [done|]. iFrame "Hj Hl Hu". iIntros "Hj Hl Hu". unfold repl. rewrite Emin Emax. cbn [is_red].
    pose proof (zmin_plug u) as Hzp. destruct (zmin_shape u Hun) as ([k z] & v & Ezm). pose proof (zmin_zl u) as Hzl.
    pose proof (zmin_helped u (zmin u).1 (k, z) v) as Hzh. rewrite -Ezm -surjective_pairing in Hzh. specialize (Hzh eq_refl).
    rewrite Ezm in Hzp Emin |- *. cbn [rp fst colr snd] in *. set (K2 := (zmin u).1) in *. clearbody K2.
    rewrite Hzh in Hok2. clear Hzh.
    cbind. iApply twp_get_color. iFrame "Hj". iIntros "Hj".
    cbind. iEval (rewrite -Hzp) in "Hu".
    iApply (twp_color_in K2 (Bin Nil (k, z) v) (Some j)). iFrame "Hu". iIntros "Hu". cbn [colr snd]. rewrite Emin.
    cbind. iApply (twp_get_fuel (tree (Some j) (plug K2 (Bin Nil (k, z) v)))); [apply tree_atleast|]. iFrame "Hu". iIntros (fu Hfu) "Hu".
    destruct (p_color y) eqn:Ey.
    2:{ (* red *)
      iApply twp_raise_bind. cbn [cpost]. iExists T. iSplit; [iPureIntro|].
      - split; [naive_solver|]. right. rewrite Hrc. by split_and!.
      - rewrite -HP. iApply at_tree. cbn [tree fst snd rp]. rewrite Hzp. iFrame. }
    (* where the successor is *)
    rewrite -Hzp in Hnu. pose proof (rb_plug _ _ _ Hnu) as (n1 & (m1 & En1 & Hm1 & Hv & _) & HK2 & _ & _). cbn in Hm1. subst m1. rewrite /= Emin in En1. cbn in En1. subst n1.
    assert (ino u = p_val z :: ino v ++ zr K2) as HIu. { rewrite -Hzp ino_plug Hzl. done. }
    set (tp := take_pay CRB y z).
    assert (p_color tp = Black) as Htp by done.
    assert (rbt (plug (K2 ++ InR l (j, tp) :: K) (Bin Nil (k, z) v)) (bumps K n)) as HN2.
    { rewrite plug_app. cbn [plug fill]. apply plug_rb; [|done|intros E; cbn [colr snd] in E; congruence]. exists m. cbn [snd]. rewrite Htp. split_and!; try done. }
    assert (forall a, a ∈ ino u -> num_ltb (p_val y) a = true) as Hlt.
    { intros a Ha. apply inc_mid in Hinc' as (_ & _ & _ & HF). rewrite Forall_forall in HF. apply HF. by apply elem_of_app; left. }
    assert (rp T = rp (plug (K2 ++ InR l (j, tp) :: K) Nil)) as HrT.
    { rewrite -HP plug_app. cbn [plug fill]. by rewrite !rp_plug. }
    assert (forall t', ino (plug (K2 ++ InR l (j, tp) :: K) t') = (zl K ++ ino l) ++ p_val z :: ino t' ++ zr K2 ++ zr K) as HI2.
    { intros t'. rewrite plug_app ino_plug. cbn [plug fill ino snd]. rewrite ino_plug Hzl. cbn [app ino snd]. by rewrite -!app_assoc. }
    assert (rbK (K2 ++ InR l (j, tp) :: K) 1) as HK1.
    { apply rb_plug in HN2 as (n1 & (m1 & En1 & Hm1 & _) & HK1 & _). cbn in Hm1. subst m1. cbn [snd] in En1. rewrite Emin in En1. by subst n1. }
    assert (increasing ((zl K ++ ino l) ++ p_val z :: ino v ++ zr K2 ++ zr K)) as Hinc3.
    { rewrite HIu -app_comm_cons -(app_assoc (ino v)) in Hinc2. exact Hinc2. }
    iApply twp_ccbind.
    (* the parent of the successor *)
    iDestruct (tree_focus with "Hu") as "[(Hk & H1 & Hv) Hu]". cbn [fst snd rp]. cget.
    iDestruct ("Hu" $! (Bin Nil (k, z) v) with "[//] [Hk H1 Hv]") as "Hu"; [cbn [tree fst snd rp]; iFrame|].
    destruct (colr_cases v) as [Hcv|Hcv].
    + (* a leaf *)
      apply rbt_black0 in Hv; [|done]. subst v.
      cbind. iApply (twp_transplant_leaf K j y l k z fu K2); [lia|]. rewrite -Hzp rp_plug. iFrame "HK Hj Hl Hu". iIntros (q) "Hk HT".
      destruct K2 as [|[[pi px] w|w [pi px]] K3]; cbn [cparx fnode fst deref]; [|clear Hzl|exfalso; apply (f_equal length) in Hzl; cbn [zl] in Hzl; rewrite !app_length in Hzl; cbn [length] in Hzl; lia].
      * cbind. wret. cget. cbn [app plug fill]. iDestruct (tree_at with "HT") as "[HK (Hj & Hl & Hu)]". cbn [fst snd rp]. cget.
        rewrite (Hlt (p_val z)); [|rewrite HIu; left]. cget.
        iAssert (tree None (plug K (Bin l (j, tp) Nil))) with "[HK Hj Hl Hu]" as "HT"; [iApply at_tree; cbn [tree fst snd rp]; iFrame|].
        assert (rbt l 1) as Hl1 by (by destruct HK1). assert (~ ok) as Hno by (rewrite Hok2; naive_solver).
        cbn [app plug fill] in HI2, HrT.
        iApply (twp_handle_wrong K j tp l); [rewrite HI2; exact Hinc3|done|by intros ->|]. iFrame "HT".
        destruct (is_red (colr l)) eqn:El1.
        -- iIntros "HT". iApply (Hend with "HT"); [by rewrite rp_paint|apply colr_paint|rewrite ino_paint HI2 HIu -!app_assoc //|].
           split; [|done]. intros Hrb. exfalso. apply (sub_rb (InR l (j, tp)) K Nil) in Hrb as (n2 & Hn2 & Hn3). cbn in Hn2, Hn3. subst n2. by pose proof (rbt_unique _ _ _ Hl1 Hn3).
        -- iIntros (r'). by iApply Hfail.
      * cbind. wret. cget. cbn [app plug fill]. iDestruct (tree_at with "HT") as "[HK (Hp & Hl & Hu)]". cbn [fst snd rp]. cget.
        rewrite (Hlt (p_val px)); [|rewrite HIu; right; cbn [zr snd]; set_solver]. cget.
        iAssert (tree None (plug (K3 ++ InR l (j, tp) :: K) (Bin Nil (pi, px) w))) with "[HK Hp Hl Hu]" as "HT"; [iApply at_tree; cbn [tree fst snd rp]; iFrame|].
        cbn [app] in HK1. cbn [app plug fill] in HI2.
        iApply (twp_handleL (K3 ++ InR l (j, tp) :: K) pi px w); [rewrite HI2; exact Hinc3|done|]. iFrame "HT".
        pose proof (outL_valid (K3 ++ InR l (j, tp) :: K) (pi, px) w HK1) as HV1. destruct (outL _ (pi, px) w) as [T'|] eqn:Eo.
        -- iIntros "HT". iApply (Hend (paint Black T') with "HT"); [by rewrite rp_paint|apply colr_paint|rewrite ino_paint (outL_ino _ _ _ _ Eo) HI2 HIu -!app_assoc //|].
           rewrite Hok2 HV1. split; [|naive_solver]. intros [|[E _]]; [|by destruct K3]. split; [done|]. by exists (pi, px), w, K3.
        -- iIntros (r'). iApply Hfail; [done|]. rewrite Hok2. naive_solver.
    + (* a red child below the successor: the result is never valid *)
      apply rbt_red0 in Hv as [[k' z'] ->]; [|done]. cbn in Hcv. assert (~ ok) as Hno by (rewrite Hok2; naive_solver).
      set (tz := take_pay CRB z z').
      cbind. iApply (twp_transplant_far CRB K (InR l (j, y)) (InR l (j, tp)) K2 j y l (plug K2 (Bin Nil (k, z) (Bin Nil (k', z') Nil))) (cpar K) k z Nil (Bin Nil (k', z') Nil) fu); try done.
      { pose proof (bsize_plug_le K2 (Bin Nil (k, z) (Bin Nil (k', z') Nil))). lia. }
      rewrite Hzp. iFrame "HK Hj Hl Hu". iIntros "HT".
      iAssert (tree None (plug (K2 ++ InR l (j, tp) :: K) (Bin Nil (k, tz) Nil))) with "[HT]" as "HT".
      { destruct (K2 ++ InR l (j, tp) :: K) eqn:E; [by destruct K2|]. iExact "HT". }
      assert (p_color tz = Red) as Htz by done.
      assert (forall f K', K2 ++ InR l (j, tp) :: K = f :: K' ->
        tree None (paint Black (plug (K2 ++ InR l (j, tp) :: K) (Bin Nil (k, tz) Nil))) ⊢ twp (catch (add_len (-1) ;; ret false)) (rp T) (Z.of_nat (bsize T)) (cpost Q P)) as Hgo.
      { intros f K' E. iIntros "HT". iApply (Hend with "HT"); [rewrite rp_paint HrT E; apply rp_plug_cons|apply colr_paint|rewrite ino_paint HI2 HIu -!app_assoc //|].
        split; [|done]. rewrite E. intros Hrb. exfalso. apply sub_rb in Hrb as (n2 & (m2 & -> & Hm2 & _) & Hn3). cbn in Hm2. subst m2. rewrite E in HK1. destruct HK1 as [HK1 _].
        cbn [snd] in Hn3. rewrite Htz in Hn3. by pose proof (rbt_unique _ _ _ HK1 Hn3). }
      destruct K2 as [|[[pi px] w|w [pi px]] K3]; cbn [cparx fnode fst deref]; [| |exfalso; apply (f_equal length) in Hzl; cbn [zl] in Hzl; rewrite !app_length in Hzl; cbn [length] in Hzl; lia].
      * cbind. wret. cbn [app plug fill]. iDestruct (tree_at with "HT") as "[HK (Hj & Hl & Hk & H1 & H2)]". cbn [fst snd rp]. cget. cget.
        assert (num_ltb (p_val z') (p_val z) = false) as Hlt2.
        { apply inc_mid in Hinc3 as (_ & _ & _ & HF). apply Forall_cons in HF as [HF _]. by apply num_lt_asym. }
        change (p_val tz) with (p_val z'). change (p_val tp) with (p_val z). rewrite Hlt2. cget.
        iApply (twp_handle_red (InR l (j, tp) :: K) Nil k tz Nil); [done|done|rewrite HrT; apply rp_plug_cons|].
        iSplitL; [cbn [app plug fill]; iApply at_tree; cbn [tree fst snd rp]; iFrame|]. iApply (Hgo _ _ eq_refl).
      * cbind. wret. cbn [app plug fill]. iDestruct (tree_at with "HT") as "[HK (Hj & (Hk & H1 & H2) & Hl)]". cbn [fst snd rp]. cget. cget.
        assert (num_ltb (p_val z') (p_val px) = true) as Hlt2.
        { apply inc_mid in Hinc3 as (_ & Hi & _ & _). cbn [ino snd app zr] in Hi. apply (inc_mid []) in Hi as (_ & _ & _ & HF). rewrite Forall_forall in HF. apply HF. set_solver. }
        change (p_val tz) with (p_val z'). rewrite Hlt2. cget.
        iApply (twp_handle_red (InL (pi, px) w :: K3 ++ InR l (j, tp) :: K) Nil k tz Nil); [done|done|rewrite HrT; apply rp_plug_cons|].
        iSplitL; [cbn [app plug fill]; iApply at_tree; cbn [tree fst snd rp]; iFrame|]. iApply (Hgo _ _ eq_refl).
Qed.
