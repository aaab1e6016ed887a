(** * How far RedBlackTree.remove walks (C85): the mending loop *)
From Coq Require Import Sorted.
From iris.proofmode Require Import proofmode.
From Verif Require Import Base NumOrd TreeModel TreeSpec BstModel BalModel BstSpec RbSpec BstSep BstRules BstZip BstDel BinThm BstPure BstThm AvlThm SplayThm RbThm RbDel RbDel2 RbDel3 RbDel4 RbDel5.
From Verif Require Import WalkModel WalkSpec WalkThm WalkThm2 TreeIterThm TreeIterThm3 TreeIterThm4 DepthSpec DepthThm DepthThm2 DepthThm3 DownModel DownThm DownThm2 DownModel3.
Local Open Scope py_scope.

(** [rb_remove] up to the end of the loop that mends the colors, which has two rounds. *)
Definition rb_probe (x : num) : M tst unit :=
  let! i := search_root x in
  let! d := get_data i in
  if negb (bool_decide (d = x)) then ret tt
  else
    let! rep := rb_find_replacement i in
    let! ci := get_color i in
    let! cr := color_of rep in
    let! n := get_fuel in
    match ci, rep, cr with
    | Black, None, _ =>
        let! p := get_parent i in
        transplant (S n) CRB i None ;;
        let! parent := deref p in
        let! l := get_left parent in
        let! db := (match l with None => ret l | Some _ => get_right parent end) in
        double_black_loop 2 parent db
    | Black, Some r, Black =>
        let! p := get_parent r in
        transplant (S n) CRB i rep ;;
        let! parent := deref p in
        let! y := get_data r in
        let! x' := get_data parent in
        let! db := (if num_ltb y x' then get_left parent else get_right parent) in
        double_black_loop 2 parent db
    | _, _, _ => ret tt
    end.
Section loop.
Implicit Types (r : option nat) (n : Z).
Lemma twp_loop_wrong K pi px l r n Q : increasing (ino (plug K (Bin l (pi, px) Nil))) -> r = rp (plug K (Bin l (pi, px) Nil)) -> l <> Nil ->
  tree None (plug K (Bin l (pi, px) Nil)) ∗ (∀ a r', Q a r' n) ⊢ twp (catch (double_black_loop 2 pi (rp l))) r n Q.
Proof.
  intros Hinc Hr Hl. iIntros "[HT HQ]".
  destruct l as [|l1 [j y] l2]; [done|]. cbn [rp fst colr snd].
  change (plug K (Bin (Bin l1 (j, y) l2) (pi, px) Nil)) with (plug (InL (pi, px) Nil :: K) (Bin l1 (j, y) l2)).
  iDestruct (tree_at with "HT") as "[HK (Hj & Hl1 & Hl2)]". cbn [rp fst snd].
  iDestruct (ctxp_root (InL (pi, px) Nil :: K) (Some j) j with "[HK Hj]") as "(%Hne & HK & Hj)"; [done|iFrame|].
  assert (r = croot (InL (pi, px) Nil :: K) (Some j)) as Hr2 by (by rewrite Hr rp_plug).
  iApply twp_loop; [lia|rewrite Hr2; by apply not_eq_sym|]. cbn [color_of]. iApply twp_get_color. iFrame "Hj". iIntros "Hj".
  iAssert (tree None (plug (InL (pi, px) Nil :: K) (Bin l1 (j, y) l2))) with "[HK Hj Hl1 Hl2]" as "HT".
  { iApply at_tree. cbn [tree rp fst snd]. iFrame. }
  destruct (is_red (p_color y)); [iApply "HQ"|].
  iApply twp_ccbind. iApply (twp_ext _ (catch (step2 pi (Some j)))).
  { intros s. unfold catch. by rewrite step_eq. }
  cbn [plug fill]. iDestruct (tree_at with "HT") as "[HK (Hp & Hl & Hu)]". cbn [fst snd rp]. unfold step2. cget. rewrite bool_decide_eq_true_2 //.
  cbind. iApply (twp_sibL K (Bin l1 (j, y) l2) pi px Nil); [done|done|]. iFrame "HK". cbn [tree fst snd rp]. iFrame "Hp Hl". iIntros "HK HT".
  iApply (twp_turnL K (Bin l1 (j, y) l2) pi px Nil); [done|done|]. iFrame "HK". cbn [tree fst snd rp]. iFrame "HT". cbn [lendL]. iApply "HQ".
Qed.
Lemma twp_loop_red_at K l k z u m r n Q : K <> [] -> p_color z = Red -> r = rp (plug K (Bin l (k, z) u)) ->
  tree None (plug K (Bin l (k, z) u)) ∗ (∀ a, Q a r n) ⊢ twp (catch (double_black_loop 2 m (Some k))) r n Q.
Proof.
  intros HK Hz Hr. iIntros "[HT HQ]".
  iDestruct (tree_at with "HT") as "[HK (Hk & Hl & Hu)]". cbn [fst snd rp].
  iDestruct (ctxp_root K (Some k) k with "[HK Hk]") as "(%Hne & HK & Hk)"; [done|iFrame|].
  assert (r = croot K (Some k)) as Hr2 by (by rewrite Hr rp_plug).
  iApply twp_loop; [lia|rewrite Hr2; by apply not_eq_sym|]. cbn [color_of]. iApply twp_get_color. iFrame "Hk". iIntros "Hk". rewrite Hz. cbn [is_red]. iApply "HQ".
Qed.
End loop.
Lemma probe_ends s T x : rep s T -> increasing (ino T) -> rbok T -> x ∈ ino T -> ~ is_leaf_tree (bin_map snd T) -> rb_probe x s <> Diverge.
Proof.
  intros H Hinc [HB [N HN]] Hx Hlf. 
  enough (exists a s', catch (rb_probe x) s = Ok a s' /\ True) as (a & s' & E & _). { intros Hd. unfold catch in E. by rewrite Hd in E. }
  apply (run_pure _ (fun _ => True) s T H). iIntros "HT". unfold rb_probe.
  assert (T <> Nil) as HTn by (intros ->; set_solver).
  cbind. iApply (twp_search_root x T); [done|done|]. iFrame "HT". iIntros (j) "%Hj HT".
  destruct (zlast_node x T HTn) as (l & [j' y] & u & Ez & Hb). rewrite Ez in Hj. injection Hj as ->. cbn [snd] in Hb.
  assert (T = plug (zlast (zfind x T)).1 (Bin l (j, y) u)) as HTz by (by rewrite -Ez zlast_plug zfind_plug).
  cbind. iApply (twp_get_data_at T (zlast (zfind x T)).1 l (j, y) u); [done|done|]. iFrame "HT". iIntros "HT". cbn [snd]. rewrite Hb.
  assert (found x T = true) as Ef by (rewrite (found_in _ _ Hinc); by apply bool_decide_eq_true_2). rewrite Ef. cbn [negb].
  clear Hb HTz. pose proof (zfind_plug x T) as HP. pose proof (zfind_val x T) as HV. pose proof Hinc as Hinc'. unfold found in Ef.
  destruct (zfind x T) as [K t]. cbn [fst snd] in *. destruct t as [|l' [i x'] u']; [done|]. rewrite zlast_bin in Ez. cbn in Ez. injection Ez as -> -> -> ->.
  specialize (HV _ _ _ eq_refl). cbn [snd] in HV.
  rewrite -HP ino_plug in Hinc'. cbn [ino snd] in Hinc'. rewrite -app_assoc /= app_assoc in Hinc'.
  assert (ino T = (zl K ++ ino l) ++ p_val y :: ino u ++ zr K) as HIT. { rewrite -HP ino_plug. cbn [ino snd]. by rewrite -!app_assoc. }
  assert (set_del x (ino T) = (zl K ++ ino l) ++ ino u ++ zr K) as HSD.
  { rewrite HIT -HV. apply inc_NoDup in Hinc'. apply NoDup_app in Hinc' as (_ & H1 & [H2 _]%NoDup_cons). apply set_del_mid; [|done].
    intros Hx'. apply (H1 _ Hx'). left. }
  assert (increasing ((zl K ++ ino l) ++ ino u ++ zr K)) as Hinc2. { rewrite -HSD. by apply set_del_inc. }
  rewrite -HP in HN HB. pose proof (rb_plug _ _ _ HN) as (n & Hn & HK & Htop & ->).
  iEval (rewrite -HP) in "HT". iDestruct (tree_at with "HT") as "[HK (Hj & Hl & Hu)]". cbn [fst snd].
  destruct (leafb (Bin l (j, y) u)) eqn:El.
  - (* a leaf *)
    destruct l, u; try done. cbn [rp]. iClear "Hl Hu". cbind. unfold rb_find_replacement at 1. wbind. iApply (twp_node_is_leaf j y Nil Nil). iFrame "Hj". iIntros "Hj". cbn [leafb]. wret.
    cbind. iApply twp_get_color. iFrame "Hj". iIntros "Hj". cbind. wret.
    cbind. iApply (twp_get_fuel emp%I 0); [apply atleast_0|]. iSplitR; [done|]. iIntros (fu Hfu) "_".
    destruct (p_color y) eqn:Hsp; [|iApply twp_catch; wret; done].
    destruct K as [|f K]; [exfalso; cbn in HP; rewrite -HP in Hlf; by apply Hlf|].
    cget. cbind. iApply (twp_transplant CRB (leaf_of j y) f K (S fu)); [done|cbn; lia|].
    cbn [leaf_of tree rp fst snd cpar]. iFrame "HK Hj". iSplitR; [done|]. iIntros "HT". cbn [deref]. cbind. wret.
    pose proof (leaf_black _ _ _ HN Hsp) as HK1.
    unfold putdel. cbn [leafb leaf_of].
    destruct f as [[pi px] S0|S0 [pi px]]; cbn [fillc node refresh fst snd fnode helped sib] in *; iDestruct (tree_at with "HT") as "[HK (Hp & Hl & Hu)]"; cbn [fst snd rp]; cget.
    + cbind. wret. iAssert (tree None (plug K (Bin Nil (pi, px) S0))) with "[HK Hp Hl Hu]" as "HT"; [iApply at_tree; cbn [tree fst snd rp]; iFrame|].
      assert (ino (plug K (Bin Nil (pi, px) S0)) = (zl (InL (pi, px) S0 :: K) ++ []) ++ [] ++ zr (InL (pi, px) S0 :: K)) as HI1.
      { rewrite ino_plug. cbn [ino app zl zr snd]. by rewrite app_nil_r. }
      iApply (twp_loopL 2 K pi px S0); [lia|by rewrite HI1|by rewrite -HP /= !rp_plug|]. iFrame "HT".
      destruct (outL K (pi, px) S0); by iIntros.
    + assert (rbt S0 1) as HS1 by (by destruct HK1).
      assert (S0 <> Nil) as HS0 by (by intros ->).
      assert (exists si, rp S0 = Some si) as [si Esi]. { destruct S0 as [|s1 [si sx] s2]; [done|]. by exists si. }
      rewrite Esi. cget. rewrite -Esi.
      iAssert (tree None (plug K (Bin S0 (pi, px) Nil))) with "[HK Hp Hl Hu]" as "HT"; [iApply at_tree; cbn [tree fst snd rp]; iFrame|].
      assert (ino (plug K (Bin S0 (pi, px) Nil)) = (zl (InR S0 (pi, px) :: K) ++ []) ++ [] ++ zr (InR S0 (pi, px) :: K)) as HI1.
      { rewrite ino_plug. cbn [ino app zl zr snd]. rewrite app_nil_r. by rewrite -!app_assoc. }
      iApply (twp_loopR 2 K pi px S0); [lia|by rewrite HI1|by rewrite -HP /= !rp_plug|done| |].
      { intros a1 s0 b1 -> Hc Hc1. destruct HS1 as (m & Em & _ & Hb1 & _). cbn in Hc. rewrite Hc in Em. injection Em as <-. by apply rbt_black0. }
      iFrame "HT". destruct (outR K S0 (pi, px)); by iIntros.
  - (* an inner node *)
    destruct Hn as (m & En & Hnl & Hnu & HnR).
    cbind. iApply (twp_rb_find j y (cpar K) l u); [done|]. iFrame "Hj Hl Hu". iIntros "Hj Hl Hu". unfold repl.
    cbind. iApply twp_get_color. iFrame "Hj". iIntros "Hj". cbind.
    destruct (colr_cases (zmin u).2) as [Emin|Emin]; rewrite Emin; cbn [is_red].
    2:{ pose proof (zmin_plug u) as Hzp. destruct (zmin u) as [K2 t2]. cbn [fst snd] in *. iEval (rewrite -Hzp) in "Hu". iApply (twp_color_in K2 t2 (Some j)). iFrame "Hu". iIntros "Hu". rewrite Emin.
      cbind. iApply (twp_get_fuel emp%I 0); [apply atleast_0|]. iSplitR; [done|]. iIntros (fu Hfu) "_".
      destruct t2 as [|? [] ?]; [done|]. cbn [rp fst]. destruct (p_color y); iApply twp_catch; wret; done. }
    destruct (colr_cases (zmax l).2) as [Emax|Emax]; rewrite Emax; cbn [is_red].
    2:{ pose proof (zmax_plug l) as Hzp. destruct (zmax l) as [K2 t2]. cbn [fst snd] in *. iEval (rewrite -Hzp) in "Hl". iApply (twp_color_in K2 t2 (Some j)). iFrame "Hl". iIntros "Hl". rewrite Emax.
      cbind. iApply (twp_get_fuel emp%I 0); [apply atleast_0|]. iSplitR; [done|]. iIntros (fu Hfu) "_".
      destruct t2 as [|? [] ?]; [done|]. cbn [rp fst]. destruct (p_color y); iApply twp_catch; wret; done. }
    assert (u <> Nil) as Hun.
    { intros ->. cbn in Hnu. subst m. destruct (colr_cases l) as [Hc|Hc].
      - apply rbt_black0 in Hnl; [|done]. by subst l.
      - apply rbt_red0 in Hnl as [iz ->]; [|done]. cbn in Hc, Emax. congruence. }
    pose proof (zmin_plug u) as Hzp. destruct (zmin_shape u Hun) as ([k z] & v & Ezm). pose proof (zmin_zl u) as Hzl.
    rewrite Ezm in Hzp Emin |- *. cbn [rp fst colr snd] in *. set (K2 := (zmin u).1) in *. clearbody K2.
    iEval (rewrite -Hzp) in "Hu".
    iApply (twp_color_in K2 (Bin Nil (k, z) v) (Some j)). iFrame "Hu". iIntros "Hu". cbn [colr snd]. rewrite Emin.
    cbind. iApply (twp_get_fuel (tree (Some j) (plug K2 (Bin Nil (k, z) v)))); [apply tree_atleast|]. iFrame "Hu". iIntros (fu Hfu) "Hu".
    destruct (p_color y) eqn:Ey; [|iApply twp_catch; wret; done].
    (* where the successor is *)
    rewrite -Hzp in Hnu. pose proof (rb_plug _ _ _ Hnu) as (n1 & (m1 & En1 & Hm1 & Hv & _) & HK2 & _ & _). cbn in Hm1. subst m1. rewrite /= Emin in En1. cbn in En1. subst n1.
    assert (ino u = p_val z :: ino v ++ zr K2) as HIu. { rewrite -Hzp ino_plug Hzl. done. }
    set (tp := take_pay CRB y z).
    assert (p_color tp = Black) as Htp by done.
    assert (rbt (plug (K2 ++ InR l (j, tp) :: K) (Bin Nil (k, z) v)) (bumps K n)) as HN2.
    { rewrite plug_app. cbn [plug fill]. apply plug_rb; [|done|intros E; cbn [colr snd] in E; congruence]. exists m. cbn [snd]. rewrite Htp. split_and!; try done. }
    assert (forall a, a ∈ ino u -> num_ltb (p_val y) a = true) as Hlt.
    { intros a Ha. apply inc_mid in Hinc' as (_ & _ & _ & HF). rewrite Forall_forall in HF. apply HF. by apply elem_of_app; left. }
    assert (rp T = rp (plug (K2 ++ InR l (j, tp) :: K) Nil)) as HrT.
    { rewrite -HP plug_app. cbn [plug fill]. by rewrite !rp_plug. }
    assert (forall t', ino (plug (K2 ++ InR l (j, tp) :: K) t') = (zl K ++ ino l) ++ p_val z :: ino t' ++ zr K2 ++ zr K) as HI2.
    { intros t'. rewrite plug_app ino_plug. cbn [plug fill ino snd]. rewrite ino_plug Hzl. cbn [app ino snd]. by rewrite -!app_assoc. }
    assert (rbK (K2 ++ InR l (j, tp) :: K) 1) as HK1.
    { apply rb_plug in HN2 as (n1 & (m1 & En1 & Hm1 & _) & HK1 & _). cbn in Hm1. subst m1. cbn [snd] in En1. rewrite Emin in En1. by subst n1. }
    assert (increasing ((zl K ++ ino l) ++ p_val z :: ino v ++ zr K2 ++ zr K)) as Hinc3.
    { rewrite HIu -app_comm_cons -(app_assoc (ino v)) in Hinc2. exact Hinc2. }
    (* the parent of the successor *)
    iDestruct (tree_focus with "Hu") as "[(Hk & H1 & Hv) Hu]". cbn [fst snd rp]. cget.
    iDestruct ("Hu" $! (Bin Nil (k, z) v) with "[//] [Hk H1 Hv]") as "Hu"; [cbn [tree fst snd rp]; iFrame|].
    destruct (colr_cases v) as [Hcv|Hcv].
    + (* a leaf *)
      apply rbt_black0 in Hv; [|done]. subst v.
      cbind. iApply (twp_transplant_leaf K j y l k z fu K2); [lia|]. rewrite -Hzp rp_plug. iFrame "HK Hj Hl Hu". iIntros (q) "Hk HT".
      destruct K2 as [|[[pi px] w|w [pi px]] K3]; cbn [cparx fnode fst deref]; [|clear Hzl|exfalso; apply (f_equal length) in Hzl; cbn [zl] in Hzl; rewrite !app_length in Hzl; cbn [length] in Hzl; lia].
      * cbind. wret. cget. cbn [app plug fill]. iDestruct (tree_at with "HT") as "[HK (Hj & Hl & Hu)]". cbn [fst snd rp]. cget.
        rewrite (Hlt (p_val z)); [|rewrite HIu; left]. cget.
        iAssert (tree None (plug K (Bin l (j, tp) Nil))) with "[HK Hj Hl Hu]" as "HT"; [iApply at_tree; cbn [tree fst snd rp]; iFrame|].
        assert (rbt l 1) as Hl1 by (by destruct HK1).
        cbn [app plug fill] in HI2, HrT.
        iApply (twp_loop_wrong K j tp l); [rewrite HI2; exact Hinc3|done|by intros ->|]. iFrame "HT". by iIntros.
      * cbind. wret. cget. cbn [app plug fill]. iDestruct (tree_at with "HT") as "[HK (Hp & Hl & Hu)]". cbn [fst snd rp]. cget.
        rewrite (Hlt (p_val px)); [|rewrite HIu; right; cbn [zr snd]; set_solver]. cget.
        iAssert (tree None (plug (K3 ++ InR l (j, tp) :: K) (Bin Nil (pi, px) w))) with "[HK Hp Hl Hu]" as "HT"; [iApply at_tree; cbn [tree fst snd rp]; iFrame|].
        cbn [app] in HK1. cbn [app plug fill] in HI2.
        iApply (twp_loopL 2 (K3 ++ InR l (j, tp) :: K) pi px w); [lia|rewrite HI2; exact Hinc3|done|]. iFrame "HT".
        destruct (outL _ (pi, px) w); by iIntros.
    + (* a red child below the successor *)
      apply rbt_red0 in Hv as [[k' z'] ->]; [|done]. cbn in Hcv.
      set (tz := take_pay CRB z z').
      cbind. iApply (twp_transplant_far CRB K (InR l (j, y)) (InR l (j, tp)) K2 j y l (plug K2 (Bin Nil (k, z) (Bin Nil (k', z') Nil))) (cpar K) k z Nil (Bin Nil (k', z') Nil) fu); try done.
      { pose proof (bsize_plug_le K2 (Bin Nil (k, z) (Bin Nil (k', z') Nil))). lia. }
      rewrite Hzp. iFrame "HK Hj Hl Hu". iIntros "HT".
      iAssert (tree None (plug (K2 ++ InR l (j, tp) :: K) (Bin Nil (k, tz) Nil))) with "[HT]" as "HT".
      { destruct (K2 ++ InR l (j, tp) :: K) eqn:E; [by destruct K2|]. iExact "HT". }
      assert (p_color tz = Red) as Htz by done.
      destruct K2 as [|[[pi px] w|w [pi px]] K3]; cbn [cparx fnode fst deref]; [| |exfalso; apply (f_equal length) in Hzl; cbn [zl] in Hzl; rewrite !app_length in Hzl; cbn [length] in Hzl; lia].
      * cbind. wret. cbn [app plug fill]. iDestruct (tree_at with "HT") as "[HK (Hj & Hl & Hk & H1 & H2)]". cbn [fst snd rp]. cget. cget.
        assert (num_ltb (p_val z') (p_val z) = false) as Hlt2.
        { apply inc_mid in Hinc3 as (_ & _ & _ & HF). apply Forall_cons in HF as [HF _]. by apply num_lt_asym. }
        change (p_val tz) with (p_val z'). change (p_val tp) with (p_val z). rewrite Hlt2. cget.
        iApply (twp_loop_red_at (InR l (j, tp) :: K) Nil k tz Nil); [done|done|rewrite HrT; apply rp_plug_cons|].
        iSplitL; [cbn [app plug fill]; iApply at_tree; cbn [tree fst snd rp]; iFrame|by iIntros].
      * cbind. wret. cbn [app plug fill]. iDestruct (tree_at with "HT") as "[HK (Hj & (Hk & H1 & H2) & Hl)]". cbn [fst snd rp]. cget. cget.
        assert (num_ltb (p_val z') (p_val px) = true) as Hlt2.
        { apply inc_mid in Hinc3 as (_ & Hi & _ & _). cbn [ino snd app zr] in Hi. apply (inc_mid []) in Hi as (_ & _ & _ & HF). rewrite Forall_forall in HF. apply HF. set_solver. }
        change (p_val tz) with (p_val z'). rewrite Hlt2. cget.
        iApply (twp_loop_red_at (InL (pi, px) w :: K3 ++ InR l (j, tp) :: K) Nil k tz Nil); [done|done|rewrite HrT; apply rp_plug_cons|].
        iSplitL; [cbn [app plug fill]; iApply at_tree; cbn [tree fst snd rp]; iFrame|by iIntros].
Qed.
