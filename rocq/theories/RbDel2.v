(** * RedBlackTree.__handle_double_black: its outcome *)
From Coq Require Import Sorted.
From iris.proofmode Require Import proofmode.
From Verif Require Import Base NumOrd TreeModel TreeSpec BstModel BalModel BstSpec BstSep BstRules BstZip BstDel BinThm BstPure BstThm AvlThm SplayThm RbThm RbDel.
Local Open Scope py_scope.

Lemma turnedL_bin l p S : lendL S = true -> exists a s b, turnedL l p S = Bin a s b.
Proof.
  destruct S as [|a s b]; [done|]. cbn [lendL turnedL]. intros H. destruct (is_red (colr b)); [eauto|]. rewrite orb_false_r in H. destruct a; [done|eauto].
Qed.
Lemma turnedR_bin l p S : lendR S = true -> exists a s b, turnedR S p l = Bin a s b.
Proof. destruct S as [|a s b]; [done|]. cbn [lendR turnedR]. intros H. destruct (is_red (colr a)); [eauto|]. destruct b; [done|eauto]. Qed.

Section handle.
Implicit Types (r : option nat) (n : Z).
Lemma ctxp_root K p i c : K <> [] -> ctxp K p ∗ i ↦ c ⊢ ⌜croot K p <> Some i⌝ ∗ (ctxp K p ∗ i ↦ c).
Proof.
  revert p. induction K as [|f K IH]; intros p HK; [done|]. iIntros "[HK Hi]".
  destruct K as [|g K].
  - destruct f as [[j y] u|u [j y]]; cbn [ctxp croot fnode fst snd]; iDestruct "HK" as "(Hj & Hu & _)";
      iDestruct (pto_ne with "[Hj Hi]") as "(%Hne & Hj & Hi)"; try (iFrame "Hj Hi"); (iSplit; [iPureIntro; congruence|]); by iFrame.
  - destruct f as [[j y] u|u [j y]]; cbn [ctxp fst snd]; iDestruct "HK" as "(Hj & Hu & HK)";
      iDestruct (IH (Some j) with "[HK Hi]") as "(%Hne & HK & Hi)"; try done; try (iFrame "HK Hi"); (iSplit; [iPureIntro; exact Hne|]); iFrame.
Qed.
Lemma twp_loop_end fu m T r n Q : T <> Nil -> r = rp T ->
  tree None T ∗ (tree None T -∗ Q (inr tt) r n) ⊢ twp (catch (double_black_loop fu m r)) r n Q.
Proof. intros HT Hr. destruct T as [|l [i x] u]; [done|]. by apply twp_loop_root. Qed.
Lemma twp_loop_red fu K pi px l u r n Q : 1 <= fu -> K <> [] -> r = croot K (Some pi) -> p_color px = Red ->
  ctxp K (Some pi) ∗ tree (cpar K) (Bin l (pi, px) u) ∗ (tree None (plug K (Bin l (pi, px) u)) -∗ Q (inr tt) r n) ⊢
  twp (catch (double_black_loop fu pi (Some pi))) r n Q.
Proof.
  intros Hfu HK -> Hc. iIntros "(HK & (Hp & Hl & Hu) & HQ)". cbn [fst snd].
  iDestruct (ctxp_root K (Some pi) pi with "[HK Hp]") as "(%Hne & HK & Hp)"; [done|iFrame|].
  iApply twp_loop; [done|by apply not_eq_sym|]. cbn [color_of]. iApply twp_get_color. iFrame "Hp". iIntros "Hp". rewrite Hc. cbn [is_red]. iApply "HQ". iApply at_tree.
  cbn [tree fst snd rp]. iFrame.
Qed.
Lemma twp_finish T r n Q : T <> Nil -> r = rp T ->
  tree None T ∗ (tree None (paint Black T) -∗ Q (inr tt) r n) ⊢
  twp (catch (let! root := get_root in let! i := deref root in set_color i Black)) r n Q.
Proof.
  intros HT Hr. destruct T as [|l [i x] u]; [done|]. cbn [rp fst] in Hr. subst r. iIntros "[(Hi & Hl & Hu) HQ]". cbn [fst snd].
  cbind. iApply twp_get_root. cbind. cbn [deref]. wret. iApply twp_catch. iApply twp_set_color. iFrame "Hi". iIntros "Hi". iApply "HQ". cbn [paint pc tree fst snd]. iFrame.
Qed.
Lemma twp_loopL fu K pi px S r n Q : 2 <= fu -> increasing (ino (plug K (Bin Nil (pi, px) S))) -> r = rp (plug K (Bin Nil (pi, px) S)) ->
  tree None (plug K (Bin Nil (pi, px) S)) ∗
  match outL K (pi, px) S with
  | Some T' => tree None T' -∗ Q (inr tt) (rp T') n
  | None => ∀ r', Q (inl AttributeError) r' n
  end ⊢ twp (catch (double_black_loop fu pi None)) r n Q.
Proof.
  intros Hfu Hinc Hr. assert (r = croot K (Some pi)) as Hr2 by (by rewrite Hr rp_plug). iIntros "[HT HQ]".
  iApply twp_loop; [lia| |].
  { rewrite Hr. destruct (plug_bin K Nil (pi, px) S) as (? & ? & ? & ->). done. }
  cbn [color_of]. wret. cbn [is_red]. iApply twp_ccbind. iApply (twp_step_left K pi px S); [done|]. iFrame "HT". iIntros "HT".
  iDestruct (tree_at with "HT") as "[HK HT]". cbind. iApply (twp_sibL K Nil pi px S); [done|done|]. iFrame "HK HT".
  destruct S as [|a [si sx] b].
  { iIntros "HK HT". iApply (twp_turnL K Nil pi px Nil); [done|done|]. cbn [rp]. iFrame "HK HT". cbn [lendL]. iApply "HQ". }
  cbn [outL fst snd]. destruct (is_red (p_color sx)) eqn:Es.
  - (* a red sibling *)
    set (K' := InL (si, pay_color Black sx) b :: K).
    iIntros "HT". change (plug K (Bin (Bin Nil (pi, pay_color Red px) a) (si, pay_color Black sx) b)) with (plug K' (Bin Nil (pi, pay_color Red px) a)).
    assert (increasing (ino (plug K' (Bin Nil (pi, pay_color Red px) a)))) as Hinc'.
    { unfold K'. cbn [plug fill]. rewrite ino_plug in Hinc. rewrite ino_plug. exact Hinc. }
    iDestruct (tree_at with "HT") as "[HK HT]".
    iApply (twp_turnL K' Nil pi (pay_color Red px) a); [done|done|]. iFrame "HK HT".
    destruct (lendL a) eqn:El.
    + iIntros (m) "HT". cbn [fst snd]. destruct (turnedL_bin Nil (pi, pay_color Red px) a El) as (t1 & t2 & t3 & Et).
      destruct (plug_bin K' t1 t2 t3) as (u1 & u2 & u3 & Eu). rewrite -Et in Eu.
      iApply (twp_loop_end _ _ (plug K' (turnedL Nil (pi, pay_color Red px) a))); [by rewrite Eu|done|]. iFrame "HT". iIntros "HT".
      destruct a as [|a1 q a2] eqn:Ea; [done|]. rewrite -Ea. rewrite -Ea in El. iApply ("HQ" with "HT").
    + destruct a as [|a1 q a2] eqn:Ea; [iApply "HQ"|]. rewrite -Ea. rewrite -Ea in El. iIntros "HK HT". cbn [fst snd].
      iApply (twp_loop_red _ K' pi (pay_color Red px)); [lia|done|done|done|]. iFrame "HK HT". iIntros "HT".
      assert (rp (plug K' (Bin Nil (pi, pay_color Red px) (paint Red a))) = croot K (Some si)) as Hrp by (by rewrite rp_plug).
      rewrite -Hrp. iApply ("HQ" with "HT").
  - iIntros "HK HT". iApply (twp_turnL K Nil pi px (Bin a (si, sx) b)); [done|done|]. iFrame "HK HT".
    destruct (lendL (Bin a (si, sx) b)) eqn:El.
    + iIntros (m) "HT". cbn [fst snd]. destruct (turnedL_bin Nil (pi, px) (Bin a (si, sx) b) El) as (t1 & t2 & t3 & Et).
      destruct (plug_bin K t1 t2 t3) as (u1 & u2 & u3 & Eu). rewrite -Et in Eu.
      iApply (twp_loop_end _ _ (plug K (turnedL Nil (pi, px) (Bin a (si, sx) b)))); [by rewrite Eu|done|]. iFrame "HT". iIntros "HT". iApply ("HQ" with "HT").
    + iIntros "HK HT". cbn [fst snd]. destruct K as [|f K]; [|set (KK := f :: K) in *].
      * cbn [plug rp fst] in *. rewrite Hr. iApply (twp_loop_end _ _ (Bin Nil (pi, px) (paint Red (Bin a (si, sx) b)))); [done|done|]. iFrame "HT". iIntros "HT". iApply ("HQ" with "HT").
      * destruct (is_red (p_color px)) eqn:Ep.
        -- iApply (twp_loop_red _ KK pi px); [lia|done|done|by apply is_red_true|]. iFrame "HK HT". iIntros "HT".
           assert (rp (plug KK (Bin Nil (pi, px) (paint Red (Bin a (si, sx) b)))) = r) as Hrp by (by rewrite rp_plug Hr2).
           rewrite -Hrp. iApply ("HQ" with "HT").
        -- (* one more turn, which fails *)
           iDestruct "HT" as "(Hp & Hl & Hu)". cbn [fst snd].
           iDestruct (ctxp_root KK (Some pi) pi with "[HK Hp]") as "(%Hne & HK & Hp)"; [done|iFrame|].
           iApply twp_loop; [lia|rewrite Hr2; by apply not_eq_sym|]. cbn [color_of]. iApply twp_get_color. iFrame "Hp". iIntros "Hp". rewrite Ep. cbn [is_red].
           iApply twp_ccbind. iApply (twp_step_right KK pi px (Some pi) Nil (paint Red (Bin a (si, sx) b))); [by rewrite rp_plug Hr2|done|].
           iSplitL "HK Hp Hl Hu".
           { iApply at_tree. cbn [tree fst snd rp]. iFrame. }
           iIntros "HT". iDestruct (tree_at with "HT") as "[HK HT]".
           assert (increasing (ino (plug KK (Bin Nil (pi, px) (paint Red (Bin a (si, sx) b)))))) as Hinc' by (by rewrite ino_paint_in).
           cbind. iApply (twp_sibR KK _ pi px Nil); [done|done|]. iFrame "HK HT". iIntros "HK HT".
           iApply (twp_turnR KK _ pi px Nil); [exact Hinc'|done|]. iFrame "HK HT". cbn [lendR]. iApply "HQ".
Qed.
Lemma twp_loopR fu K pi px S r n Q : 2 <= fu -> increasing (ino (plug K (Bin S (pi, px) Nil))) -> r = rp (plug K (Bin S (pi, px) Nil)) -> S <> Nil ->
  (forall a s b, S = Bin a s b -> colr S = Black -> colr b = Black -> b = Nil) ->
  tree None (plug K (Bin S (pi, px) Nil)) ∗
  match outR K S (pi, px) with
  | Some T' => tree None T' -∗ Q (inr tt) (rp T') n
  | None => ∀ r', Q (inl AttributeError) r' n
  end ⊢ twp (catch (double_black_loop fu pi None)) r n Q.
Proof.
  intros Hfu Hinc Hr HSn HS. assert (r = croot K (Some pi)) as Hr2 by (by rewrite Hr rp_plug). iIntros "[HT HQ]".
  iApply twp_loop; [lia| |].
  { rewrite Hr. destruct (plug_bin K S (pi, px) Nil) as (? & ? & ? & ->). done. }
  cbn [color_of]. wret. cbn [is_red]. iApply twp_ccbind. iApply (twp_step_right K pi px None S Nil); [done|by destruct S|]. iFrame "HT". iIntros "HT".
  iDestruct (tree_at with "HT") as "[HK HT]". cbind. iApply (twp_sibR K Nil pi px S); [done|done|]. iFrame "HK HT".
  destruct S as [|a [si sx] b]; [done|].
  cbn [outR fst snd]. destruct (is_red (p_color sx)) eqn:Es.
  - (* a red sibling *)
    set (K' := InR a (si, pay_color Black sx) :: K).
    iIntros "HT". change (plug K (Bin a (si, pay_color Black sx) (Bin b (pi, pay_color Red px) Nil))) with (plug K' (Bin b (pi, pay_color Red px) Nil)).
    assert (increasing (ino (plug K' (Bin b (pi, pay_color Red px) Nil)))) as Hinc'.
    { unfold K'. cbn [plug fill]. rewrite ino_plug in Hinc. rewrite ino_plug. cbn [ino snd pay_color p_val app] in *. rewrite -!app_assoc /= in Hinc. by rewrite -!app_assoc /= -?app_assoc. }
    iDestruct (tree_at with "HT") as "[HK HT]".
    iApply (twp_turnR K' Nil pi (pay_color Red px) b); [done|done|]. iFrame "HK HT".
    destruct (lendR b) eqn:El.
    + iIntros (m) "HT". cbn [fst snd]. destruct (turnedR_bin Nil (pi, pay_color Red px) b El) as (t1 & t2 & t3 & Et).
      destruct (plug_bin K' t1 t2 t3) as (u1 & u2 & u3 & Eu). rewrite -Et in Eu.
      iApply (twp_loop_end _ _ (plug K' (turnedR b (pi, pay_color Red px) Nil))); [by rewrite Eu|done|]. iFrame "HT". iIntros "HT".
      destruct b as [|a1 q a2] eqn:Ea; [done|]. rewrite -Ea. rewrite -Ea in El. iApply ("HQ" with "HT").
    + destruct b as [|a1 q a2] eqn:Ea; [iApply "HQ"|]. rewrite -Ea. rewrite -Ea in El. iIntros "HK HT". cbn [fst snd].
      iApply (twp_loop_red _ K' pi (pay_color Red px)); [lia|done|done|done|]. iFrame "HK HT". iIntros "HT".
      assert (rp (plug K' (Bin (paint Red b) (pi, pay_color Red px) Nil)) = croot K (Some si)) as Hrp by (by rewrite rp_plug).
      rewrite -Hrp. iApply ("HQ" with "HT").
  - iIntros "HK HT". iApply (twp_turnR K Nil pi px (Bin a (si, sx) b)); [done|done|]. iFrame "HK HT".
    destruct (lendR (Bin a (si, sx) b)) eqn:El.
    + iIntros (m) "HT". cbn [fst snd]. destruct (turnedR_bin Nil (pi, px) (Bin a (si, sx) b) El) as (t1 & t2 & t3 & Et).
      destruct (plug_bin K t1 t2 t3) as (u1 & u2 & u3 & Eu). rewrite -Et in Eu.
      iApply (twp_loop_end _ _ (plug K (turnedR (Bin a (si, sx) b) (pi, px) Nil))); [by rewrite Eu|done|]. iFrame "HT". iIntros "HT". iApply ("HQ" with "HT").
    + iIntros "HK HT". cbn [fst snd]. destruct K as [|f K]; [|set (KK := f :: K) in *].
      * cbn [plug rp fst] in *. rewrite Hr. iApply (twp_loop_end _ _ (Bin (paint Red (Bin a (si, sx) b)) (pi, px) Nil)); [done|done|]. iFrame "HT". iIntros "HT". iApply ("HQ" with "HT").
      * destruct (is_red (p_color px)) eqn:Ep.
        -- iApply (twp_loop_red _ KK pi px); [lia|done|done|by apply is_red_true|]. iFrame "HK HT". iIntros "HT".
           assert (rp (plug KK (Bin (paint Red (Bin a (si, sx) b)) (pi, px) Nil)) = r) as Hrp by (by rewrite rp_plug Hr2).
           rewrite -Hrp. iApply ("HQ" with "HT").
        -- (* one more turn, which fails *)
           assert (b = Nil) as ->. { eapply HS; [done| |]; [by apply is_red_false|]. cbn [lendR] in El. by apply is_red_false. }
           cbn [paint pc fst snd]. iDestruct "HT" as "(Hp & (Hs & Ha & Hb) & Hl)". cbn [fst snd].
           iDestruct (ctxp_root KK (Some pi) pi with "[HK Hp]") as "(%Hne & HK & Hp)"; [done|iFrame|].
           iDestruct (pto_ne with "[Hp Hs]") as "(%Hne2 & Hp & Hs)"; [iFrame "Hp Hs"|].
           iApply twp_loop; [lia|rewrite Hr2; by apply not_eq_sym|]. cbn [color_of]. iApply twp_get_color. iFrame "Hp". iIntros "Hp". rewrite Ep. cbn [is_red].
           iApply twp_ccbind. iApply (twp_step_right KK pi px (Some pi) (Bin a (si, pay_color Red sx) Nil) Nil); [by rewrite rp_plug Hr2|cbn; intros E; injection E as E; apply Hne2; exact E|].
           iSplitL "HK Hp Hl Hs Ha Hb".
           { iApply at_tree. cbn [tree fst snd rp]. iFrame. }
           iIntros "HT". iDestruct (tree_at with "HT") as "[HK HT]".
           assert (increasing (ino (plug KK (Bin (Bin a (si, pay_color Red sx) Nil) (pi, px) Nil)))) as Hinc' by (rewrite ino_plug in Hinc; rewrite ino_plug; exact Hinc).
           cbind. iApply (twp_sibR KK Nil pi px (Bin a (si, pay_color Red sx) Nil)); [done|done|]. iFrame "HK HT". cbn [pay_color p_color is_red]. iIntros "HT".
           iDestruct (tree_at (InR a (si, pay_color Black (pay_color Red sx)) :: KK) with "HT") as "[HK HT]".
           iApply (twp_turnR (InR a (si, pay_color Black (pay_color Red sx)) :: KK) Nil pi (pay_color Red px) Nil); [|done|].
           { clear -Hinc'. cbn [plug fill]. rewrite ino_plug in Hinc'. rewrite ino_plug. cbn [ino snd pay_color p_val app] in *. repeat (rewrite -?app_assoc in Hinc'; cbn [app] in Hinc'). repeat (rewrite -?app_assoc; cbn [app]). exact Hinc'. }
           iFrame "HK HT". cbn [lendR]. iApply "HQ".
Qed.
End handle.
