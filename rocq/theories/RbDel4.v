(** * RedBlackTree.remove on a valid tree: every outcome *)
From Coq Require Import Sorted.
From iris.proofmode Require Import proofmode.
From Verif Require Import Base NumOrd TreeModel TreeSpec BstModel BalModel BstSpec RbSpec BstSep BstRules BstZip BstDel BinThm BstPure BstThm AvlThm SplayThm RbThm RbDel RbDel2 RbDel3.
Local Open Scope py_scope.

Section handle.
Implicit Types (r : option nat) (n : Z).
Lemma plug_ne K l ix u : plug K (Bin l ix u) <> Nil.
Proof. destruct (plug_bin K l ix u) as (? & ? & ? & ->). done. Qed.
Lemma ino_ne (T T' : ptree) : ino T = ino T' -> T' <> Nil -> T <> Nil.
Proof. intros E H ->. destruct T' as [|l ix u]; [done|]. cbn in E. by destruct (ino l). Qed.
Lemma twp_handleL K pi px S r n Q : increasing (ino (plug K (Bin Nil (pi, px) S))) -> r = rp (plug K (Bin Nil (pi, px) S)) ->
  tree None (plug K (Bin Nil (pi, px) S)) ∗
  match outL K (pi, px) S with
  | Some T' => tree None (paint Black T') -∗ Q (inr tt) (rp T') n
  | None => ∀ r', Q (inl AttributeError) r' n
  end ⊢ twp (catch (handle_double_black pi None)) r n Q.
Proof.
  intros Hinc Hr. iIntros "[HT HQ]". unfold handle_double_black. cbind.
  iApply (twp_get_fuel (tree None (plug K (Bin Nil (pi, px) S)))); [apply tree_atleast|]. iFrame "HT". iIntros (fu Hfu) "HT".
  iApply twp_ccbind. iApply (twp_loopL _ K pi px S); [lia|done|done|]. iFrame "HT".
  destruct (outL K (pi, px) S) as [T'|] eqn:Eo; [|done]. iIntros "HT". iApply (twp_finish T'); [|done|iFrame].
  eapply ino_ne; [by eapply outL_ino|apply plug_ne].
Qed.
Lemma twp_handleR K pi px S r n Q : increasing (ino (plug K (Bin S (pi, px) Nil))) -> r = rp (plug K (Bin S (pi, px) Nil)) -> S <> Nil ->
  (forall a s b, S = Bin a s b -> colr S = Black -> colr b = Black -> b = Nil) ->
  tree None (plug K (Bin S (pi, px) Nil)) ∗
  match outR K S (pi, px) with
  | Some T' => tree None (paint Black T') -∗ Q (inr tt) (rp T') n
  | None => ∀ r', Q (inl AttributeError) r' n
  end ⊢ twp (catch (handle_double_black pi None)) r n Q.
Proof.
  intros Hinc Hr HSn HS. iIntros "[HT HQ]". unfold handle_double_black. cbind.
  iApply (twp_get_fuel (tree None (plug K (Bin S (pi, px) Nil)))); [apply tree_atleast|]. iFrame "HT". iIntros (fu Hfu) "HT".
  iApply twp_ccbind. iApply (twp_loopR _ K pi px S); [lia|done|done|done|done|]. iFrame "HT".
  destruct (outR K S (pi, px)) as [T'|] eqn:Eo; [|done]. iIntros "HT". iApply (twp_finish T'); [|done|iFrame].
  eapply ino_ne; [by eapply outR_ino|apply plug_ne].
Qed.
(** The double black node computed wrongly: the left child of [pi], whose right child is gone. *)
Lemma twp_handle_wrong K pi px l r n Q : increasing (ino (plug K (Bin l (pi, px) Nil))) -> r = rp (plug K (Bin l (pi, px) Nil)) -> l <> Nil ->
  tree None (plug K (Bin l (pi, px) Nil)) ∗
  (if is_red (colr l) then tree None (paint Black (plug K (Bin l (pi, px) Nil))) -∗ Q (inr tt) r n
   else ∀ r', Q (inl AttributeError) r' n) ⊢ twp (catch (handle_double_black pi (rp l))) r n Q.
Proof.
  intros Hinc Hr Hl. iIntros "[HT HQ]". unfold handle_double_black. cbind.
  iApply (twp_get_fuel (tree None (plug K (Bin l (pi, px) Nil)))); [apply tree_atleast|]. iFrame "HT". iIntros (fu Hfu) "HT".
  iApply twp_ccbind. destruct l as [|l1 [j y] l2]; [done|]. cbn [rp fst colr snd].
  change (plug K (Bin (Bin l1 (j, y) l2) (pi, px) Nil)) with (plug (InL (pi, px) Nil :: K) (Bin l1 (j, y) l2)).
  iDestruct (tree_at with "HT") as "[HK (Hj & Hl1 & Hl2)]". cbn [rp fst snd].
  iDestruct (ctxp_root (InL (pi, px) Nil :: K) (Some j) j with "[HK Hj]") as "(%Hne & HK & Hj)"; [done|iFrame|].
  assert (r = croot (InL (pi, px) Nil :: K) (Some j)) as Hr2 by (by rewrite Hr rp_plug).
  iApply twp_loop; [lia|rewrite Hr2; by apply not_eq_sym|]. cbn [color_of]. iApply twp_get_color. iFrame "Hj". iIntros "Hj".
  iAssert (tree None (plug (InL (pi, px) Nil :: K) (Bin l1 (j, y) l2))) with "[HK Hj Hl1 Hl2]" as "HT".
  { iApply at_tree. cbn [tree rp fst snd]. iFrame. }
  destruct (is_red (p_color y)).
  - iApply (twp_finish (plug (InL (pi, px) Nil :: K) (Bin l1 (j, y) l2))); [apply plug_ne|done|iFrame].
  - iApply twp_ccbind. iApply (twp_ext _ (catch (step2 pi (Some j)))).
    { intros s. unfold catch. by rewrite step_eq. }
    cbn [plug fill]. iDestruct (tree_at with "HT") as "[HK (Hp & Hl & Hu)]". cbn [fst snd rp]. unfold step2. cget. rewrite bool_decide_eq_true_2 //.
    cbind. iApply (twp_sibL K (Bin l1 (j, y) l2) pi px Nil); [done|done|]. iFrame "HK". cbn [tree fst snd rp]. iFrame "Hp Hl". iIntros "HK HT".
    iApply (twp_turnL K (Bin l1 (j, y) l2) pi px Nil); [done|done|]. iFrame "HK". cbn [tree fst snd rp]. iFrame "HT". cbn [lendL]. iApply "HQ".
Qed.
(** Nothing to do: the double black node is red. *)
Lemma twp_handle_red K l k z u m r n Q : K <> [] -> p_color z = Red -> r = rp (plug K (Bin l (k, z) u)) ->
  tree None (plug K (Bin l (k, z) u)) ∗ (tree None (paint Black (plug K (Bin l (k, z) u))) -∗ Q (inr tt) r n) ⊢
  twp (catch (handle_double_black m (Some k))) r n Q.
Proof.
  intros HK Hz Hr. iIntros "[HT HQ]". unfold handle_double_black. cbind.
  iApply (twp_get_fuel (tree None (plug K (Bin l (k, z) u)))); [apply tree_atleast|]. iFrame "HT". iIntros (fu Hfu) "HT".
  iApply twp_ccbind. iDestruct (tree_at with "HT") as "[HK (Hk & Hl & Hu)]". cbn [fst snd rp].
  iDestruct (ctxp_root K (Some k) k with "[HK Hk]") as "(%Hne & HK & Hk)"; [done|iFrame|].
  assert (r = croot K (Some k)) as Hr2 by (by rewrite Hr rp_plug).
  iApply twp_loop; [lia|rewrite Hr2; by apply not_eq_sym|]. cbn [color_of]. iApply twp_get_color. iFrame "Hk". iIntros "Hk". rewrite Hz. cbn [is_red].
  iApply (twp_finish (plug K (Bin l (k, z) u))); [apply plug_ne|done|]. iFrame "HQ". iApply at_tree. cbn [tree rp fst snd]. iFrame.
Qed.
(** [_transplant] with a leaf as replacement, keeping hold of the leaf that is cut off. *)
Lemma twp_transplant_leaf K i x l k z fu K2 r n Q : 1 <= fu -> 
  ctxp K (Some i) ∗ i ↦ Cell x (rp l) (croot K2 (Some k)) (cpar K) ∗ tree (Some i) l ∗ tree (Some i) (plug K2 (Bin Nil (k, z) Nil)) ∗
  (∀ q, k ↦ Cell (take_pay CRB z x) None None q -∗ tree None (plug (K2 ++ InR l (i, take_pay CRB x z) :: K) Nil) -∗ Q tt r n) ⊢
  twp (transplant (S fu) CRB i (Some k)) r n Q.
Proof.
  intros Hfu. iIntros "(HK & Hi & Hl & HT & HQ)". cbn [transplant]. destruct fu as [|fu]; [lia|].
  iDestruct (tree_focus with "HT") as "[(Hk & _ & _) HT]". cbn [fst snd rp].
  wbind. iApply (twp_node_is_leaf k z Nil Nil). iFrame "Hk". iIntros "Hk". cbn [leafb]. wbind. wret.
  wbind. iApply twp_swap. iFrame "Hi Hk". iIntros "Hi Hk".
  iDestruct ("HT" $! (Bin Nil (k, take_pay CRB z x) Nil) with "[//] [Hk]") as "HT"; [cbn [tree fst snd rp]; by iFrame|].
  iAssert (tree None (plug (K2 ++ InR l (i, take_pay CRB x z) :: K) (Bin Nil (k, take_pay CRB z x) Nil))) with "[HK Hi Hl HT]" as "HT".
  { rewrite plug_app. cbn [plug fill]. iApply at_tree. cbn [tree fst snd rp]. rewrite rp_plug. cbn [rp fst]. iFrame. }
  destruct (K2 ++ InR l (i, take_pay CRB x z) :: K) as [|f K'] eqn:E; [by destruct K2|].
  iDestruct (tree_at with "HT") as "[HK (Hk & _ & _)]". cbn [fst snd rp transplant]. wget. cbn [cpar fnode deref]. wbind. wret.
  destruct f as [[pi px] S|S [pi px]]; cbn [ctxp fst snd]; iDestruct "HK" as "(Hp & HS & HK)"; wget.
  - rewrite bool_decide_eq_true_2 //. iApply (twp_set_left CRB pi None _ _ Nil None S); [done|done|]. iFrame "Hp HS". iIntros "Hp _ HS".
    iApply ("HQ" with "Hk"). cbn [plug fill]. iApply at_tree. cbn [tree fst snd rp refresh]. iFrame.
  - iAssert (⌜rp S <> Some k⌝ ∗ tree (Some pi) S ∗ k ↦ Cell (take_pay CRB z x) None None (Some pi))%I with "[HS Hk]" as "(%Hne & HS & Hk)".
    { destruct S as [|s1 [si sx] s2]; [iFrame; done|]. cbn [tree rp fst snd]. iDestruct "HS" as "(Hs & H1 & H2)".
      iDestruct (pto_ne with "[Hs Hk]") as "(%Hne & Hs & Hk)"; [iFrame "Hs Hk"|]. iFrame. iPureIntro. congruence. }
    rewrite bool_decide_eq_false_2 //. iApply (twp_set_right CRB pi None _ _ Nil None S); [done|done|]. iFrame "Hp HS". iIntros "Hp _ HS".
    iApply ("HQ" with "Hk"). cbn [plug fill]. iApply at_tree. cbn [tree fst snd rp refresh]. iFrame.
Qed.
End handle.
