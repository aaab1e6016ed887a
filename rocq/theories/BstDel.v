(** * What removal (bst.py:814-979) does to the tree in memory *)
From iris.proofmode Require Import proofmode.
From Verif Require Import Base TreeModel BstModel BstSep BstRules BstZip.
Local Open Scope py_scope.

(** Payload [x] after [swap] with a node whose payload is [y]. *)
Definition take_pay (c : tcls) (x y : pay) : pay :=
  match c with CRB => pay_color (p_color y) (pay_val (p_val y) x) | _ => pay_val (p_val y) x end.
Lemma take_take c x y z : take_pay c (take_pay c x y) z = take_pay c x z.
Proof. by destruct c. Qed.
Definition leafb {A} (t : bin A) : bool := match t with Bin Nil _ Nil => true | _ => false end.
(** The tree below a node whose value is being deleted by [_transplant]: every node on
    the way to a leaf takes the value of the next one; the leaf disappears. *)
Fixpoint chain (c : tcls) (t : ptree) : ptree :=
  match t with
  | Nil => Nil
  | Bin l ix u =>
      match l with
      | Bin _ jy _ =>
          (if leafb l then node c else Bin) (chain c l) (ix.1, take_pay c ix.2 jy.2) u
      | Nil =>
          match u with
          | Bin _ jy _ =>
              (if leafb u then node c else Bin) l (ix.1, take_pay c ix.2 jy.2) (chain c u)
          | Nil => Nil
          end
      end
  end.
(** The same with the parent, whose setter is called when the node is a leaf. *)
Definition putdel (c : tcls) (f : frame) (t : ptree) : ptree :=
  if leafb t then fillc c f Nil else fill f (chain c t).
(** The [new_replacement] of bst.py:894-899. *)
Definition next_rep (t : ptree) : option nat :=
  match t with
  | Nil => None
  | Bin Nil _ u => rp u
  | Bin l _ _ => rp l
  end.
Lemma chain_root c l j x y u : chain c (Bin l (j, take_pay c x y) u) = chain c (Bin l (j, x) u).
Proof. destruct l as [|l1 jy l2]; [destruct u as [|u1 jy u2]; [done|]|]; cbn [chain fst snd]; by rewrite take_take. Qed.
Lemma chain_l c l1 jy l2 ix u : chain c (Bin (Bin l1 jy l2) ix u) =
  (if leafb (Bin l1 jy l2) then node c else Bin) (chain c (Bin l1 jy l2)) (ix.1, take_pay c ix.2 jy.2) u.
Proof. done. Qed.
Lemma chain_u c u1 jy u2 ix : chain c (Bin Nil ix (Bin u1 jy u2)) =
  (if leafb (Bin u1 jy u2) then node c else Bin) Nil (ix.1, take_pay c ix.2 jy.2) (chain c (Bin u1 jy u2)).
Proof. done. Qed.
Lemma chain_leaf c t : leafb t = true -> chain c t = Nil.
Proof. by destruct t as [|[] ? []]. Qed.
Lemma leafb_root {A} (l u : bin A) x y : leafb (Bin l x u) = leafb (Bin l y u).
Proof. done. Qed.
Lemma next_rep_root l x y u : next_rep (Bin l x u) = next_rep (Bin l y u).
Proof. done. Qed.

Lemma pto_ne i c c' : i ↦ c ∗ i ↦ c' ⊢ False.
Proof.
  constructor. intros h (h1 & h2 & Hd & _ & H1 & H2). cbn in *.
  assert (h2 !! i = None) as H3 by (eapply map_disjoint_Some_l; [exact Hd|exact H1]).
  cbn in H2. by rewrite H2 in H3.
Qed.

Section del.
Implicit Types (r : option nat) (n : Z).
Lemma twp_swap c i j x l u p y l' u' p' r n Q :
  i ↦ Cell x l u p ∗ j ↦ Cell y l' u' p' ∗
  (i ↦ Cell (take_pay c x y) l u p -∗ j ↦ Cell (take_pay c y x) l' u' p' -∗ Q tt r n) ⊢
  twp (swap c i j) r n Q.
Proof.
  iIntros "(Hi & Hj & HQ)". unfold swap. wbind. wrd. wbind. wrd. wbind. wwr. wbind. wwr.
  destruct c; try (wret; iApply ("HQ" with "Hi Hj")). wbind. wwr. wwr. iApply ("HQ" with "Hi Hj").
Qed.
Lemma tree_ne i c q t : i ↦ c ∗ tree q t ⊢ ⌜rp t <> Some i⌝.
Proof.
  destruct t as [|l [j y] u]; cbn [rp tree fst snd]; [by iIntros "_"|].
  iIntros "(Hi & Hj & _)". iIntros ([= ->]). iApply (pto_ne with "[$Hi $Hj]").
Qed.
Lemma twp_node_is_leaf i x l u p r n Q :
  i ↦ Cell x (rp l) (rp u) p ∗ (i ↦ Cell x (rp l) (rp u) p -∗ Q (leafb (Bin l (i, x) u)) r n) ⊢
  twp (node_is_leaf i) r n Q.
Proof.
  iIntros "[Hi HQ]". unfold node_is_leaf. wget. wget. wret.
  destruct l as [|l1 [j y] l2], u as [|u1 [k z] u2]; cbn [rp fst leafb]; iApply ("HQ" with "Hi").
Qed.
(** The choice of the next replacement. *)
Lemma twp_next i x l u p r n Q :
  i ↦ Cell x (rp l) (rp u) p ∗ (i ↦ Cell x (rp l) (rp u) p -∗ Q (next_rep (Bin l (i, x) u)) r n) ⊢
  twp (if leafb (Bin l (i, x) u) then ret None
       else let! l := get_left i in match l with Some _ => ret l | None => get_right i end) r n Q.
Proof.
  iIntros "[Hi HQ]". destruct (leafb (Bin l (i, x) u)) eqn:E.
  - destruct l, u; try done. wret. iApply ("HQ" with "Hi").
  - wget. destruct l as [|l1 [j y] l2]; cbn [rp fst].
    + wget1. iApply ("HQ" with "Hi").
    + wret. iApply ("HQ" with "Hi").
Qed.
Lemma twp_transplant c t f K fu j r n Q : rp t = Some j -> bsize t <= fu ->
  ctxp (f :: K) (Some j) ∗ tree (Some (fnode f).1) t ∗ (tree None (plug K (putdel c f t)) -∗ Q tt r n) ⊢
  twp (transplant fu c j (next_rep t)) r n Q.
Proof.
  revert t f K j. induction fu as [|fu IH]; intros t f K j Hj Hfu; [by destruct t; cbn in Hfu; [|lia]|].
  destruct t as [|l [j' x] u]; [done|]. cbn in Hj. injection Hj as ->. cbn [bsize] in Hfu.
  iIntros "(Hf & (Hj & Hl & Hu) & HQ)". cbn [fst snd].
  destruct l as [|l1 [k y] l2]; [destruct u as [|u1 [k y] u2]|].
  - (* leaf *)
    cbn [transplant next_rep rp]. wget. wbind. wret.
    unfold putdel. cbn [leafb].
    destruct f as [[i z] v|v [i z]]; cbn [fnode ctxp fst snd].
    + iDestruct "Hf" as "(Hi & Hv & HK)". wget. rewrite bool_decide_eq_true_2 //.
      iApply (twp_set_left c i None _ _ Nil None v); [done|done|]. iFrame "Hi Hv".
      iIntros "Hi _ Hv". iApply "HQ". iApply at_tree. cbn [fillc node tree rp fst snd]. iFrame.
    + iDestruct "Hf" as "(Hi & Hv & HK)". wget.
      iDestruct (tree_ne with "[$Hj $Hv]") as %Hne.
      rewrite bool_decide_eq_false_2 //.
      iApply (twp_set_right c i None _ _ Nil None v); [done|done|]. iFrame "Hi Hv".
      iIntros "Hi _ Hv". iApply "HQ". iApply at_tree. cbn [fillc node tree rp fst snd]. iFrame.
  - (* only a right child *)
    cbn [transplant next_rep rp fst tree snd]. iDestruct "Hu" as "(Hk & Hu1 & Hu2)".
    wbind. iApply (twp_node_is_leaf k y u1 u2). iFrame "Hk". iIntros "Hk".
    wbind. iApply (twp_next k y u1 u2). iFrame "Hk". iIntros "Hk".
    wbind. iApply twp_swap. iFrame "Hj Hk". iIntros "Hj Hk".
    rewrite (next_rep_root _ _ (k, take_pay c y x)).
    iApply (IH (Bin u1 (k, take_pay c y x) u2) (InR Nil (j, take_pay c x y)) (f :: K)); [done|cbn [bsize] in *; lia|].
    cbn [ctxp fst snd cpar fnode tree rp]. iFrame "Hj Hk Hu1 Hu2 Hl Hf". iIntros "HT". iApply "HQ".
    cbn [plug]. unfold putdel. rewrite chain_root (leafb_root _ _ _ (k, y)).
    rewrite chain_u. cbn [fst snd].
    destruct (leafb (Bin u1 (k, y) u2)) eqn:E; [|done]. by rewrite (chain_leaf _ _ E).
  - cbn [transplant next_rep rp fst tree snd]. iDestruct "Hl" as "(Hk & Hu1 & Hu2)".
    wbind. iApply (twp_node_is_leaf k y l1 l2). iFrame "Hk". iIntros "Hk".
    wbind. iApply (twp_next k y l1 l2). iFrame "Hk". iIntros "Hk".
    wbind. iApply twp_swap. iFrame "Hj Hk". iIntros "Hj Hk".
    rewrite (next_rep_root _ _ (k, take_pay c y x)).
    iApply (IH (Bin l1 (k, take_pay c y x) l2) (InL (j, take_pay c x y) u) (f :: K)); [done|cbn [bsize] in *; lia|].
    cbn [ctxp fst snd cpar fnode tree rp]. iFrame "Hj Hk Hu1 Hu2 Hu Hf". iIntros "HT". iApply "HQ".
    cbn [plug]. unfold putdel. rewrite chain_root (leafb_root _ _ _ (k, y)).
    rewrite chain_l. cbn [fst snd].
    destruct (leafb (Bin l1 (k, y) l2)) eqn:E; [|done]. by rewrite (chain_leaf _ _ E).
Qed.

(** Where [_transplant] ends up working: the frames above the first node whose value
    moves up, that node included. *)
Definition zrep (c : tcls) (q : ctx * ptree) : ctx * ptree :=
  match q with
  | (K, Bin l ix u) =>
      match u with
      | Bin _ _ _ =>
          let w := zmin u in
          match w.2 with
          | Bin _ jy _ => (w.1 ++ InR l (ix.1, take_pay c ix.2 jy.2) :: K, w.2)
          | Nil => q
          end
      | Nil =>
          match l with
          | Bin _ _ _ =>
              let w := zmax l in
              match w.2 with
              | Bin _ jy _ => (w.1 ++ InL (ix.1, take_pay c ix.2 jy.2) u :: K, w.2)
              | Nil => q
              end
          | Nil => q
          end
      end
  | _ => q
  end.
(** The zipper after removal: focused on the parent of the place that was emptied. *)
Definition zremove (c : tcls) (q : ctx * ptree) : ctx * ptree :=
  match zrep c q with
  | (f :: K, t) => (K, putdel c f t)
  | q' => q'
  end.

Definition cparx (K : ctx) (par : option nat) : option nat := match K with [] => par | f :: _ => Some (fnode f).1 end.
Lemma tree_focus K t par :
  tree par (plug K t) ⊢ tree (cparx K par) t ∗ (∀ t', ⌜rp t' = rp t⌝ -∗ tree (cparx K par) t' -∗ tree par (plug K t')).
Proof.
  revert t. induction K as [|f K IH]; intros t; cbn [plug cparx].
  - iIntros "$". iIntros (t') "_ $".
  - rewrite IH. iIntros "[Ht HK]". destruct f as [[i x] u|u [i x]]; cbn [fill tree fst snd fnode].
    + iDestruct "Ht" as "(Hi & $ & Hu)". iIntros (t' Ht') "Ht". iApply "HK"; [done|]. cbn [tree fst snd]. rewrite Ht'. iFrame.
    + iDestruct "Ht" as "(Hi & Hu & $)". iIntros (t' Ht') "Ht". iApply "HK"; [done|]. cbn [tree fst snd]. rewrite Ht'. iFrame.
Qed.
Lemma putdel_root c f l j x y u : putdel c f (Bin l (j, take_pay c x y) u) = putdel c f (Bin l (j, x) u).
Proof. unfold putdel. by rewrite chain_root. Qed.
Lemma rp_putdel c f t : rp (putdel c f t) = Some (fnode f).1.
Proof. unfold putdel. destruct (leafb t), f; done. Qed.
Lemma zremove_eq c q K f t : zrep c q = (K, t) -> K <> [] -> K = f :: tail K -> zremove c q = (tail K, putdel c f t).
Proof. intros H _ HK. unfold zremove. rewrite H. rewrite HK. done. Qed.
Lemma app_cons_head (K2 : ctx) f K : exists g K', K2 ++ f :: K = g :: K' /\ (fnode g).1 = default (fnode f).1 (cpar K2).
Proof. destruct K2 as [|g K2]; cbn; eauto. Qed.
Lemma bsize_plug_le K t : bsize t <= bsize (plug K t).
Proof.
  revert t. induction K as [|f K IH]; intros t; cbn [plug]; [done|].
  etrans; [|apply IH]. destruct f; cbn [fill bsize]; lia.
Qed.

(** The part of [_remove] after the replacement was found below: [g] is the frame of the
    node whose value goes, [i] that node, [j] the replacement. *)
Lemma twp_transplant_far c K g g' K2 i x l u p j y l2 u2 fu r n Q :
  fnode g = (i, x) -> g' = (match g with InL _ v => InL (i, take_pay c x y) v | InR v _ => InR v (i, take_pay c x y) end) ->
  bsize (Bin l2 (j, y) u2) <= fu ->
  (forall w, fill g w = Bin (match g with InL _ _ => w | InR v _ => v end) (i, x) (match g with InL _ v => v | InR _ _ => w end)) ->
  l = match g with InL _ _ => plug K2 (Bin l2 (j, y) u2) | InR v _ => v end ->
  u = match g with InL _ v => v | InR _ _ => plug K2 (Bin l2 (j, y) u2) end ->
  p = cpar K ->
  ctxp K (Some i) ∗ i ↦ Cell x (rp l) (rp u) p ∗ tree (Some i) l ∗ tree (Some i) u ∗
  (tree None (match K2 ++ g' :: K with f :: K' => plug K' (putdel c f (Bin l2 (j, y) u2)) | [] => Nil end) -∗ Q tt r n) ⊢
  twp (transplant (S fu) c i (Some j)) r n Q.
Proof.
  intros Hg Hg' Hfu _ -> -> ->. iIntros "(HK & Hi & Hl & Hu & HQ)". cbn [transplant].
  iAssert (∃ W, tree (Some i) W ∗ i ↦ Cell x (match g with InL _ _ => croot K2 (Some j) | InR v _ => rp v end)
                   (match g with InL _ v => rp v | InR _ _ => croot K2 (Some j) end) (cpar K) ∗
            tree (Some i) (plug K2 (Bin l2 (j, y) u2)) ∗ ⌜W = match g with InL _ v | InR v _ => v end⌝)%I
    with "[Hi Hl Hu]" as (W) "(HW & Hi & Ht & ->)".
  { destruct g as [ix v|v ix]; rewrite rp_plug; iExists v; by iFrame. }
  iDestruct (tree_focus with "Ht") as "[(Hj & Hl2 & Hu2) HT]". cbn [fst snd].
  wbind. iApply (twp_node_is_leaf j y l2 u2). iFrame "Hj". iIntros "Hj".
  wbind. iApply (twp_next j y l2 u2). iFrame "Hj". iIntros "Hj".
  wbind. iApply twp_swap. iFrame "Hi Hj". iIntros "Hi Hj".
  iDestruct ("HT" $! (Bin l2 (j, take_pay c y x) u2) with "[//] [Hj Hl2 Hu2]") as "HT"; [cbn [tree fst snd]; iFrame|].
  rewrite (next_rep_root _ _ (j, take_pay c y x)).
  iAssert (tree None (plug (K2 ++ g' :: K) (Bin l2 (j, take_pay c y x) u2))) with "[HK Hi HW HT]" as "HT".
  { rewrite plug_app. cbn [plug]. iApply at_tree. subst g'. destruct g as [[i' x'] v|v [i' x']]; cbn in Hg; injection Hg as -> ->;
      cbn [fill tree rp fst snd]; rewrite rp_plug; cbn [rp fst]; iFrame. }
  destruct (K2 ++ g' :: K) as [|f K'] eqn:E; [by destruct K2|].
  iDestruct (tree_at with "HT") as "[HK HT]".
  iApply (twp_transplant c (Bin l2 (j, take_pay c y x) u2) f K'); [done|done|].
  iFrame. by rewrite putdel_root.
Qed.
Lemma zlast_bin K l ix u : zlast (K, Bin l ix u) = (K, Bin l ix u).
Proof. by destruct K. Qed.
Lemma zfind_last_ne v T f K : zfind v T = (f :: K, Nil) -> p_val (fnode f).2 <> v.
Proof.
  revert f K. induction T as [|l IHl [i x] u IHu]; intros f K; [done|]. cbn [zfind snd].
  destruct (bool_decide (v = p_val x)) eqn:E; [done|]. apply bool_decide_eq_false in E.
  destruct (num_ltb v (p_val x)).
  - destruct (zfind v l) as [[|g K'] t'] eqn:E'; cbn [fst snd app]; intros [= <- <- ->]; [cbn; congruence|by eapply IHl].
  - destruct (zfind v u) as [[|g K'] t'] eqn:E'; cbn [fst snd app]; intros [= <- <- ->]; [cbn; congruence|by eapply IHu].
Qed.
Lemma twp_remove_value c v T r n Q : r = rp T -> T <> Nil ->
  ((zfind v T).1 = [] -> leafb (zfind v T).2 = false) ->
  tree None T ∗
  (match (zfind v T).2 with
   | Nil => ∀ j, ⌜rp (zlast (zfind v T)).2 = Some j⌝ -∗ tree None T -∗ Q (true, Some j) r n
   | _ => tree None (plug (zremove c (zfind v T)).1 (zremove c (zfind v T)).2) -∗
          Q (false, rp (zremove c (zfind v T)).2) r (n + -1)%Z
   end) ⊢ twp (remove_value c v) r n Q.
Proof.
  intros Hr HT Hleaf. iIntros "[HT HQ]". unfold remove_value. wbind.
  iApply (twp_search_root v T); [done|done|]. iFrame "HT". iIntros (i Hi) "HT". wbind.
  pose proof (zfind_plug v T) as HP. pose proof (zfind_val v T) as HV. pose proof (zlast_plug (zfind v T)) as HL.
  destruct (zfind v T) as [K t] eqn:EF. cbn [fst snd] in *.
  destruct t as [|l [i' x] u].
  - destruct K as [|f K]; [by subst T; destruct HT|]. cbn [zlast fst snd] in *.
    destruct (fill f Nil) as [|l' [j y] u'] eqn:Ef; [by destruct f|]. cbn in Hi. injection Hi as ->.
    iApply (twp_get_data_at T K l' (i, y) u'); [by subst T|done|]. iFrame "HT". iIntros "HT".
    assert ((i, y) = fnode f) as Hf by (destruct f; cbn in Ef |- *; by injection Ef).
    rewrite bool_decide_eq_false_2; [|pose proof (zfind_last_ne _ _ _ _ EF) as HN; by rewrite -Hf in HN].
    cbn [negb]. wret. iApply "HQ"; [done|]. iFrame.
  - rewrite zlast_bin in Hi. cbn in Hi. injection Hi as ->. specialize (HV _ _ _ eq_refl). cbn [snd] in HV.
    iApply (twp_get_data_at T K l (i, x) u); [by subst T|done|]. iFrame "HT". iIntros "HT". rewrite bool_decide_eq_true_2 //. cbn [negb].
    clear HL EF. subst T. iDestruct (tree_at with "HT") as "[HK (Hi & Hl & Hu)]". cbn [fst snd rp].
    unfold find_replacement. wbind. wget.
    destruct u as [|u1 [k z] u2].
    + cbn [rp]. wget. destruct l as [|l1 [k z] l2].
      * (* a leaf *)
        cbn [rp]. wret. wget. destruct K as [|f K]; [by specialize (Hleaf eq_refl)|].
        wbind. iApply (twp_get_fuel emp%I 0); [apply atleast_0|]. iSplitR; [done|]. iIntros (fu Hfu) "_".
        wbind. iApply (twp_transplant c (leaf_of i x) f K (S fu)); [done|cbn; lia|].
        cbn [leaf_of tree rp fst snd cpar]. iFrame "HK Hi". iSplitR; [done|]. iIntros "HT".
        wbind. iApply twp_add_len. wret.
        unfold zremove. cbn [zrep fst snd]. rewrite rp_putdel. iApply ("HQ" with "HT").
      * destruct (zmax_shape (Bin l1 (k, z) l2)) as (l3 & [j y] & Ej); [done|].
        pose proof (zmax_plug (Bin l1 (k, z) l2)) as Hpl. rewrite Ej in Hpl.
        set (l := Bin l1 (k, z) l2) in *. change (rp l) with (Some k).
        wbind. iApply twp_get_fuel; [apply (tree_atleast (Some i) l)|]. iFrame "Hl". iIntros (fu Hfu) "Hl".
        wbind. iApply (twp_get_max_node l (Some i)); [lia|done|]. iFrame "Hl". iIntros (j') "%Hj' Hl".
        rewrite Ej in Hj'. injection Hj' as <-. wret.
        wbind. iAssert (tree (Some i) (plug (zmax l).1 (Bin l3 (j, y) Nil))) with "[Hl]" as "Hl"; [by rewrite Hpl|].
        iDestruct (tree_focus with "Hl") as "[(Hj & Hl3 & Hu3) HT]". cbn [fst snd]. wget1.
        iDestruct ("HT" $! (Bin l3 (j, y) Nil) with "[//] [Hj Hl3 Hu3]") as "Hl"; [cbn [tree fst snd]; iFrame|].
        wbind. iApply twp_get_fuel; [apply tree_atleast|]. iFrame "Hl". iIntros (fu' Hfu') "Hl".
        pose proof (bsize_plug_le (zmax l).1 (Bin l3 (j, y) Nil)) as Hle.
        wbind. iApply (twp_transplant_far c K (InL (i, x) Nil) (InL (i, take_pay c x y) Nil) (zmax l).1 i x); try done; [lia|].
        rewrite Hpl. change (rp l) with (Some k). cbn [rp]. iFrame "HK Hi Hl Hu". iIntros "HT".
        wbind. iApply twp_add_len. wret.
        unfold zremove, zrep. subst l. cbn [fst snd]. rewrite Ej. cbn [snd].
        destruct ((zmax (Bin l1 (k, z) l2)).1) as [|g K2]; cbn [app fst snd] in *; rewrite rp_putdel; iApply ("HQ" with "HT").
    + destruct (zmin_shape (Bin u1 (k, z) u2)) as ([j y] & u3 & Ej); [done|].
      pose proof (zmin_plug (Bin u1 (k, z) u2)) as Hpl. rewrite Ej in Hpl.
      set (u := Bin u1 (k, z) u2) in *. change (rp u) with (Some k).
      wbind. iApply twp_get_fuel; [apply (tree_atleast (Some i) u)|]. iFrame "Hu". iIntros (fu Hfu) "Hu".
      wbind. iApply (twp_get_min_node u (Some i)); [lia|done|]. iFrame "Hu". iIntros (j') "%Hj' Hu".
      rewrite Ej in Hj'. injection Hj' as <-. wret.
      wbind. iAssert (tree (Some i) (plug (zmin u).1 (Bin Nil (j, y) u3))) with "[Hu]" as "Hu"; [by rewrite Hpl|].
      iDestruct (tree_focus with "Hu") as "[(Hj & Hl3 & Hu3) HT]". cbn [fst snd]. wget1.
      iDestruct ("HT" $! (Bin Nil (j, y) u3) with "[//] [Hj Hl3 Hu3]") as "Hu"; [cbn [tree fst snd]; iFrame|].
      wbind. iApply twp_get_fuel; [apply tree_atleast|]. iFrame "Hu". iIntros (fu' Hfu') "Hu".
      pose proof (bsize_plug_le (zmin u).1 (Bin Nil (j, y) u3)) as Hle.
      wbind. iApply (twp_transplant_far c K (InR l (i, x)) (InR l (i, take_pay c x y)) (zmin u).1 i x); try done; [lia|].
      rewrite Hpl. change (rp u) with (Some k). iFrame "HK Hi Hl Hu". iIntros "HT".
      wbind. iApply twp_add_len. wret.
      unfold zremove, zrep. subst u. cbn [fst snd]. rewrite Ej. cbn [snd].
      destruct ((zmin (Bin u1 (k, z) u2)).1) as [|g K2]; cbn [app fst snd] in *; rewrite rp_putdel; iApply ("HQ" with "HT").
Qed.
End del.
