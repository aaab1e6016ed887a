(** * How far the calls on a SplayTree walk (C86): proofs *)
From Coq Require Import Sorted.
From iris.proofmode Require Import proofmode.
From Verif Require Import Base NumOrd TreeModel TreeSpec BstModel BalModel BstSpec BstSep BstRules BstZip BstDel BinThm BstPure BstThm AvlThm SplayThm.
From Verif Require Import WalkModel WalkSpec WalkThm WalkThm2 TreeIterThm TreeIterThm3 TreeIterThm4 DepthSpec DepthThm DepthThm2 DepthThm3 DepthThm6 DownModel DownSpec DownThm DownThm2 DownThm3 DownThm5 DownModel4 DownSpec3.
Local Open Scope py_scope.

(** ** The counter changes nothing *)
#[local] Hint Resolve co_insert_value co_search_root : co.
Lemma co_splaying : forall f c, counts (splaying_c f c) (splaying f c).
Proof. induction f; intros c; cbn [splaying_c splaying]; cog. Qed.
#[local] Hint Resolve co_splaying : co.
Lemma co_splay i : counts (splay_c i) (splay i).
Proof. unfold splay_c, splay. cog. Qed.
#[local] Hint Resolve co_splay : co.
Lemma co_splay_contains v : counts (splay_contains_c v) (splay_contains v).
Proof. unfold splay_contains_c, splay_contains. cog. Qed.
Lemma co_splay_insert v : counts (splay_insert_c v) (splay_insert v).
Proof. unfold splay_insert_c, splay_insert. cog. Qed.

Lemma co_splay_remove v : counts (splay_remove_c v) (splay_remove v).
Proof. apply co_remove_with. intros x. unfold splay_remove. eapply co_bind; [apply co_remove_value|]. intros [b [i|]]; cbn [fst snd]; cog. Qed.

(** ** The number of calls *)
Fixpoint splaying_n (fuel : nat) (child : nat) : M tst nat :=
  match fuel with
  | 0 => diverge
  | S k =>
      let! p := get_parent child in
      match p with
      | None => ret 1
      | Some parent =>
          let! g := get_grand_parent child in
          match g with
          | None => let! b := is_left_child child in (if b then zig child else zag child) ;; ret 1
          | Some _ =>
              let! b1 := is_left_child parent in
              let! b2 := is_left_child child in
              let! top := (match b1, b2 with
                           | true, true => zig_zig child
                           | true, false => zig_zag child
                           | false, true => zag_zig child
                           | false, false => zag_zag child
                           end) in
              let! q := get_parent top in
              match q with Some _ => let! z := splaying_n k top in ret (S z) | None => ret 1 end
          end
      end
  end.
Lemma am_splaying fu : forall f c s z s', splaying_n fu c s = Ok z s' -> at_most s (splaying_c f c) z.
Proof.
  induction fu as [|fu IH]; intros f c s z s' H; [done|]. destruct f as [|f]; [apply tk_diverge|]. cbn [splaying_n] in H. cbn [splaying_c].
  destruct z as [|z]. { exfalso. revert H. unfold bind, ret. repeat case_match; intros; simplify_eq. }
  change (S z) with (1 + z). amtick. amget H p. destruct p as [p|]; [|eapply am_le; [apply tk_ret|lia]].
  amget H g. destruct g as [g|].
  2:{ amget H b. destruct b; (eapply am_le; [apply tk_lf|lia]). }
  amget H b1. amget H b2. amget H tp. amget H q. destruct q as [q|]; [|eapply am_le; [apply tk_ret|lia]].
  apply (IH f _ _ _ s'). unfold bind in H. match type of H with context [splaying_n ?a ?b ?c] => destruct (splaying_n a b c) as [w s9| |]; try done end. injection H as <- <-. done.
Qed.
Lemma al_splaying f : forall fu c s z s', f <= fu -> splaying_n fu c s = Ok z s' -> at_least s (splaying_c f c) z.
Proof.
  induction f as [|f IH]; intros fu c s z s' Hf H; [apply tk_diverge|]. destruct fu as [|fu]; [lia|]. cbn [splaying_n] in H. cbn [splaying_c].
  destruct z as [|z]. { exfalso. revert H. unfold bind, ret. repeat case_match; intros; simplify_eq. }
  change (S z) with (1 + z). eapply al_bind; [intros k; unfold tick; cbn; lia|]. intros ? ? ? ? E9. injection E9 as _ <- _.
  alget H p. destruct p as [p|]; [|injection H as <- _; apply tk_ret].
  alget H g. destruct g as [g|].
  2:{ alget H b. assert (z = 0) as ->. { destruct b; unfold bind, ret in H; repeat case_match; simplify_eq; done. } destruct b; apply tk_lf. }
  alget H b1. alget H b2. alget H tp. alget H q. destruct q as [q|]; [|injection H as <- _; apply tk_ret].
  apply (IH fu _ _ _ s'); [lia|]. unfold bind in H. match type of H with context [splaying_n ?a ?b ?c] => destruct (splaying_n a b c) as [w s9| |]; try done end. injection H as <- <-. done.
Qed.
Lemma splay_calls_two d : splay_calls (S (S (S d))) = S (splay_calls (S d)).
Proof.
  unfold splay_calls. replace (S (S (S d)) + 1) with (S d + 1 + 1 * 2) by lia. rewrite Nat.div_add //.
  assert (1 <= (S d + 1) / 2) by (apply Nat.div_le_lower_bound; lia). lia.
Qed.
Lemma twp_splaying_n fu : forall K p l j y u r n Q, length K < fu ->
  increasing (zl K ++ p_val y :: zr K) ->
  ctxp K p ∗ tree (cpar K) (Bin l (j, y) u) ∗ (∀ r' n', Q (splay_calls (length K)) r' n') ⊢
  twp (splaying_n fu j) r n Q.
Proof.
  induction fu as [|fu IH]; intros K p l j y u r n Q Hfu Hinc; [lia|].
  destruct K as [|f K].
  { iIntros "(_ & HT & HQ)". cbn [tree cpar splaying_n fst snd]. iDestruct "HT" as "(Hj & Hl & Hu)". wget. wret. iApply "HQ". }
  cbn [splaying_n]. iIntros "(HK & HT & HQ)".
  destruct K as [|g K].
  - cbn [tree cpar fst snd]. iDestruct "HT" as "(Hj & Hl & Hu)". unfold get_grand_parent. wget. cbn [ctxp]. pose proof (side_ok_in _ (Bin Nil (j, y) Nil) Hinc) as Hs.
    destruct f as [[pi px] pv|pv [pi px]]; cbn [fnode fst snd] in *; iDestruct "HK" as "(Hp & Hpv & _)"; wbind; wget; wget1; wbind;
      iApply (twp_is_left_child j y _ _ pi px); iFrame "Hj Hp"; iIntros "Hj Hp"; cbn in Hs; rewrite Hs; wbind.
    + unfold zig. wget. wbind. wret. wget. wbind. unfold set_parent. wwr. wget.
      wbind. iApply (twp_set_left_s pi (rp u) _ _ _ u); [done|]. iFrame "Hp Hu". iIntros "Hp Hu".
      wbind. iApply (twp_set_right_s j (Some pi) _ _ _ (Bin u (pi, px) pv)); [done|]. iSplitL "Hj"; [done|]. iSplitL "Hp Hu Hpv"; [cbn [tree fst snd rp]; iFrame|].
      iIntros "Hj HT". wret. wret. iApply "HQ".
    + unfold zag. wget. wbind. wret. wget. wbind. unfold set_parent. wwr. wget.
      wbind. iApply (twp_set_right_s pi (rp l) _ _ _ l); [done|]. iFrame "Hp Hl". iIntros "Hp Hl".
      wbind. iApply (twp_set_left_s j (Some pi) _ _ _ (Bin pv (pi, px) l)); [done|]. iSplitL "Hj"; [done|]. iSplitL "Hp Hl Hpv"; [cbn [tree fst snd rp]; iFrame|].
      iIntros "Hj HT". wret. wret. iApply "HQ".
  - assert (num_ltb (p_val y) (p_val (fnode f).2) = isl f) as Hf.
    { pose proof (side_ok_in _ (Bin Nil (j, y) Nil) Hinc) as Hs. by destruct f. }
    assert (num_ltb (p_val (fnode f).2) (p_val (fnode g).2) = isl g) as Hg.
    { assert (increasing (zl (g :: K) ++ ino (fill f (Bin Nil (j, y) Nil)) ++ zr (g :: K))) as Hinc2.
      { change (p_val y :: zr (f :: g :: K)) with (ino (Bin Nil (j, y) Nil) ++ zr (f :: g :: K)) in Hinc. rewrite -(ino_plug (f :: g :: K)) in Hinc. by rewrite -(ino_plug (g :: K)). }
      pose proof (side_ok_in _ _ Hinc2) as Hs. by destruct f as [[] ?|? []], g. }
    assert (increasing (zl K ++ p_val y :: zr K)) as Hinc3 by (by apply (inc_drop2 f g)).
    assert (ctxp (f :: g :: K) p ∗ tree (cpar (f :: g :: K)) (Bin l (j, y) u) ∗ (∀ r' n', Q (splay_calls (length (f :: g :: K))) r' n') ⊢
      twp (let! top := step_of f g j in let! q := get_parent top in match q with Some _ => let! z := splaying_n fu top in ret (S z) | None => ret 1 end) r n Q) as Hgo.
    { iIntros "(HK & HT & HQ)". wbind. iApply (twp_double f g K p l j y u). iFrame "HK HT". iIntros "HK HT". cbn [tree fst snd]. iDestruct "HT" as "(Hj & Hl & Hu)". wget.
      destruct K as [|h K].
      - cbn [cpar]. wret. iApply "HQ".
      - cbn [cpar]. wbind. iApply (IH (h :: K) (Some (fnode g).1) (two f g l u).1 j y (two f g l u).2); [cbn in *; lia|done|]. iFrame "HK". cbn [tree fst snd cpar]. iFrame "Hj Hl Hu".
        iIntros (r' n'). wret. cbn [length]. rewrite splay_calls_two. iApply "HQ". }
    revert Hf Hg Hgo. cbn [cpar]. destruct f as [[pi px] pv|pv [pi px]], g as [[gi gx] gv|gv [gi gx]]; cbn [ctxp tree fnode cpar fst snd rp step_of two isl]; intros Hf Hg Hgo;
    iDestruct "HK" as "(Hp & Hpv & Hg & Hgv & HK)"; iDestruct "HT" as "(Hj & Hl & Hu)"; unfold get_grand_parent; wget; wbind; wget; wget1;
    wbind; iApply (twp_is_left_child pi px _ _ gi gx); iFrame "Hp Hg"; iIntros "Hp Hg"; wbind; iApply (twp_is_left_child j y _ _ pi px); iFrame "Hj Hp"; iIntros "Hj Hp";
    rewrite Hf Hg; iApply Hgo; iFrame.
Qed.
Lemma zlast_depth x T : T <> Nil -> length (zlast (zfind x T)).1 = path x (vals T) - 1.
Proof.
  intros HT. pose proof (zfind_depth x T) as H. unfold nodes_above in H. rewrite subtree_at_zfind in H. unfold vals. assert ((zfind x T).1 <> [] \/ (zfind x T).2 <> Nil) as HN by (destruct T; [done|apply zfind_nonempty]).
  destruct (zfind x T) as [K t]. cbn [fst snd] in *. destruct t as [|l ix u].
  - cbn [bin_map] in H. rewrite -H. destruct K as [|[] K]; [by destruct HN|..]; cbn; lia.
  - cbn [bin_map] in H. rewrite zlast_bin. done.
Qed.
Lemma splay_search_calls s T x fu : rep s T -> increasing (ino T) -> T <> Nil -> nlevels T < fu ->
  exists a s', (let! i := search_root x in splaying_n fu i) s = Ok a s' /\ a = splay_calls (path x (vals T) - 1).
Proof.
  intros H Hinc HT Hfu. apply (run_pure _ (fun a => a = _) s T H). rewrite -zlast_depth //.
  iIntros "HT". wbind. iApply (twp_search_root x T); [done|done|]. iFrame "HT". iIntros (j) "%Hj HT".
  destruct (zlast_node x T HT) as (l & [j' y] & u & E & Hb). rewrite E in Hj. injection Hj as ->.
  pose proof (zlast_depth x T HT) as HD. pose proof (path_levels x (vals T)) as HL. unfold vals in HL at 2. rewrite !nlevels_map in HL.
  assert (T = plug (zlast (zfind x T)).1 (Bin l (j, y) u)) as HTz by (by rewrite -E zlast_plug zfind_plug).
  set (K := (zlast (zfind x T)).1) in *. clearbody K. iEval (rewrite HTz) in "HT". iDestruct (tree_at with "HT") as "[HK HT]".
  iApply (twp_splaying_n fu K _ l j y u); [lia| |].
  { rewrite HTz in Hinc. by eapply inc_focus. }
  iFrame "HK HT". by iIntros.
Qed.
Lemma splay_insert_calls s T x fu : rep s T -> increasing (ino T) -> T <> Nil -> nlevels T < fu ->
  exists a s', (let! r := insert_value CSplay x (Fin 0) in splaying_n fu r.2) s = Ok a s' /\ a = splay_calls (nodes_above x (vals T)).
Proof.
  intros H Hinc HT Hfu. apply (run_pure _ (fun a => a = _) s T H). unfold vals. rewrite -zfind_depth.
  iIntros "HT". wbind. iApply (twp_insert_value CSplay x (Fin 0) T); [done|done|]. iFrame "HT". iIntros (w j new) "%Hw HT".
  pose proof (zfind_plug x T) as HP. pose proof (plug_levels (zfind x T).1 (zfind x T).2) as HL. rewrite HP in HL.
  pose proof (zinsert_ino CSplay x new (Pay x 0 (Fin 0) Red) T eq_refl HT Hinc) as HI.
  assert (exists K l y u, zinsert CSplay x new (Pay x 0 (Fin 0) Red) T = plug K (Bin l (j, y) u) /\ length K < fu /\ length K = length (zfind x T).1) as (K & l & y & u & EZ & HK & HKl).
  { unfold zinsert. destruct (zfind x T) as [K t] eqn:EZ. cbn [fst snd] in *. destruct t as [|l [i y] u].
    - destruct Hw as [_ ->]. destruct K as [|f K]; [by subst|].
      exists (f :: K), Nil, (Pay x 0 (Fin 0) Red), Nil. split_and!; [|lia|done]. by destruct f as [[] ?|? []].
    - destruct Hw as [_ Hw]. injection Hw as ->. exists K, l, y, u. split_and!; [by destruct K|lia|done]. }
  rewrite EZ -HKl. cbn [snd]. iDestruct (tree_at with "HT") as "[HK HT]".
  iApply (twp_splaying_n fu K _ l j y u); [lia| |].
  { apply (inc_focus K l j y u). rewrite -EZ HI. by apply set_add_inc. }
  iFrame "HK HT". by iIntros.
Qed.

Lemma zrep_length K t : length (zrep CSplay (K, t)).1 = length K + replacement_branch t.
Proof.
  destruct t as [|l ix u]; [cbn; lia|]. cbn [zrep replacement_branch]. destruct u as [|u1 jy u2].
  - destruct l as [|l1 jy l2]; [cbn; lia|]. cbn zeta. destruct (zmax_shape (Bin l1 jy l2)) as (l3 & ky & ->); [done|]. cbn [fst]. rewrite app_length. cbn [length]. rewrite -(zmax_length (Bin l1 jy l2) ltac:(done)). lia.
  - cbn zeta. destruct (zmin_shape (Bin u1 jy u2)) as (ky & l3 & ->); [done|]. cbn [fst]. rewrite app_length. cbn [length]. rewrite -(zmin_length (Bin u1 jy u2) ltac:(done)). lia.
Qed.
Lemma way_back_found x T : (zfind x T).2 <> Nil -> way_back x (vals T) = length (zfind x T).1 + replacement_branch (zfind x T).2.
Proof.
  intros HN. rewrite zfind_depth. unfold way_back, vals. rewrite subtree_at_zfind. destruct (zfind x T).2 as [|l ix u] eqn:E; [done|].
  rewrite -(branch_map snd) -(branch_map p_val). done.
Qed.
Lemma splay_remove_calls s T x fu : rep s T -> increasing (ino T) -> T <> Nil -> ((zfind x T).1 = [] -> leafb (zfind x T).2 = false) -> nlevels T < fu ->
  exists a s', (let! r := remove_value CSplay x in match r.2 with Some i => splaying_n fu i | None => raise AssertionError end) s = Ok a s' /\
    a = splay_calls (match subtree_at x (vals T) with Nil => path x (vals T) | _ => way_back x (vals T) end - 1).
Proof.
  intros H Hinc HT HLf Hfu. apply (run_pure _ (fun a => a = _) s T H). iIntros "HT". wbind. iApply (twp_remove_value CSplay x T); [done|done|done|].
  pose proof (way_back_levels x (vals T)) as HWL. unfold vals in HWL at 2. rewrite !nlevels_map in HWL.
  pose proof (path_levels x (vals T)) as HPL. unfold vals in HPL at 2. rewrite !nlevels_map in HPL.
  pose proof (zlast_depth x T HT) as HD. pose proof (zfind_depth x T) as HD2. pose proof (zfind_plug x T) as HP. pose proof (way_back_found x T) as HW.
  unfold vals at 1. rewrite subtree_at_zfind.
  iFrame "HT". destruct (zfind x T) as [K t] eqn:EZ. cbn [fst snd] in *. destruct t as [|l ix u].
  - iIntros (j) "%Hj HT". cbn [snd bin_map].
    destruct (zlast_node x T HT) as (l & [j' y] & u & E & Hb). rewrite EZ in E. rewrite E in Hj. injection Hj as ->.
    pose proof (zlast_plug (K, Nil)) as HPl. cbn [fst snd] in HPl. rewrite HP E in HPl. rewrite -HD.
    set (K1 := (zlast (K, Nil)).1) in *. clearbody K1. iEval (rewrite -HPl) in "HT". iDestruct (tree_at with "HT") as "[HK HT]".
    iApply (twp_splaying_n fu K1 _ l j y u); [lia| |].
    { rewrite -HPl in Hinc. by eapply inc_focus. }
    iFrame "HK HT". by iIntros.
  - assert (~ (K = [] /\ l = Nil /\ u = Nil)) as HL. { intros (-> & -> & ->). by specialize (HLf eq_refl). }
    iIntros "HT". cbn [snd fst bin_map]. rewrite HW //.
    assert (length (zremove CSplay (K, Bin l ix u)).1 = length K + replacement_branch (Bin l ix u) - 1) as HZ.
    { rewrite -zrep_length. unfold zremove. destruct (zrep CSplay (K, Bin l ix u)) as [[|f K'] t']; cbn; lia. }
    rewrite HW // in HWL. rewrite -HZ. set (z := zremove CSplay (K, Bin l ix u)) in *.
    destruct z.2 as [|zl1 [j y] zu] eqn:Ez. { exfalso. by apply (zremove_ne CSplay K l ix u). }
    cbn [rp snd fst]. iDestruct (tree_at with "HT") as "[HK HT]". iApply (twp_splaying_n fu z.1 _ zl1 j y zu); [lia| |].
    { apply (zremove_inc CSplay K l ix u zl1 j y zu); [|done|intros ->; destruct l, u; naive_solver]. rewrite -HP ino_plug in Hinc. done. }
    iFrame "HK HT". by iIntros.
Qed.

(** ** The calls *)
Lemma tk_splay_contains s T x : rep s T -> increasing (ino T) -> T <> Nil ->
  takes s (splay_contains_c (PNum x)) (path x (vals T) + splay_calls (path x (vals T) - 1)).
Proof.
  intros H Hi HT. pose proof (rep_held' s T H) as H1. unfold splay_contains_c. apply tk_lfb. intros y s' E. injection E as <- <-.
  eapply tk_bind; [by apply (tk_search_root x s T H1)|].
  intros i s1 k k' Ei%(co_ok _ _ _ _ _ _ _ (co_search_root x)).
  apply tk_bind0; [|intros; apply tk_lfb; intros; apply tk_ret]. unfold splay_c. apply tk_lfb. intros n s3 E3. injection E3 as En <-.
  apply tk_bind0; [|intros; apply tk_lf].
  destruct (splay_search_calls s T x (Nat.max n (S (nlevels T))) H Hi HT) as (a & s3 & E & ->); [lia|]. rewrite (bind_ok _ _ _ _ _ Ei) in E.
  split; [by eapply am_splaying|]. eapply al_splaying; [|exact E]. lia.
Qed.
Lemma tk_splay_insert s T x : rep s T -> increasing (ino T) -> T <> Nil ->
  takes s (splay_insert_c (PNum x)) (path x (vals T) + splay_calls (nodes_above x (vals T))).
Proof.
  intros H Hi HT. pose proof (rep_held' s T H) as H1. unfold splay_insert_c. apply tk_lfb. intros y s' E. injection E as <- <-.
  apply (tk_lfk _ _ _ _ _ (rep_empty s T H)). assert ((match T with Nil => true | _ => false end) = false) as -> by (by destruct T).
  eapply tk_bind; [by apply (tk_insert_value CSplay x (Fin 0) s T H1)|].
  intros r s1 k k' Er%(co_ok _ _ _ _ _ _ _ (co_insert_value CSplay x (Fin 0))).
  apply tk_bind0; [|intros; apply tk_ret]. unfold splay_c. apply tk_lfb. intros n s3 E3. injection E3 as En <-.
  apply tk_bind0; [|intros; apply tk_lf].
  destruct (splay_insert_calls s T x (Nat.max n (S (nlevels T))) H Hi HT) as (a & s3 & E & ->); [lia|]. rewrite (bind_ok _ _ _ _ _ Er) in E.
  split; [by eapply am_splaying|]. eapply al_splaying; [|exact E]. lia.
Qed.
Lemma tk_splay_remove s T x : rep s T -> increasing (ino T) -> T <> Nil ->
  takes s (splay_remove_c (PNum x)) (if only_value x (vals T) then 0 else removal_steps x (vals T) +
    splay_calls (match subtree_at x (vals T) with Nil => path x (vals T) | _ => way_back x (vals T) end - 1)).
Proof.
  intros H Hi HT. destruct (rep_held s T H) as (T1 & H1 & EV & EL). unfold splay_remove_c. rewrite -EV.
  eapply tk_eq; [apply (tk_remove_with (PNum x) _ s T1 (fun x => removal_steps x (vmap T1) +
    splay_calls (match subtree_at x (vmap T1) with Nil => path x (vmap T1) | _ => way_back x (vmap T1) end - 1)) H1)|].
  2:{ destruct T1; [|done]. exfalso. by destruct T. }
  intros ? [= <-] HT1 Eo. eapply tk_bind; [by apply (tk_remove_value CSplay x s T1 H1)|].
  intros r s1 k k' Er%(co_ok _ _ _ _ _ _ _ (co_remove_value CSplay x)). rewrite EV in Eo |- *.
  assert ((zfind x T).1 = [] -> leafb (zfind x T).2 = false) as HLf.
  { intros HK. pose proof (zfind_plug x T) as HP. pose proof (zfind_val x T) as HV. rewrite HK in HP. cbn in HP. rewrite HP in HV |- *.
    destruct (leafb T) eqn:El; [|done]. exfalso. destruct T as [|[] ix []]; try done. specialize (HV _ _ _ eq_refl).
    cbn in Eo. by rewrite HV bool_decide_eq_true_2 in Eo. }
  destruct r as [b [i|]]; cbn [fst snd].
  2:{ exfalso. destruct (splay_remove_calls s T x (S (nlevels T)) H Hi HT HLf) as (a & s3 & E & _); [lia|]. by rewrite (bind_ok _ _ _ _ _ Er) in E. }
  apply tk_bind0; [|intros; apply tk_ret]. unfold splay_c. apply tk_lfb. intros n s3 E3. injection E3 as En <-.
  apply tk_bind0; [|intros; apply tk_lf].
  destruct (splay_remove_calls s T x (Nat.max n (S (nlevels T))) H Hi HT HLf) as (a & s3 & E & ->); [lia|]. rewrite (bind_ok _ _ _ _ _ Er) in E. cbn [snd] in E.
  split; [by eapply am_splaying|]. eapply al_splaying; [|exact E]. lia.
Qed.
