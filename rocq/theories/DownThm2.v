(** * How far the calls on a search tree walk (C83): the walk back up of an AVL tree *)
From Coq Require Import Sorted.
From iris.proofmode Require Import proofmode.
From Verif Require Import Base NumOrd TreeModel TreeSpec BstModel BalModel BstSpec BstSep BstRules BstZip BstDel BinThm BstPure BstThm AvlThm DepthSpec DownSpec.
Local Open Scope py_scope.

Lemma run_ok {A} (m : M tst A) s T : rep s T -> (tree None T ⊢ twp m (rp T) (Z.of_nat (bsize T)) (fun _ _ _ => True%I)) -> exists a s', m s = Ok a s'.
Proof.
  intros (h & Hs & HT & Hr & Hn) Hm. rewrite -Hr -Hn in Hm. destruct (twp_run _ _ _ _ _ Hm HT Hs) as (a & s' & h' & E & _). by exists a, s'.
Qed.
Lemma plug_levels K : forall t, length K + nlevels t <= nlevels (plug K t).
Proof.
  induction K as [|f K IH]; intros t; [done|]. cbn [plug length]. etrans; [|apply IH]. destruct f; cbn [fill nlevels]; lia.
Qed.
Lemma run_pure {A} (m : M tst A) (P : A -> Prop) s T : rep s T -> (tree None T ⊢ twp m (rp T) (Z.of_nat (bsize T)) (fun a _ _ => ⌜P a⌝%I)) ->
  exists a s', m s = Ok a s' /\ P a.
Proof.
  intros (h & Hs & HT & Hr & Hn) Hm. rewrite -Hr -Hn in Hm. destruct (twp_run _ _ _ _ _ Hm HT Hs) as (a & s' & h' & E & _ & HQ). exists a, s'. split; [done|exact HQ].
Qed.
Lemma zfind_depth x T : length (zfind x T).1 = nodes_above x (bin_map p_val (bin_map snd T)).
Proof.
  unfold nodes_above. rewrite subtree_at_zfind. induction T as [|l IHl ix u IHu]; [done|]. cbn [zfind bin_map path]. destruct (decide (x = p_val ix.2)) as [->|Hn].
  - by rewrite bool_decide_eq_true_2.
  - rewrite bool_decide_eq_false_2 //. destruct (num_ltb _ _); cbn [fst snd]; rewrite app_length; cbn [length].
    + rewrite IHl. destruct (zfind x l).2 eqn:E; cbn [bin_map]; [lia|]. destruct (path x (bin_map p_val (bin_map snd l))) eqn:E2; [|lia]. destruct l; [done|]. cbn in E2. lia.
    + rewrite IHu. destruct (zfind x u).2 eqn:E; cbn [bin_map]; [lia|]. destruct (path x (bin_map p_val (bin_map snd u))) eqn:E2; [|lia]. destruct u; [done|]. cbn in E2. lia.
Qed.
Lemma zmax_length T : T <> Nil -> S (length (zmax T).1) = right_branch T.
Proof.
  induction T as [|l _ ix u IH]; [done|]. intros _. cbn [zmax right_branch]. destruct u as [|u1 jy u2]; [done|].
  cbn [fst]. rewrite app_length. cbn [length]. rewrite -(IH ltac:(done)). lia.
Qed.
Lemma zmin_length T : T <> Nil -> S (length (zmin T).1) = left_branch T.
Proof.
  induction T as [|l IH ix u _]; [done|]. intros _. cbn [zmin left_branch]. destruct l as [|u1 jy u2]; [done|].
  cbn [fst]. rewrite app_length. cbn [length]. rewrite -(IH ltac:(done)). lia.
Qed.
Lemma zrep_length K t : length (zrep CAVL (K, t)).1 = length K + replacement_branch t.
Proof.
  destruct t as [|l ix u]; [cbn; lia|]. cbn [zrep replacement_branch]. destruct u as [|u1 jy u2].
  - destruct l as [|l1 jy l2]; [cbn; lia|]. cbn zeta. destruct (zmax_shape (Bin l1 jy l2)) as (l3 & ky & ->); [done|]. cbn [fst]. rewrite app_length. cbn [length]. rewrite -(zmax_length (Bin l1 jy l2) ltac:(done)). lia.
  - cbn zeta. destruct (zmin_shape (Bin u1 jy u2)) as (ky & l3 & ->); [done|]. cbn [fst]. rewrite app_length. cbn [length]. rewrite -(zmin_length (Bin u1 jy u2) ltac:(done)). lia.
Qed.
(** The rounds of [avl_up]: as many as there are nodes above. *)
Fixpoint avl_up_n (fuel : nat) (p : option nat) : M tst nat :=
  match p with
  | None => ret 0
  | Some parent =>
      match fuel with
      | 0 => diverge
      | S k =>
          let! grand_parent := get_parent parent in
          fix_height parent ;;
          let! b := avl_node_is_balanced parent in
          if b then let! z := avl_up_n k grand_parent in ret (S z)
          else
            let! m := avl_rebalance parent in
            attach CAVL grand_parent m ;;
            let! z := avl_up_n k grand_parent in ret (S z)
      end
  end.
Lemma twp_avl_rounds fu : forall K t r n Q, length K <= fu -> r = croot K (rp t) -> exact t -> exactK K ->
  increasing (zl K ++ ino t ++ zr K) ->
  ctxp K (rp t) ∗ tree (cpar K) t ∗ (∀ r' n', Q (length K) r' n') ⊢
  twp (avl_up_n fu (cpar K)) r n Q.
Proof.
  induction fu as [|fu IH]; intros K t r n Q Hfu Hr Ht HK Hinc.
  { destruct K; [|cbn in Hfu; lia]. iIntros "(_ & HT & HQ)". cbn in Hr. subst r. cbn. wret. iApply "HQ". }
  destruct K as [|f K].
  { iIntros "(_ & HT & HQ)". cbn in Hr. subst r. cbn. wret. iApply "HQ". }
  cbn in Hfu.
  assert (exists l i x u, fill f t = Bin l (i, x) u /\ (fnode f).1 = i /\ exact l /\ exact u /\ exactK K /\
    climb (f :: K) t = climb K (fixup l (i, x) u) /\ increasing (zl K ++ (ino l ++ p_val x :: ino u) ++ zr K)) as (l & i & x & u & Ef & Ei & Hl & Hu & HK' & Ec & Hi').
  { destruct f as [[i x] u|l [i x]]; cbn [exactK] in HK; destruct HK as [H1 H2].
    - exists t, i, x, u. split_and!; try done. cbn [zl zr] in Hinc. by rewrite -!app_assoc.
    - exists l, i, x, t. split_and!; try done. cbn [zl zr] in Hinc. by rewrite -!app_assoc in Hinc |- *. }
  clear Ec. cbn [cpar croot] in *. rewrite Ei in Hr |- *.
  iIntros "(HK & HT & HQ)". iAssert (ctxp K (rp (fill f t)) ∗ tree (cpar K) (fill f t))%I with "[HK HT]" as "[HK HT]".
  { rewrite -ctxp_fill Ei. iFrame. }
  rewrite Ef. cbn [tree fst snd rp].
  iDestruct "HT" as "(Hi & Hl & Hu)". cbn [avl_up_n]. wget. wbind.
  iApply (twp_fix_height i x _ l _ u). iFrame "Hi Hl Hu". iIntros "Hi Hl Hu".
  wbind. iApply (twp_avl_balanced i _ _ l _ u). iFrame "Hi Hl Hu". iIntros "Hi Hl Hu".
  assert (increasing (ino l ++ p_val x :: ino u)) as Hi2.
  { apply inc_app in Hi' as (_ & Hi' & _). by apply inc_app in Hi' as (Hi' & _ & _). }
  unfold fixup. destruct (balb l u) eqn:Eb.
  - wbind. iApply (IH K (nd l (i, x) u)); [lia|done|by apply exact_nd|done|by rewrite ino_nd|].
    cbn [rp node fst snd tree]. iFrame. iIntros (r' n'). wret. iApply "HQ".
  - wbind. iApply (twp_avl_rebalance i (refresh CAVL l x u) (cpar K) l u); [done|done|done|by cbn [ino snd]|]. cbn [tree fst snd]. iFrame "Hi Hl Hu".
    cbn [refresh]. change (rebal l (i, pay_height (hh l `max` hh u) x) u) with (rebal l (i, x) u).
    iIntros (j) "%Hj HT".
    assert (rebal l (i, x) u = fixup l (i, x) u) as EF by (unfold fixup; by rewrite Eb).
    assert (exact (rebal l (i, x) u)) as HE by (rewrite EF; by apply fixup_exact).
    assert (ino (rebal l (i, x) u) = ino l ++ p_val x :: ino u) as HI by (rewrite EF; by apply fixup_ino).
    wbind. iApply (twp_attach CAVL K _ (cpar K) (rebal l (i, x) u)); [done| |].
    { apply side_ok_in. by rewrite HI. }
    iFrame "HK HT". iIntros "HK HT".
    destruct K as [|f' K].
    + cbn [recontext cpar climb]. wbind. destruct fu; cbn [avl_up_n]; wret; wret; iApply "HQ".
    + cbn [recontext]. wbind.
      assert (cpar (f' :: K) = cpar (reframe CAVL (rebal l (i, x) u) f' :: K)) as -> by (by destruct f').
      rewrite -Hj. iApply (IH (reframe CAVL (rebal l (i, x) u) f' :: K) (rebal l (i, x) u)); [by cbn in *; lia|by destruct f'|done|by destruct f'| |].
      * assert (zl (reframe CAVL (rebal l (i, x) u) f' :: K) = zl (f' :: K) /\ zr (reframe CAVL (rebal l (i, x) u) f' :: K) = zr (f' :: K)) as [-> ->] by (by destruct f' as [[? ?] ?|? [? ?]]).
        by rewrite HI.
      * iFrame "HK HT". iIntros (r' n'). wret. iApply "HQ".
Qed.
Lemma insert_up s T x fu : rep s T -> avl_ok T -> increasing (ino T) -> T <> Nil -> nlevels T <= fu ->
  exists a s', (let! r := insert_value CAVL x (Fin 0) in let! p := get_parent r.2 in avl_up_n fu p) s = Ok a s' /\
    a = nodes_above x (bin_map p_val (bin_map snd T)).
Proof.
  intros H [Hex Hav] Hinc HT Hfu. apply (run_pure _ (fun a => a = _) s T H). rewrite -zfind_depth.
  iIntros "HT". wbind. iApply (twp_insert_value CAVL x (Fin 0) T); [done|done|]. iFrame "HT". iIntros (w j new) "%Hw HT".
  pose proof (zfind_plug x T) as HP. pose proof (plug_levels (zfind x T).1 (zfind x T).2) as HL. rewrite HP in HL.
  pose proof (zinsert_ino CAVL x new (Pay x 0 (Fin 0) Red) T eq_refl HT Hinc) as HI.
  assert (exists K t, zinsert CAVL x new (Pay x 0 (Fin 0) Red) T = plug K t /\ t <> Nil /\ rp t = Some j /\ exact t /\ exactK K /\ length K <= fu /\ length K = length (zfind x T).1)
    as (K & t & EZ & Htn & Ej & Et & EK & HK & HKl).
  { unfold zinsert. destruct (zfind x T) as [K t] eqn:EZ. cbn [fst snd] in *. rewrite -HP in Hex.
    destruct (exact_plug _ _ Hex) as [Ht HK]. destruct t as [|l ix u].
    - destruct Hw as [_ ->]. destruct K as [|f K]; [by subst|].
      exists (reframe CAVL (leaf_of new (Pay x 0 (Fin 0) Red)) f :: K), (leaf_of new (Pay x 0 (Fin 0) Red)).
      split_and!; try done; [|by destruct f|cbn in *; lia]. cbn [plug]. by rewrite fill_reframe.
    - destruct Hw as [_ Hw]. exists K, (Bin l ix u). split_and!; try done; [by destruct K|lia]. }
  rewrite EZ. assert (increasing (zl K ++ ino t ++ zr K)) as Hi2. { rewrite -ino_plug -EZ HI. by apply set_add_inc. }
  destruct t as [|l ix u]; [done|]. cbn in Ej. injection Ej as <-. wbind.
  iApply (twp_get_parent_at (plug K (Bin l ix u)) K l ix u); [done|done|]. iFrame "HT". iIntros "HT". iDestruct (tree_at with "HT") as "[HK HT]".
  iApply (twp_avl_rounds fu K (Bin l ix u)); [lia| |done|done|done|].
  { rewrite -rp_plug -EZ. by rewrite rp_zinsert. }
  iFrame "HK HT". iIntros (r' n'). by rewrite HKl.
Qed.
Lemma remove_up s T x fu : rep s T -> avl_ok T -> increasing (ino T) -> T <> Nil -> x ∈ ino T ->
  ((zfind x T).1 = [] -> leafb (zfind x T).2 = false) -> length (zfind x T).1 + replacement_branch (zfind x T).2 <= fu ->
  exists a s', (let! r := remove_value CAVL x in avl_up_n fu r.2) s = Ok a s' /\
    a = nodes_above x (bin_map p_val (bin_map snd T)) + replacement_branch (zfind x T).2.
Proof.
  intros H [Hex Hav] Hinc HT Hx HL Hfu. apply (run_pure _ (fun a => a = _) s T H). rewrite -zfind_depth. iIntros "HT". wbind.
  iApply (twp_remove_value CAVL x T); [done|done|done|]. iFrame "HT".
  apply zfind_in in Hx; [|done]. pose proof (zfind_plug x T) as HP.
  destruct (zfind x T) as [K t] eqn:EZ. cbn [fst snd] in *. destruct t as [|l ix u]; [done|]. iIntros "HT". cbn [fst snd].
  assert (~ (K = [] /\ l = Nil /\ u = Nil)) as HL2. { intros (-> & -> & ->). by specialize (HL eq_refl). }
  pose proof (zremove_ino CAVL K l ix u HL2) as HI. pose proof (rp_zremove CAVL K l ix u HL2) as HRp. cbn zeta in HI.
  pose proof (zrep_length K (Bin l ix u)) as HLv.
  rewrite -HP in Hex Hav. pose proof (zrep_exact K l ix u Hex Hav) as [HK HS].
  assert (zl K ++ rest CAVL l u ++ zr K = set_del x (ino T)) as HD.
  { apply (removed_exact CAVL x T); [done|unfold removed; by rewrite EZ|]. rewrite EZ. cbn [snd]. apply avl_replaceable; [by eapply exact_plug|by eapply avlb_plug]. }
  rewrite HD in HI.
  assert (forall f K' t', zrep CAVL (K, Bin l ix u) = (f :: K', t') -> exists f' t1,
    plug (zremove CAVL (K, Bin l ix u)).1 (zremove CAVL (K, Bin l ix u)).2 = plug (f' :: K') t1 /\
    rp (zremove CAVL (K, Bin l ix u)).2 = cpar (f' :: K') /\ exact t1 /\ exactK (f' :: K')) as HZ.
  { intros f K' t' E. unfold zremove. rewrite E in HK HS |- *. cbn [fst snd] in *. unfold putdel. destruct (leafb t') eqn:El.
    - exists (reframe CAVL Nil f), Nil. cbn [plug]. rewrite fill_reframe. split_and!; try done; by destruct f.
    - exists f, (chain CAVL t'). cbn [plug]. split_and!; try done; [by destruct f|]. by apply short_chain. }
  destruct (zrep CAVL (K, Bin l ix u)) as [[|f K'] t'] eqn:Er.
  { exfalso. revert Er. unfold zrep. cbn zeta. destruct u as [|u1 jy u2]; [destruct l as [|l1 jy l2]|].
    - intros [= -> _]. by apply HL2.
    - destruct (zmax_shape (Bin l1 jy l2)) as (l3 & ky & E); [done|]. rewrite E. intros E'%(f_equal fst). cbn [fst] in E'. by apply app_nil in E' as [_ ?].
    - destruct (zmin_shape (Bin u1 jy u2)) as (ky & l3 & E); [done|]. rewrite E. intros E'%(f_equal fst). cbn [fst] in E'. by apply app_nil in E' as [_ ?]. }
  destruct (HZ f K' t' eq_refl) as (f' & t1 & E1 & E2 & E3 & E4). rewrite E1 E2 in HI HRp |- *.
  iDestruct (tree_at with "HT") as "[HK HT]". cbn [fst length] in HLv.
  iApply (twp_avl_rounds fu (f' :: K') t1); [cbn [length]; lia| |done|done| |].
  { rewrite -rp_plug HRp -HP rp_plug. done. }
  { rewrite -ino_plug HI. by apply set_del_inc. }
  iFrame "HK HT". iIntros (r' n'). iPureIntro. rewrite -HLv. done.
Qed.
(** A value that is not there is not removed, and nothing is walked back up. *)
Lemma remove_absent s T x : rep s T -> increasing (ino T) -> T <> Nil -> x ∉ ino T ->
  exists a s', remove_value CAVL x s = Ok a s' /\ t_len s' = t_len s.
Proof.
  intros H Hinc HT Hx. edestruct (rep_run (remove_value CAVL x) s T (fun _ T' => T' = T) H) as (a & s' & T' & E & HR & ->).
  - pose proof (zfind_in x T Hinc) as HZ. destruct ((zfind x T).2) as [|? ? ?] eqn:EZ; [|exfalso; apply Hx, HZ; done].
    iIntros "HT". iApply (twp_remove_value CAVL x T); [done|done| |]. { intros HK. by rewrite EZ. }
    iFrame "HT". rewrite EZ. iIntros (j) "%Hj HT". by wpost T.
  - exists a, s'. split; [done|]. destruct H as (? & _ & _ & _ & ->), HR as (? & _ & _ & _ & ->). done.
Qed.
