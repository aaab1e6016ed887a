(** * How far the calls on a Treap and a RedBlackTree walk (C85): enough rounds *)
From Coq Require Import Sorted.
From iris.proofmode Require Import proofmode.
From Verif Require Import Base NumOrd TreeModel TreeSpec BstModel BalModel BstSpec BstSep BstRules BstZip BstDel BinThm BstPure BstThm DepthSpec DownThm2 DownSpec2.
From Verif Require Import AvlThm TreapThm RbThm.
Local Open Scope py_scope.

(** The rounds of [treap_up]. *)
Fixpoint treap_up_n (fuel : nat) (p : option nat) (new : nat) : M tst nat :=
  match p with
  | None => ret 0
  | Some parent =>
      match fuel with
      | 0 => diverge
      | S k =>
          let! grandparent := get_parent parent in
          let! pp := get_prio parent in
          let! pn := get_prio new in
          if num_ltb pn pp then ret 1
          else
            let! b := is_left_child new in
            let! m := (if b then rotate_right CTreap parent else rotate_left CTreap parent) in
            attach CTreap grandparent m ;;
            let! z := treap_up_n k grandparent m in ret (S z)
      end
  end.
Fixpoint prios (K : ctx) : list num :=
  match K with [] => [] | InL ix _ :: K' => p_prio ix.2 :: prios K' | InR _ ix :: K' => p_prio ix.2 :: prios K' end.
Lemma prios_app K K' : prios (K ++ K') = prios K ++ prios K'.
Proof. induction K as [|[] K IH]; [done|..]; cbn; by rewrite IH. Qed.
Lemma prios_above x T : prios (zfind x T).1 = above x (bin_map snd T).
Proof.
  induction T as [|l IHl ix u IHu]; [done|]. cbn [zfind bin_map above]. destruct (decide (x = p_val ix.2)) as [E|E].
  - by rewrite bool_decide_eq_true_2.
  - rewrite bool_decide_eq_false_2 //. destruct (num_ltb _ _); cbn [fst]; rewrite prios_app; cbn [prios]; by f_equal.
Qed.
Lemma prio_at x T : priority_of x (bin_map snd T) = match (zfind x T).2 with Nil => None | Bin _ ix _ => Some (p_prio ix.2) end.
Proof.
  induction T as [|l IHl ix u IHu]; [done|]. cbn [zfind bin_map priority_of]. destruct (decide (x = p_val ix.2)) as [E|E].
  - by rewrite bool_decide_eq_true_2.
  - rewrite bool_decide_eq_false_2 //. by destruct (num_ltb _ _).
Qed.
Lemma twp_rise fu : forall K l j y u r n Q, length K <= fu -> r = croot K (Some j) ->
  increasing (zl K ++ ino (Bin l (j, y) u) ++ zr K) ->
  ctxp K (Some j) ∗ tree (cpar K) (Bin l (j, y) u) ∗ (∀ r' n', Q (rising (p_prio y) (prios K)) r' n') ⊢
  twp (treap_up_n fu (cpar K) j) r n Q.
Proof.
  induction fu as [|fu IH]; intros K l j y u r n Q Hfu Hr Hinc.
  { destruct K; [|cbn in Hfu; lia]. iIntros "(_ & HT & HQ)". cbn in Hr. subst r. cbn. wret. iApply "HQ". }
  destruct K as [|f K].
  { iIntros "(_ & HT & HQ)". cbn in Hr. subst r. cbn. wret. iApply "HQ". }
  cbn in Hfu. destruct f as [[i x] v|v [i x]]; cbn [ctxp tree cpar fnode fst snd rp].
  - iIntros "((Hi & Hv & HK) & (Hj & Hl & Hu) & HQ)". cbn [treap_up_n]. wget. unfold get_prio. wbind. wbind. wrd. wret. wbind. wbind. wrd. wret.
    cbn [prios rising snd fst]. destruct (num_ltb (p_prio y) (p_prio x)) eqn:E.
    + wret. iApply "HQ".
    + wbind. iApply (twp_is_left_child j y _ _ i x). iFrame "Hi Hj". iIntros "Hj Hi".
      assert (num_ltb (p_val y) (p_val x) = true) as ->. { by apply (side_ok_in (InL (i, x) v :: K) _ Hinc). }
      wbind. iApply (twp_rotate_right CTreap (cpar K) l i x u j y v). cbn [tree fst snd rp]. iFrame "Hi Hj Hl Hu Hv". rewrite !node_treap. iIntros "HT".
      assert (increasing (zl K ++ ino (Bin l (j, y) (Bin u (i, x) v)) ++ zr K)) as Hinc'.
      { cbn [zl zr ino snd] in Hinc |- *. by rewrite -!app_assoc /= -?app_assoc in Hinc |- *. }
      wbind. iApply (twp_attach CTreap K _ (cpar K) (Bin l (j, y) (Bin u (i, x) v))); [done|by apply side_ok_in|]. iFrame "HK HT".
      rewrite recontext_treap. iIntros "HK HT".
      wbind. iApply (IH K l j y (Bin u (i, x) v)); [lia|by destruct K; subst r|done|]. iFrame "HK". iSplitL "HT"; [by destruct K|]. iIntros (r' n'). wret. iApply "HQ".
  - iIntros "((Hi & Hv & HK) & (Hj & Hl & Hu) & HQ)". cbn [treap_up_n]. wget. unfold get_prio. wbind. wbind. wrd. wret. wbind. wbind. wrd. wret.
    cbn [prios rising snd fst]. destruct (num_ltb (p_prio y) (p_prio x)) eqn:E.
    + wret. iApply "HQ".
    + wbind. iApply (twp_is_left_child j y _ _ i x). iFrame "Hi Hj". iIntros "Hj Hi".
      assert (num_ltb (p_val y) (p_val x) = false) as ->. { by apply (side_ok_in (InR v (i, x) :: K) _ Hinc). }
      wbind. iApply (twp_rotate_left CTreap (cpar K) v i x l j y u). cbn [tree fst snd rp]. iFrame "Hi Hj Hl Hu Hv". rewrite !node_treap. iIntros "HT".
      assert (increasing (zl K ++ ino (Bin (Bin v (i, x) l) (j, y) u) ++ zr K)) as Hinc'.
      { cbn [zl zr ino snd] in Hinc |- *. by rewrite -!app_assoc /= -?app_assoc in Hinc |- *. }
      wbind. iApply (twp_attach CTreap K _ (cpar K) (Bin (Bin v (i, x) l) (j, y) u)); [done|by apply side_ok_in|]. iFrame "HK HT".
      rewrite recontext_treap. iIntros "HK HT".
      wbind. iApply (IH K (Bin v (i, x) l) j y u); [lia|by destruct K; subst r|done|]. iFrame "HK". iSplitL "HT"; [by destruct K|]. iIntros (r' n'). wret. iApply "HQ".
Qed.

Lemma treap_insert_up s T x q fu : rep s T -> increasing (ino T) -> T <> Nil -> nlevels T <= fu ->
  exists a s', (let! r := insert_value CTreap x q in let! p := get_parent r.2 in treap_up_n fu p r.2) s = Ok a s' /\
    a = rising (default q (priority_of x (bin_map snd T))) (above x (bin_map snd T)).
Proof.
  intros H Hinc HT Hfu. apply (run_pure _ (fun a => a = _) s T H). rewrite -prios_above prio_at.
  iIntros "HT". wbind. iApply (twp_insert_value CTreap x q T); [done|done|]. iFrame "HT". iIntros (w j new) "%Hw HT".
  pose proof (zfind_plug x T) as HP. pose proof (plug_levels (zfind x T).1 (zfind x T).2) as HL. rewrite HP in HL.
  pose proof (zinsert_ino CTreap x new (Pay x 0 q Red) T eq_refl HT Hinc) as HI.
  assert (exists K l y u, zinsert CTreap x new (Pay x 0 q Red) T = plug K (Bin l (j, y) u) /\ length K <= fu /\
    rising (p_prio y) (prios K) = rising (default q (match (zfind x T).2 with Nil => None | Bin _ ix _ => Some (p_prio ix.2) end)) (prios (zfind x T).1))
    as (K & l & y & u & EZ & HK & HRs).
  { unfold zinsert. destruct (zfind x T) as [K t] eqn:EZ. cbn [fst snd] in *. destruct t as [|l [i y] u].
    - destruct Hw as [_ ->]. destruct K as [|f K]; [by subst|].
      exists (f :: K), Nil, (Pay x 0 q Red), Nil. split_and!; [|lia|done]. by destruct f as [[] ?|? []].
    - destruct Hw as [_ Hw]. injection Hw as ->. exists K, l, y, u. split_and!; [by destruct K|lia|done]. }
  rewrite EZ. assert (increasing (zl K ++ ino (Bin l (j, y) u) ++ zr K)) as Hi2. { rewrite -ino_plug -EZ HI. by apply set_add_inc. }
  wbind. iApply (twp_get_parent_at (plug K (Bin l (j, y) u)) K l (j, y) u); [done|done|]. iFrame "HT". iIntros "HT". iDestruct (tree_at with "HT") as "[HK HT]".
  iApply (twp_rise fu K l j y u); [lia| |done|].
  { rewrite -(rp_zinsert CTreap x new (Pay x 0 q Red)) // EZ rp_plug. done. }
  iFrame "HK HT". iIntros (r' n'). done.
Qed.
Lemma rb_insert_up s T x fu : rep s T -> increasing (ino T) -> T <> Nil -> nlevels T < fu ->
  exists a s', (let! r := insert_value CRB x (Fin 0) in let! root := recolor fu r.2 in ret r.1) s = Ok a s'.
Proof.
  intros H Hinc HT Hfu. apply (run_ok _ s T H).
  iIntros "HT". wbind. iApply (twp_insert_value CRB x (Fin 0) T); [done|done|]. iFrame "HT". iIntros (w j new) "%Hw HT".
  pose proof (zfind_plug x T) as HP. pose proof (plug_levels (zfind x T).1 (zfind x T).2) as HL. rewrite HP in HL.
  pose proof (zinsert_ino CRB x new (Pay x 0 (Fin 0) Red) T eq_refl HT Hinc) as HI.
  assert (exists K l y u, zinsert CRB x new (Pay x 0 (Fin 0) Red) T = plug K (Bin l (j, y) u) /\ length K < fu) as (K & l & y & u & EZ & HK).
  { unfold zinsert. destruct (zfind x T) as [K t] eqn:EZ. cbn [fst snd] in *. destruct t as [|l [i y] u].
    - destruct Hw as [_ ->]. destruct K as [|f K]; [by subst|].
      exists (f :: K), Nil, (Pay x 0 (Fin 0) Red), Nil. split; [|lia]. by destruct f as [[] ?|? []].
    - destruct Hw as [_ Hw]. injection Hw as ->. exists K, l, y, u. split; [by destruct K|lia]. }
  rewrite EZ. assert (increasing (zl K ++ ino (Bin l (j, y) u) ++ zr K)) as Hi2. { rewrite -ino_plug -EZ HI. by apply set_add_inc. }
  iDestruct (tree_at with "HT") as "[HK HT]".
  wbind. iApply (twp_recolor fu K l j y u); [lia| |done|].
  { intros _. rewrite -(rp_zinsert CRB x new (Pay x 0 (Fin 0) Red)) // EZ rp_plug. done. }
  iFrame "HK HT". iIntros "HT". wret. done.
Qed.
(** The rounds of [treap_down]. *)
Fixpoint treap_down_n (fuel : nat) (parent : option nat) (removed : nat) : M tst nat :=
  let! leaf := node_is_leaf removed in
  if leaf then ret 0
  else
    match fuel with
    | 0 => diverge
    | S k =>
        let! l := get_left removed in
        let! r := get_right removed in
        let! pl := prio_of l in
        let! pr := prio_of r in
        if num_ltb pr pl then
          let! m := rotate_right CTreap removed in
          attach CTreap parent m ;;
          let! c := get_right m in
          let! c' := deref c in
          let! z := treap_down_n k (Some m) c' in ret (S z)
        else
          let! m := rotate_left CTreap removed in
          attach CTreap parent m ;;
          let! c := get_left m in
          let! c' := deref c in
          let! z := treap_down_n k (Some m) c' in ret (S z)
    end.
(** The value sinks past the right branch on its left and the left branch on its right. *)
Lemma twp_sink m : forall K l i x u r n Q, right_branch l + left_branch u <= m -> heap l -> heap u -> sk l u ->
  r = croot K (Some i) -> increasing (zl K ++ ino (Bin l (i, x) u) ++ zr K) ->
  ctxp K (Some i) ∗ tree (cpar K) (Bin l (i, x) u) ∗ (∀ r' n', Q (right_branch l + left_branch u) r' n') ⊢ twp (treap_down_n m (cpar K) i) r n Q.
Proof.
  induction m as [|m IH]; intros K l i x u r n Q Hm Hl Hu Hk -> Hinc.
  { destruct l, u; cbn in Hm; try lia. cbn [tree fst snd]. iIntros "(HK & (Hi & _) & HQ)".
    cbn [treap_down_n]. wbind. iApply (twp_node_is_leaf i x Nil Nil). iFrame "Hi". iIntros "Hi". cbn [leafb]. wret. iApply "HQ". }
  cbn [treap_down_n]. iIntros "(HK & HT & HQ)". cbn [tree fst snd]. iDestruct "HT" as "(Hi & Hl & Hu)".
  wbind. iApply (twp_node_is_leaf i x l u). iFrame "Hi". iIntros "Hi". destruct (leafb (Bin l (i, x) u)) eqn:El.
  { destruct l, u; try done. wret. iApply "HQ". }
  wget. wget. wbind. iApply (twp_prio_of _ l). iFrame "Hl". iIntros "Hl". wbind. iApply (twp_prio_of _ u). iFrame "Hu". iIntros "Hu".
  assert ((exists a jy b, l = Bin a jy b /\ num_ltb (tprio u) (tprio l) = true /\ heap b /\ sk b u) \/
          (exists a jy b, u = Bin a jy b /\ num_ltb (tprio u) (tprio l) = false /\ heap a /\ sk l a)) as Hc.
  { assert (l <> Nil \/ u <> Nil) as HN by (destruct l, u; auto). clear -Hl Hu Hk HN.
    revert HN. pattern (tdown 1 [] l u). apply (tdown_cases 0 [] l u); [done|done|done| | |].
    - intros -> ->. by intros [].
    - intros a jy b E1 E2 _ E3 E4 _. left. by exists a, jy, b.
    - intros a jy b E1 E2 _ E3 E4 _. right. by exists a, jy, b. }
  destruct Hc as [(a & [j y] & b & -> & E & Hb & Hk')|(a & [j y] & b & -> & E & Ha & Hk')]; rewrite E; cbn [tree fst snd].
  - cbn [right_branch] in Hm.
    wbind. iApply (twp_rotate_right CTreap (cpar K) a i x b j y u). cbn [tree fst snd rp]. iFrame "Hi Hl Hu". rewrite !node_treap. iIntros "HT".
    assert (increasing (zl K ++ ino (Bin a (j, y) (Bin b (i, x) u)) ++ zr K)) as Hinc'.
    { cbn [zl zr ino snd] in Hinc |- *. by rewrite -?app_assoc /= -?app_assoc in Hinc |- *. }
    wbind. iApply (twp_attach CTreap K _ (cpar K) (Bin a (j, y) (Bin b (i, x) u))); [done|by apply side_ok_in|]. iFrame "HK HT".
    rewrite recontext_treap. iIntros "HK HT".
    iAssert (tree (cpar K) (Bin a (j, y) (Bin b (i, x) u))) with "[HT]" as "HT"; [by destruct K|].
    cbn [tree fst snd rp]. iDestruct "HT" as "(Hj & Ha & Hi & Hb & Hu)". wget. wbind. wret. wbind.
    iApply (IH (InR a (j, y) :: K) b i x u); [lia|done|done|done| | |].
    + cbn [croot fnode fst]. by destruct K.
    + cbn [zl zr ino snd] in Hinc |- *. by rewrite -?app_assoc /= -?app_assoc in Hinc |- *.
    + cbn [ctxp cpar fnode tree fst snd]. iFrame. iIntros (r' n'). wret. iApply "HQ".
  - cbn [left_branch] in Hm.
    wbind. iApply (twp_rotate_left CTreap (cpar K) l i x a j y b). cbn [tree fst snd rp]. iFrame "Hi Hl Hu". rewrite !node_treap. iIntros "HT".
    assert (increasing (zl K ++ ino (Bin (Bin l (i, x) a) (j, y) b) ++ zr K)) as Hinc'.
    { cbn [zl zr ino snd] in Hinc |- *. by rewrite -?app_assoc /= -?app_assoc in Hinc |- *. }
    wbind. iApply (twp_attach CTreap K _ (cpar K) (Bin (Bin l (i, x) a) (j, y) b)); [done|by apply side_ok_in|]. iFrame "HK HT".
    rewrite recontext_treap. iIntros "HK HT".
    iAssert (tree (cpar K) (Bin (Bin l (i, x) a) (j, y) b)) with "[HT]" as "HT"; [by destruct K|].
    cbn [tree fst snd rp]. iDestruct "HT" as "(Hj & (Hi & Hl & Ha) & Hb)". wget. wbind. wret. wbind.
    iApply (IH (InL (j, y) b :: K) l i x a); [lia|done|done|done| | |].
    + cbn [croot fnode fst]. by destruct K.
    + cbn [zl zr ino snd] in Hinc |- *. by rewrite -?app_assoc /= -?app_assoc in Hinc |- *.
    + cbn [ctxp cpar fnode tree fst snd]. iFrame. iIntros (r' n'). wret. cbn [left_branch]. rewrite -plus_n_Sm. iApply "HQ".
Qed.
Lemma treap_remove_down s T x fu : rep s T -> increasing (ino T) -> heap T -> sks x T -> x ∈ ino T ->
  (match (zfind x T).2 with Nil => 0 | Bin l _ u => right_branch l + left_branch u end) <= fu ->
  exists a s', (let! i := search_root x in let! p := get_parent i in treap_down_n fu p i) s = Ok a s' /\
    a = match (zfind x T).2 with Nil => 0 | Bin l _ u => right_branch l + left_branch u end.
Proof.
  intros H Hinc Hh Hok Hx Hfu. apply (run_pure _ (fun a => a = _) s T H). iIntros "HT".
  assert (T <> Nil) as HT by (by intros ->; apply elem_of_nil in Hx).
  pose proof (zfind_plug x T) as HP. apply (zfind_in x T Hinc) in Hx.
  wbind. iApply (twp_search_root x T); [done|done|]. iFrame "HT". iIntros (j) "%Hj HT".
  unfold sks in Hok. destruct (zfind x T) as [K t] eqn:EZ. cbn [fst snd] in *. destruct t as [|l [i y] u]; [done|].
  rewrite zlast_bin in Hj. injection Hj as ->. rewrite -HP.
  wbind. iApply (twp_get_parent_at (plug K (Bin l (j, y) u)) K l (j, y) u); [done|done|]. iFrame "HT". iIntros "HT".
  iDestruct (tree_at with "HT") as "[HK HT]". cbn [rp fst].
  rewrite -HP in Hh. apply heap_plug in Hh as (Hht & _ & _). cbn [heap] in Hht. destruct Hht as (_ & _ & Hhl & Hhu).
  pose proof Hinc as Hi2. rewrite -HP ino_plug in Hi2.
  iApply (twp_sink fu K l j y u); [lia|done|done|done| |done|]; [by rewrite rp_plug|]. iFrame. iIntros (r' n'). done.
Qed.
