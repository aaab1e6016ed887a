(** * Calls from one depth, and SplayTrees of increasing values, under the recursion limit *)
From iris.proofmode Require Import proofmode.
From Verif Require Import Base TreeModel TreeSpec BstModel BalModel BstSpec BstSep BstRules BstZip BstDel BstPure BstThm SplayThm TreeIterThm TreeIterThm3 TreeIterThm4.
From Verif Require Import DepthModel DepthSpec DepthThm DepthThm2 DepthThm3 DepthThm4 DepthThm5.
Local Open Scope py_scope.

(** ** The levels of a BST *)
Lemma plug_levels K : forall t t', nlevels t' <= nlevels t -> nlevels (plug K t') <= nlevels (plug K t).
Proof. induction K as [|f K IH]; intros t t' H; [done|]. cbn [plug]. apply IH. destruct f; cbn [fill nlevels]; lia. Qed.
Lemma node_levels c l ix u : nlevels (node c l ix u) = S (Nat.max (nlevels l) (nlevels u)).
Proof. done. Qed.
Lemma chain_levels c t : nlevels (chain c t) <= nlevels t.
Proof.
  induction t as [|l IHl ix u IHu]; [done|]. destruct l as [|l1 jy l2].
  - destruct u as [|u1 jy u2]; [cbn; lia|]. rewrite chain_u. set (t := Bin u1 jy u2) in *.
    assert (nlevels ((if leafb t then node c else Bin) Nil (ix.1, take_pay c ix.2 jy.2) (chain c t)) = S (nlevels (chain c t))) as ->.
    { destruct (leafb t); cbn; lia. } change (nlevels (Bin Nil ix t)) with (S (nlevels t)). lia.
  - rewrite chain_l. set (t := Bin l1 jy l2) in *.
    assert (nlevels ((if leafb t then node c else Bin) (chain c t) (ix.1, take_pay c ix.2 jy.2) u) = S (Nat.max (nlevels (chain c t)) (nlevels u))) as ->.
    { destruct (leafb t); done. } change (nlevels (Bin t ix u)) with (S (Nat.max (nlevels t) (nlevels u))). lia.
Qed.
Lemma putdel_levels c f t : nlevels (putdel c f t) <= nlevels (fill f t).
Proof.
  unfold putdel. destruct (leafb t).
  - destruct f; cbn; lia.
  - pose proof (chain_levels c t). destruct f; cbn [fill nlevels]; lia.
Qed.
Lemma zremove_levels c K l ix u : nlevels (plug (zremove c (K, Bin l ix u)).1 (zremove c (K, Bin l ix u)).2) <= nlevels (plug K (Bin l ix u)).
Proof.
  assert (nlevels (plug (zrep c (K, Bin l ix u)).1 (zrep c (K, Bin l ix u)).2) <= nlevels (plug K (Bin l ix u))) as H.
  { unfold zrep. destruct u as [|u1 jy u2].
    - destruct l as [|l1 jy l2]; [done|]. pose proof (zmax_plug (Bin l1 jy l2)) as HP. destruct (zmax (Bin l1 jy l2)) as [w t]. cbn zeta. cbn [fst snd] in *.
      destruct t; [done|]. cbn [fst snd]. rewrite plug_app HP. cbn [plug fill]. by apply plug_levels.
    - pose proof (zmin_plug (Bin u1 jy u2)) as HP. destruct (zmin (Bin u1 jy u2)) as [w t]. cbn zeta. cbn [fst snd] in *.
      destruct t; [done|]. cbn [fst snd]. rewrite plug_app HP. cbn [plug fill]. by apply plug_levels. }
  etrans; [|exact H]. unfold zremove. destruct (zrep c (K, Bin l ix u)) as [[|f K'] t]; [done|]. cbn [fst snd plug].
  apply plug_levels, putdel_levels.
Qed.
Lemma bst_remove_levels s T x : rep s T ->
  exists w s' T', tree_remove CBST (PNum x) s = Ok w s' /\ rep s' T' /\ nlevels T' <= nlevels T.
Proof.
  intros H. cbn [tree_remove]. unfold bst_remove.
  destruct (remove_guard s T x (fun x => let! r := remove_value CBST x in ret (fst r))
     (fun w T' => nlevels T' <= nlevels T) H) as (w & s' & T' & E & HR & HQ); [by intros ->|..|by exists w, s', T'].
  - intros l [i y] u -> Hl ->. cbn. lia.
  - intros HT Hl. iIntros "HT". wbind. iApply (twp_remove_value CBST x T); [done|done| |].
    { intros HK. pose proof (zfind_plug x T) as HP. pose proof (zfind_val x T) as HV.
      destruct (zfind x T) as [K t]. cbn [fst snd] in *. subst K. cbn in HP. subst t.
      destruct (leafb T) eqn:El; [|done]. exfalso. destruct T as [|l ix u]; [done|]. by eapply Hl; [..|symmetry; apply (HV l ix u)]. }
    iFrame "HT". destruct (zfind x T) as [K t] eqn:EZ. cbn [fst snd]. destruct t as [|l ix u].
    + iIntros (j) "%Hj HT". wret. wpost T; done.
    + iIntros "HT". wret. set (z := zremove CBST (K, Bin l ix u)). 
      assert (ino (plug z.1 z.2) = zl K ++ rest CBST l u ++ zr K) as Hi.
      { apply zremove_ino. intros (-> & -> & ->). pose proof (zfind_plug x T) as HP. pose proof (zfind_val x T) as HV.
        rewrite EZ in HP HV. cbn in HP, HV. subst T. by eapply Hl; [done|done|symmetry; eapply HV]. }
      assert (bsize T = S (bsize (plug z.1 z.2))) as Hn.
      { rewrite -!ino_length Hi. rewrite -(zfind_plug x T) EZ ino_plug. cbn [fst snd ino].
        rewrite !app_length. cbn. rewrite (Permutation_length (rest_perm CBST l u)) app_length. lia. }
      assert (nlevels (plug z.1 z.2) <= nlevels T) as HLv.
      { rewrite -(zfind_plug x T) EZ. apply zremove_levels. }
      wpost (plug z.1 z.2); [done| |cbn [fst]; lia|done].
      rewrite (rp_zremove CBST K l ix u).
      * pose proof (zfind_plug x T) as HP. rewrite EZ in HP. by rewrite -HP rp_plug.
      * intros (-> & -> & ->). pose proof (zfind_plug x T) as HP. pose proof (zfind_val x T) as HV.
        rewrite EZ in HP HV. cbn in HP, HV. subst T. by eapply Hl; [done|done|symmetry; eapply HV].
Qed.
Lemma zinsert_levels x new p T : nlevels (zinsert CBST x new p T) <= Nat.max (nlevels T) (S (path x (vals T))).
Proof.
  induction T as [|l IHl ix u IHu]; [cbn; lia|].
  destruct (decide (x = p_val ix.2)) as [E|E1].
  { unfold zinsert. cbn [zfind]. rewrite bool_decide_eq_true_2 //. lia. }
  assert (bool_decide (x = p_val ix.2) = false) as E1' by (by apply bool_decide_eq_false_2). unfold vals. cbn [bin_map path]. rewrite decide_False //. fold (vals l) (vals u).
  destruct (num_ltb x (p_val ix.2)) eqn:E2.
  - destruct (decide (l = Nil)) as [->|Hl].
    + unfold zinsert. cbn [zfind]. rewrite E1' E2. cbn -[Nat.max]. destruct ix; cbn -[Nat.max]. lia.
    + rewrite (zinsert_left CBST x new p l ix u E1' E2 Hl). cbn [nlevels]. lia.
  - destruct (decide (u = Nil)) as [->|Hu].
    + unfold zinsert. cbn [zfind]. rewrite E1' E2. cbn -[Nat.max]. destruct ix; cbn -[Nat.max]. lia.
    + rewrite (zinsert_right CBST x new p l ix u E1' E2 Hu). cbn [nlevels]. lia.
Qed.

(** ** Calls from one depth *)
Lemma rep_held s T : rep s T -> exists T1, held s T1 /\ vmap T1 = vals T /\ nlevels T1 = nlevels T.
Proof.
  intros H. destruct (shape_held s _ (rep_shape s T H)) as (T1 & H1 & E). exists T1. split; [done|]. unfold vmap, vals. rewrite E. split; [done|].
  by rewrite -(nlevels_map snd T1) E nlevels_map.
Qed.
Lemma replacement_below {A} (t : bin A) : S (nlevels (replacement t)) <= Nat.max 1 (nlevels t).
Proof.
  assert (forall t : bin A, nlevels (at_leftmost t) <= nlevels t) as HL.
  { intros t'. induction t' as [|l IHl x r IHr]; [done|]. destruct l; [done|]. cbn [nlevels at_leftmost] in *. lia. }
  assert (forall t : bin A, nlevels (at_rightmost t) <= nlevels t) as HR.
  { intros t'. induction t' as [|l IHl x r IHr]; [done|]. destruct r; [done|]. cbn [nlevels at_rightmost] in *. lia. }
  destruct t as [|l x r]; [cbn; lia|]. destruct r as [|r1 y r2].
  - specialize (HR l). change (nlevels (replacement (Bin l x Nil))) with (nlevels (at_rightmost l)). cbn [nlevels]. lia.
  - specialize (HL (Bin r1 y r2)). change (nlevels (replacement (Bin l x (Bin r1 y r2)))) with (nlevels (at_leftmost (Bin r1 y r2))).
    change (nlevels (Bin l x (Bin r1 y r2))) with (S (Nat.max (nlevels l) (nlevels (Bin r1 y r2)))). lia.
Qed.
Lemma bst_one_depth L o s T : rep s T -> nlevels T <= S L ->
  (call_l CBST (L, o) s = Some (ORaise RecursionError, s)) \/
  (exists r s' T', call_l CBST (L, o) s = Some (r, s') /\ call CBST o s = Some (r, s') /\ rep s' T' /\ nlevels T' <= S L /\ out_of_stack r = false).
Proof.
  intros H HL. destruct (rep_held s T H) as (T1 & H1 & EV & EL).
  destruct (bst_bag_step s T o H) as (r & s' & T' & E & HR & HB).
  assert (out_of_stack r = false) as Hr.
  { destruct o as [[|x| | | |] p|[|x| | | |]|[|x| | | |]| | | | |m| | | | | | |]; cbn [bag_step] in HB;
      try (by destruct HB as [HB _]; eapply answer_in_stack).
    - by destruct HB as [[-> _]|[-> _]].
    - by destruct HB as [[-> _]|[-> _]].
    - by destruct HB as (_ & b & -> & _). }
  assert ((exists v p, o = TInsert v p) \/ (exists v, o = TRemove v) \/ o = TClear \/ changes CBST o = false) as Ho.
  { destruct o as [v p|v|v| | | | |m| | | | | | |]; try (by right; right; right); [left; by eexists _, _|right; left; by eexists|right; right; by left]. }
  destruct Ho as [(v & p & ->)|[(v & ->)|[->|Ho]]].
  - rewrite (call_deep CBST L (TInsert v p) s T1 H1 eq_refl). cbn [needs prio_ok]. destruct (is_num_dec' v) as [[x ->]|Hv].
    + destruct (Nat.leb_spec (path x (vmap T1)) L) as [Hp|Hp]; [|by left]. right.
      destruct (bst_insert_run s T x p H) as (s2 & T2 & E2 & HR2 & new & HT2). exists r, s', T2.
      assert (s2 = s') as ->. { unfold call in E. cbn [exec] in E. rewrite (bind_ok _ _ _ _ _ E2) in E. by injection E as _ <-. }
      split_and!; try done. rewrite EV in Hp. destruct (decide (T = Nil)) as [->|HT]; [subst T2; cbn; lia|].
      assert (T2 = zinsert CBST x new (Pay x 0 (Fin 0) Red) T) as -> by (by destruct T).
      pose proof (zinsert_levels x new (Pay x 0 (Fin 0) Red) T). lia.
    + right. exists r, s', T. assert (call CBST (TInsert v p) s = Some (r, s)) as E'.
      { rewrite E. unfold call in E. cbn [exec tree_insert] in E. unfold bst_insert, check_number, bind in E. destruct v; try (by injection E as <- <-). by edestruct Hv. }
      rewrite E' in E. injection E as <-. rewrite E'. split_and!; try done. destruct v; try done; by edestruct Hv.
  - destruct (is_num_dec' v) as [[x ->]|Hv].
    + unfold call_l. cbn [fst snd exec_l]. destruct (decide (T1 = Nil)) as [->|HT1].
      { right. exists r, s', T'. rewrite -(E) /call. cbn [exec]. assert (remove_l L CBST (PNum x) s = tree_remove CBST (PNum x) s) as ER.
        { apply (remove_fits CBST x s L Nil H1). cbn; lia. }
        unfold bind. rewrite ER. split_and!; try done.
        destruct (bst_remove_levels s T x H) as (w & s2 & T2 & E2 & HR2 & HL2). unfold call in E. cbn [exec] in E. rewrite (bind_ok _ _ _ _ _ E2) in E. injection E as <- <-.
        rewrite -(nlevels_map snd T') -(nlevels_map snd T2) in HL2 |- *.
        assert (bin_map snd T' = bin_map snd T2) as ->; [|lia]. assert (Some (bin_map snd T') = Some (bin_map snd T2)) as [=]; [|done].
        by rewrite -(rep_shape _ _ HR) -(rep_shape _ _ HR2). }
      destruct (Nat.le_gt_cases (removal_looks x (vmap T1)) L) as [Hlk|Hlk].
      * right. destruct (bst_remove_levels s T x H) as (w & s2 & T2 & E2 & HR2 & HL2). exists r, s', T2.
        assert (remove_l L CBST (PNum x) s = tree_remove CBST (PNum x) s) as ER.
        { apply (remove_fits_shared CBST x s L T1); [by left|done|done|]. unfold removal_exchanges.
          pose proof (exchanges_levels (replacement (subtree_at x (vmap T1)))). pose proof (replacement_below (subtree_at x (vmap T1))).
          pose proof (subtree_levels x (vmap T1)). assert (nlevels (vmap T1) = nlevels T1) as Hv by (unfold vmap; by rewrite !nlevels_map).
          destruct (subtree_at x (vmap T1)) as [|a b c] eqn:Es; [cbn; lia|]. 
          assert (1 <= nlevels (Bin a b c)) by (cbn; lia). lia. }
        unfold bind. rewrite ER. pose proof E as E0. unfold call in E. cbn [exec] in E. unfold bind in E. rewrite E2 in E |- *. cbn in E |- *. injection E as <- <-.
        split_and!; [done|exact E0|done|lia|done].
      * left. unfold bind. by rewrite (remove_raises_shared CBST x s L T1 ltac:(by left) H1 HT1 Hlk).
    + right. exists r, s', T. assert (call CBST (TRemove v) s = Some (r, s)) as E'.
      { rewrite E. unfold call in E. cbn [exec tree_remove] in E. unfold bst_remove, remove_with, get_root, bind, ret in E.
        destruct v; try (by edestruct Hv); destruct (t_root s); by injection E as <- <-. }
      unfold call_l. cbn [fst snd exec_l]. unfold bind. rewrite (remove_other CBST v s L Hv).
      rewrite E' in E. injection E as <-. rewrite -E'. unfold call. cbn [exec]. by split_and!.
  - right. exists r, s', T'. split_and!; try done. destruct (clear_step CBST s T H) as (s2 & E2 & HR2).
    rewrite E2 in E. injection E as <- <-.
    rewrite -(nlevels_map snd T'). assert (Some (bin_map snd T') = Some (bin_map snd (Nil : ltree))) as [= ->]; [|cbn; lia].
    by rewrite -(rep_shape _ _ HR) -(rep_shape _ _ HR2).
  - assert (is_removal o = false) as Hro by (by destruct o).
    rewrite (call_deep CBST L o s T1 H1 Hro). destruct (Nat.leb _ L); [|by left]. right. exists r, s', T'. split_and!; try done.
    assert (exists s2, rep s2 T /\ s2 = s') as (s2 & HR2 & ->).
    { assert ((exists x, o = TContains (PNum x)) \/ ~ (exists x, o = TContains (PNum x))) as [[x ->]|Hx].
      { destruct o as [| |[|x| | | |]| | | | | | | | | | | |]; try (by right; intros [? ?]). left. by exists x. }
      - destruct (rep_contains s T x H) as (s2 & E2 & HR2). exists s2. split; [done|]. unfold call in E. cbn [exec tree_contains] in E.
        rewrite (bind_ok _ _ _ _ _ E2) in E. by injection E as _ <-.
      - destruct (read_step CBST o s T Ho H) as (r2 & s2 & E2 & HR2 & _); [done|]. exists s2. split; [done|]. congruence. }
    rewrite -(nlevels_map snd T'). assert (Some (bin_map snd T') = Some (bin_map snd T)) as [= ->]; [|by rewrite nlevels_map].
    by rewrite -(rep_shape _ _ HR) -(rep_shape _ _ HR2).
Qed.
Lemma bst_one_depth_calls L os : forall s T, rep s T -> nlevels T <= S L ->
  exists rs s', calls_l CBST (map (fun o => (L, o)) os) s = Some (rs, s') /\ length rs = length os /\
    calls CBST (done_calls (map (fun o => (L, o)) os) rs) s = Some (done_results rs, s').
Proof.
  induction os as [|o os IH]; intros s T H HL; [by exists [], s|]. cbn [map calls_l].
  destruct (bst_one_depth L o s T H HL) as [E|(r & s1 & T1 & E1 & E2 & H1 & HL1 & Hr)].
  - destruct (IH s T H HL) as (rs & s' & F1 & F2 & F3). rewrite E F1. exists (ORaise RecursionError :: rs), s'. split_and!; [done|cbn; lia|done].
  - destruct (IH s1 T1 H1 HL1) as (rs & s' & F1 & F2 & F3). rewrite E1 F1. exists (r :: rs), s'. split_and!; [done|cbn; lia|].
    cbn [done_calls]. rewrite Hr. cbn [calls]. rewrite E2 F3. unfold done_results. rewrite filter_cons. by rewrite decide_True.
Qed.

(** ** Increasing insertions into a SplayTree, then the removal of the largest *)
Fixpoint leftchain (T : ptree) : Prop := match T with Nil => True | Bin l _ u => u = Nil /\ leftchain l end.
Lemma splay_insert_above s T x p : rep s T -> increasing (ino T) -> Forall (fun y => num_lt y x) (ino T) -> leftchain T ->
  exists s' new, tree_insert CSplay (PNum x) p s = Ok false s' /\ rep s' (Bin T (new, Pay x 0 (Fin 0) Red) Nil).
Proof.
  intros H Hinc Hx Hch. cbn [tree_insert]. unfold splay_insert. rewrite (bind_ok (check_number (PNum x)) _ s x s eq_refl).
  rewrite (bind_ok _ _ _ _ _ (rep_empty s T H)). destruct T as [|l ix u].
  { destruct (new_root s (Fin 0) x H) as (i & s' & E & HR). exists s', i. split_and!; try done. }
  destruct Hch as [-> Hch]. set (T := Bin l ix Nil) in *.
  edestruct (rep_run (let! r := insert_value CSplay x (Fin 0) in splay r.2 ;; ret r.1) s T
     (fun w T' => w = false /\ exists new, T' = Bin T (new, Pay x 0 (Fin 0) Red) Nil) H) as (w & s' & T' & E & HR & -> & new & ->); [|by exists s', new].
  assert (num_lt (p_val ix.2) x) as Hix.
  { unfold T in Hx. cbn [ino] in Hx. apply Forall_app in Hx as [_ Hx]. by apply Forall_cons in Hx as [Hx _]. }
  assert (zfind x T = ([InR l ix], Nil)) as EF.
  { unfold T. cbn [zfind]. rewrite bool_decide_eq_false_2; [|intros ->; by apply (num_lt_irrefl (p_val ix.2))]. by rewrite (num_lt_asym _ _ Hix). }
  iIntros "HT". wbind. iApply (twp_insert_value CSplay x (Fin 0) T); [done|done|]. iFrame "HT". iIntros (w j new) "%Hw HT".
  rewrite EF in Hw. cbn [fst snd] in Hw. destruct Hw as [-> ->].
  assert (zinsert CSplay x new (Pay x 0 (Fin 0) Red) T = plug [InR l ix] (Bin Nil (new, Pay x 0 (Fin 0) Red) Nil)) as EZ.
  { unfold zinsert. rewrite EF. cbn [plug fill fillc]. by destruct ix. }
  rewrite EZ. cbn [snd]. wbind. iApply (twp_splay (plug [InR l ix] (Bin Nil (new, Pay x 0 (Fin 0) Red) Nil)) [InR l ix] Nil new (Pay x 0 (Fin 0) Red) Nil); [done| |].
  { rewrite -EZ (zinsert_ino CSplay x new (Pay x 0 (Fin 0) Red) T eq_refl ltac:(done) Hinc). by apply set_add_inc. }
  iFrame "HT". iIntros "HT". wret. cbn [fst].
  wpost (Bin T (new, Pay x 0 (Fin 0) Red) Nil); [done|by exists new|done| |done].
  cbn [bsize T]. lia.
Qed.
Lemma chain_bsize T : leftchain T -> exchanges T = bsize T.
Proof.
  induction T as [|l IHl ix u IHu]; [done|]. intros [-> H]. destruct l as [|a b d]; [done|].
  change (exchanges (Bin (Bin a b d) ix Nil)) with (S (exchanges (Bin a b d))). rewrite (IHl H). cbn [bsize]. lia.
Qed.
Lemma splay_sorted L vs : 0 < L -> forall s T, rep s T -> increasing (ino T ++ vs) -> leftchain T ->
  exists s' T', calls_l CSplay (map (fun v => (L, TInsert (PNum v) (Drawn 0))) vs) s = Some (replicate (length vs) (OUnit false), s') /\
    rep s' T' /\ leftchain T' /\ ino T' = ino T ++ vs.
Proof.
  intros HL. induction vs as [|v vs IH]; intros s T HR Hinc Hch.
  { exists s, T. by rewrite app_nil_r. }
  pose proof Hinc as Hinc0. apply inc_app in Hinc as (H1 & H2 & H3).
  assert (Forall (fun y => num_lt y v) (ino T)) as Hv. { apply Forall_forall. intros y Hy. apply H3; [done|]. apply elem_of_list_here. }
  destruct (rep_held s T HR) as (T1 & HT1 & EV & EL).
  cbn [map calls_l]. rewrite (call_deep CSplay L (TInsert (PNum v) (Drawn 0)) s T1 HT1 eq_refl). cbn [needs prio_ok].
  assert (path v (vmap T1) <= 1) as HP.
  { rewrite EV path_above; [|unfold vals; by rewrite inorder_vals]. unfold vals. rewrite !right_map. destruct T as [|l ix u]; [cbn; lia|]. destruct Hch as [-> _]. cbn. lia. }
  rewrite (proj2 (Nat.leb_le _ _)); [|lia].
  destruct (splay_insert_above s T v (Drawn 0) HR H1 Hv Hch) as (s1 & new & E & HR1).
  assert (call CSplay (TInsert (PNum v) (Drawn 0)) s = Some (OUnit false, s1)) as Ec.
  { apply call_ok. cbn [exec]. by rewrite (bind_ok _ _ _ _ _ E). }
  destruct (IH s1 _ HR1) as (s' & T' & E1 & HR' & Hch' & HI).
  { cbn [ino fst snd p_val]. rewrite -app_assoc. exact Hinc0. }
  { done. }
  rewrite Ec E1. exists s', T'. split_and!; try done. rewrite HI. cbn [ino fst snd p_val]. by rewrite -app_assoc.
Qed.
Lemma rep_nodup s T : rep s T -> snap (t_nodes s) (t_root s) T /\ NoDup (ids T).
Proof. intros (h & Hh & Ht & Hrt & _). destruct (tree_snap s T None h Hh Ht) as (H1 & H2 & _). rewrite Hrt. by split. Qed.
Lemma rep_held' s T : rep s T -> held s T.
Proof.
  intros H. destruct (rep_nodup s T H) as [H1 _]. split; [done|]. destruct (rep_held s T H) as (T1 & [_ H2] & _ & EL). lia.
Qed.
Lemma splay_remove_last L vs v s T : rep s T -> leftchain T -> ino T = vs ++ [v] -> increasing (vs ++ [v]) -> 0 < L -> L < length vs ->
  exists s' T', remove_l L CSplay (PNum v) s = Exc RecursionError s' /\ held s' T' /\ t_len s' = t_len s /\
    inorder (vmap T') ≡ₚ vs ++ [v] /\ ~ increasing (inorder (vmap T')).
Proof.
  intros HR Hch HI Hinc HL0 HL. destruct T as [|l ix u]; [by destruct vs|]. destruct Hch as [-> Hch]. cbn [ino] in HI.
  apply app_inj_tail in HI as [HI Hv]. set (T := Bin l ix Nil).
  assert (Hlen : bsize l = length vs) by (by rewrite -ino_length HI).
  assert (subtree_at v (vmap T) = vmap T) as ES. { unfold T. cbn [vmap bin_map subtree_at]. by rewrite decide_True. }
  destruct l as [|a b d] eqn:El; [cbn in Hlen; lia|]. rewrite -El in T ES HI Hlen Hch |- *.
  assert (replacement T = l) as ER. { unfold T. rewrite El. cbn. rewrite El in Hch. by destruct Hch as [-> _]. }
  assert (replacement_branch T = 1) as EB. { unfold T. rewrite El. cbn. rewrite El in Hch. by destruct Hch as [-> _]. }
  destruct (remove_stuck CSplay v s L T) as (s' & T' & E & HH & Hn & HP & HI' & _).
  - by right; right.
  - apply rep_held'. unfold T. by rewrite El.
  - apply (rep_nodup s). unfold T. by rewrite El.
  - change (vmap T) with (vals T). unfold vals. rewrite inorder_vals. unfold T. cbn [ino]. by rewrite HI Hv.
  - unfold removal_looks. destruct (only_value v (vmap T)); [lia|]. rewrite ES. unfold vmap at 2. rewrite !branch_map EB.
    unfold T. cbn [vmap bin_map path]. rewrite decide_True; [lia|done].
  - unfold removal_exchanges. rewrite ES. unfold vmap. rewrite !replacement_map !exchanges_map ER chain_bsize //. lia.
  - exists s', T'. split_and!; try done. etrans; [exact HP|]. change (vmap T) with (vals T). unfold vals. rewrite inorder_vals. unfold T. cbn [ino]. by rewrite HI Hv.
Qed.
Lemma no_removals_rep c os rs s : c = CBST \/ c = CAVL \/ c = CSplay -> no_removals os -> history c os = Some (rs, s) ->
  exists T, rep s T /\ increasing (ino T).
Proof.
  intros Hc Ho Hh. destruct (no_removals_set c os Ho) as (rs' & s' & t & E & _ & Ht & _). rewrite Hh in E. injection E as <- <-.
  destruct Hc as [->|[->| ->]].
  - destruct (history_set CBST (fun _ => True) (fun o _ => is_removal o = false)) with (os := os) as [_ HS].
    + intros s0 T o ? ? ? ?. by apply bst_step.
    + done.
    + by apply along_all.
    + destruct (HS rs s t Hh Ht) as (T & HR & _ & _ & _ & Hi). by exists T.
  - destruct (AvlProps.avl_ins_history os Ho) as [_ HH]. destruct (HH rs s t Hh Ht) as (T & HR & _ & _ & _ & Hi). by exists T.
  - apply (SplayProps.no_removals_replaceable CSplay) in Ho. destruct (SplayProps.splay_history os Ho) as [_ HH]. destruct (HH rs s t Hh Ht) as (T & HR & _ & Hi & _). by exists T.
Qed.
