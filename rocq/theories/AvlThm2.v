(** * AVL: removals from trees that need not be balanced

    As AvlThm.v, but without the balance condition: what a removal needs is that at most one
    node hangs below the neighbour that replaces the removed value. *)
From Coq Require Import Sorted.
From iris.proofmode Require Import proofmode.
From Verif Require Import Base NumOrd TreeModel TreeSpec BstModel BalModel BstSpec BstSep BstRules BstZip BstDel BinThm BstPure BstThm AvlThm BstSpec2.
Local Open Scope py_scope.

Lemma small_leafb {A} (t : bin A) : small t -> t = Nil \/ leafb t = true.
Proof. destruct t as [|[] ? []]; cbn; try done; by auto. Qed.
Lemma near_replaceable {A} (t : bin A) : near t -> replaceable t.
Proof.
  destruct t as [|l x [|r1 y r2]]; [done|..]; cbn [near replaceable]; [destruct (below_rightmost l) as [|[] ? []]|destruct (below_leftmost _) as [|[] ? []]]; done.
Qed.
Lemma zrep_near K l ix u : exact (plug K (Bin l ix u)) -> near (Bin l ix u) ->
  let z := zrep CAVL (K, Bin l ix u) in exactK z.1 /\ short z.2.
Proof.
  intros He Hn. pose proof (exact_plug _ _ He) as [(El & Eu & _) EK]. cbn zeta. unfold zrep.
  destruct u as [|u1 jy u2].
  - destruct l as [|l1 jy l2]; [split; [done|by left]|].
    destruct (zmax_shape (Bin l1 jy l2)) as (l3 & ky & E); [done|]. cbn zeta. rewrite E. cbn [fst snd]. cbn [near] in Hn. rewrite (below_rightmost_zmax _ _ _ E) in Hn.
    split; [apply exactK_app; split; [by apply exact_zmax|done]|].
    apply small_leafb in Hn. destruct l3; [by left|]. cbn [short]. by destruct Hn.
  - destruct (zmin_shape (Bin u1 jy u2)) as (ky & l3 & E); [done|]. cbn zeta. rewrite E. cbn [fst snd]. cbn [near] in Hn. rewrite (below_leftmost_zmin _ _ _ E) in Hn.
    split; [apply exactK_app; split; [by apply exact_zmin|done]|]. by apply small_leafb in Hn.
Qed.
Lemma avl_insert_exact s T x p : rep s T -> exact T -> increasing (ino T) ->
  exists s' T', tree_insert CAVL (PNum x) p s = Ok (bool_decide (x ∈ ino T)) s' /\ rep s' T' /\ ino T' = set_add x (ino T) /\ exact T'.
Proof.
  intros H Hex Hinc. cbn [tree_insert]. unfold avl_insert. rewrite (bind_ok (check_number (PNum x)) _ s x s eq_refl).
  rewrite (bind_ok _ _ _ _ _ (rep_empty s T H)). destruct (decide (T = Nil)) as [->|HT].
  { destruct (new_root s (Fin 0) x H) as (i & s' & E & HR). exists s', (leaf_of i (Pay x 0 (Fin 0) Red)). by split_and!. }
  assert ((match T with Nil => true | _ => false end) = false) as -> by (by destruct T).
  edestruct (rep_run (let! r := insert_value CAVL x (Fin 0) in
     let! p := get_parent r.2 in let! n := get_fuel in avl_up n p;; ret r.1) s T
     (fun w T' => w = bool_decide (x ∈ ino T) /\ ino T' = set_add x (ino T) /\ exact T') H) as (w & s' & T' & E & HR & -> & HQ); [|by exists s', T'].
  rewrite -(found_in x T Hinc).
  iIntros "HT". wbind. iApply (twp_insert_value CAVL x (Fin 0) T); [done|done|]. iFrame "HT". iIntros (w j new) "%Hw HT".
  pose proof (zfind_plug x T) as HP. pose proof (insert_size x T Hinc) as HSz.
  pose proof (zinsert_ino CAVL x new (Pay x 0 (Fin 0) Red) T eq_refl HT Hinc) as HI.
  unfold found in *. 
  assert (exists K t, zinsert CAVL x new (Pay x 0 (Fin 0) Red) T = plug K t /\ t <> Nil /\ rp t = Some j /\ exact t /\ exactK K /\
     w = (match (zfind x T).2 with Nil => false | _ => true end)) as (K & t & EZ & Htn & Ej & Et & EK & ->).
  { unfold zinsert. destruct (zfind x T) as [K t] eqn:EZ. cbn [fst snd] in *. rewrite -HP in Hex.
    destruct (exact_plug _ _ Hex) as [Ht HK]. destruct t as [|l ix u].
    - destruct Hw as [-> ->]. destruct K as [|f K]; [by subst|].
      exists (reframe CAVL (leaf_of new (Pay x 0 (Fin 0) Red)) f :: K), (leaf_of new (Pay x 0 (Fin 0) Red)).
      split_and!; try done.
      + cbn [plug]. by rewrite fill_reframe.
      + by destruct f.
    - destruct Hw as [-> Hw]. exists K, (Bin l ix u). split_and!; try done; by destruct K. }
  rewrite EZ. assert (increasing (zl K ++ ino t ++ zr K)) as Hi2. { rewrite -ino_plug -EZ HI. by apply set_add_inc. }
  destruct t as [|l ix u]; [done|]. cbn in Ej. injection Ej as <-. wbind.
  iApply (twp_get_parent_at (plug K (Bin l ix u)) K l ix u); [done|done|]. iFrame "HT". iIntros "HT". iDestruct (tree_at with "HT") as "[HK HT]".
  wbind. iApply (twp_get_fuel (ctxp K (rp (Bin l ix u))) (length K)); [apply plug_atleast|]. iFrame "HK". iIntros (fu Hfu) "HK".
  wbind. iApply (twp_avl_up fu K (Bin l ix u)); [lia| |done|done|done|].
  { rewrite -rp_plug -EZ. by rewrite rp_zinsert. }
  iFrame "HK HT". iIntros "HT". wret. cbn [fst].
  wpost (climb K (Bin l ix u)); [done| | |done| |done].
  - rewrite climb_ino // -ino_plug -EZ HI //.
  - by apply climb_exact.
  - rewrite -(ino_length (climb K _)) climb_ino // -ino_plug -EZ HI HSz. destruct (zfind x T).2; lia.
Qed.

Lemma twp_avl_remove2 x T n Q : T <> Nil -> exact T -> near (zfind x T).2 -> increasing (ino T) -> x ∈ ino T ->
  ((zfind x T).1 = [] -> leafb (zfind x T).2 = false) ->
  tree None T ∗ (tree None (avl_del (zfind x T)) -∗ Q false (rp (avl_del (zfind x T))) (n + -1)%Z) ⊢
  twp (let! length_before := get_len in
    let! r := remove_value CAVL x in
    let! length_after := get_len in
    if Z.eqb length_after length_before then ret (fst r)
    else
      let! n := get_fuel in
      avl_up n (snd r) ;;
      ret (fst r)) (rp T) n Q.
Proof.
  intros HT Hex Hn Hinc Hx HL. iIntros "[HT HQ]". wbind. iApply twp_get_len. wbind.
  iApply (twp_remove_value CAVL x T); [done|done|done|]. iFrame "HT".
  apply zfind_in in Hx; [|done]. pose proof (zfind_plug x T) as HP.
  destruct (zfind x T) as [K t] eqn:EZ. cbn [fst snd] in *. destruct t as [|l ix u]; [done|]. iIntros "HT". cbn [fst snd].
  wbind. iApply twp_get_len. destruct (Z.eqb_spec (n + -1) n) as [?|_]; [lia|].
  assert (~ (K = [] /\ l = Nil /\ u = Nil)) as HL2. { intros (-> & -> & ->). by specialize (HL eq_refl). }
  pose proof (zremove_ino CAVL K l ix u HL2) as HI. pose proof (rp_zremove CAVL K l ix u HL2) as HRp. cbn zeta in HI.
  rewrite -HP in Hex. pose proof (zrep_near K l ix u Hex Hn) as [HK HS].
  assert (zl K ++ rest CAVL l u ++ zr K = set_del x (ino T)) as HD.
  { apply (removed_exact CAVL x T); [done|unfold removed; by rewrite EZ|]. rewrite EZ. cbn [snd]. by apply near_replaceable. }
  rewrite HD in HI.
  assert (forall f K' t', zrep CAVL (K, Bin l ix u) = (f :: K', t') -> exists f' t1,
    plug (zremove CAVL (K, Bin l ix u)).1 (zremove CAVL (K, Bin l ix u)).2 = plug (f' :: K') t1 /\
    rp (zremove CAVL (K, Bin l ix u)).2 = cpar (f' :: K') /\ exact t1 /\ exactK (f' :: K') /\
    climb (f' :: K') t1 = avl_del (K, Bin l ix u)) as HZ.
  { intros f K' t' E. unfold zremove, avl_del. rewrite E in HK HS |- *. cbn [fst snd] in *. unfold putdel. destruct (leafb t') eqn:El.
    - exists (reframe CAVL Nil f), Nil. rewrite (chain_leaf _ _ El). cbn [plug]. rewrite fill_reframe climb_reframe. split_and!; try done; by destruct f.
    - exists f, (chain CAVL t'). cbn [plug]. split_and!; try done; [by destruct f|]. by apply short_chain. }
  destruct (zrep CAVL (K, Bin l ix u)) as [[|f K'] t'] eqn:Er.
  { exfalso. revert Er. unfold zrep. cbn zeta. destruct u as [|u1 jy u2]; [destruct l as [|l1 jy l2]|].
    - intros [= -> _]. by apply HL2.
    - destruct (zmax_shape (Bin l1 jy l2)) as (l3 & ky & E); [done|]. rewrite E. intros E'%(f_equal fst). cbn [fst] in E'. by apply app_nil in E' as [_ ?].
    - destruct (zmin_shape (Bin u1 jy u2)) as (ky & l3 & E); [done|]. rewrite E. intros E'%(f_equal fst). cbn [fst] in E'. by apply app_nil in E' as [_ ?]. }
  destruct (HZ f K' t' eq_refl) as (f' & t1 & E1 & E2 & E3 & E4 & E5). rewrite E1 E2 -E5 in HI HRp |- *.
  iDestruct (tree_at with "HT") as "[HK HT]".
  wbind. iApply (twp_get_fuel (ctxp (f' :: K') (rp t1)) (length (f' :: K'))); [apply plug_atleast|]. iFrame "HK". iIntros (fu Hfu) "HK".
  wbind. iApply (twp_avl_up fu (f' :: K') t1); [lia| |done|done| |].
  { rewrite -rp_plug HRp -HP rp_plug. done. }
  { rewrite -ino_plug HI. by apply set_del_inc. }
  iFrame "HK HT". iIntros "HT". wret. by iApply "HQ".
Qed.

Lemma avl_remove_near s T x : rep s T -> exact T -> near (zfind x T).2 -> increasing (ino T) ->
  exists s' T', tree_remove CAVL (PNum x) s = Ok (bool_decide (x ∉ ino T)) s' /\ rep s' T' /\ ino T' = set_del x (ino T) /\
    exact T'.
Proof.
  intros H He Hn Hinc. cbn [tree_remove]. unfold avl_remove.
  edestruct (remove_guard s T x (fun x => let! length_before := get_len in
    let! r := remove_value CAVL x in
    let! length_after := get_len in
    if Z.eqb length_after length_before then ret (fst r)
    else
      let! n := get_fuel in
      avl_up n (snd r) ;;
      ret (fst r)) (fun w T' => w = bool_decide (x ∉ ino T) /\ ino T' = set_del x (ino T) /\
    exact T') H) as (w & s' & T' & E & HR & -> & HQ); [| | |by exists s', T'].
  - intros ->. done.
  - intros l ix u -> Hl ->. destruct l, u; try done. cbn [ino app]. split_and!; try done.
    + symmetry. apply bool_decide_eq_false. set_solver.
    + unfold set_del. rewrite filter_cons_False; [|tauto]. done.
  - intros HT Hl. destruct (decide (x ∈ ino T)) as [Hx|Hx].
    + assert ((zfind x T).1 = [] -> leafb (zfind x T).2 = false) as HL.
      { intros HK. pose proof (zfind_plug x T) as HP. pose proof (zfind_val x T) as HV.
        destruct (zfind x T) as [K t]. cbn [fst snd] in *. subst K. cbn in HP. subst t.
        destruct (leafb T) eqn:El; [|done]. exfalso. destruct T as [|l ix u]; [done|]. by eapply Hl; [..|symmetry; apply (HV l ix u)]. }
      assert (exact (avl_del (zfind x T)) /\ ino (avl_del (zfind x T)) = set_del x (ino T)) as [HE HI].
      { apply zfind_in in Hx; [|done]. pose proof (zfind_plug x T) as HP.
        destruct (zfind x T) as [K t] eqn:EZ. cbn [fst snd] in *. destruct t as [|l ix u]; [done|]. rewrite -HP in He.
        pose proof (zrep_near K l ix u He Hn) as [HK HS]. apply short_chain in HS as [HS _].
        split; [by apply climb_exact|]. unfold avl_del. rewrite climb_ino //.
        assert (~ (K = [] /\ l = Nil /\ u = Nil)) as HL2. { intros (-> & -> & ->). by specialize (HL eq_refl). }
        rewrite -(ino_zremove CAVL (K, Bin l ix u)); [|by right|].
        - rewrite (zremove_ino CAVL K l ix u HL2). apply (removed_exact CAVL x T); [done|unfold removed; by rewrite EZ|].
          rewrite EZ. cbn [snd]. by apply near_replaceable.
        - unfold zrep. cbn zeta. destruct u as [|u1 jy u2]; [destruct l as [|l1 jy l2]|].
          + intros HK0. by apply HL2.
          + destruct (zmax_shape (Bin l1 jy l2)) as (l3 & ky & E); [done|]. rewrite E. cbn [fst]. intros E'. by apply app_nil in E' as [_ ?].
          + destruct (zmin_shape (Bin u1 jy u2)) as (ky & l3 & E); [done|]. rewrite E. cbn [fst]. intros E'. by apply app_nil in E' as [_ ?]. }
      iIntros "HT". iApply (twp_avl_remove2 x T); [done..|]. iFrame "HT". iIntros "HT". wpost (avl_del (zfind x T)); try done.
      * symmetry. apply bool_decide_eq_false. tauto.
      * rewrite -(rest_size x T) // -HI ino_length. lia.
    + iIntros "HT". wbind. iApply twp_get_len. wbind. pose proof (zfind_in x T Hinc) as HZ.
      destruct ((zfind x T).2) as [|? ? ?] eqn:EZ; [|exfalso; apply Hx, HZ; done].
      iApply (twp_remove_value CAVL x T); [done|done| |].
      { intros HK. by rewrite EZ. }
      iFrame "HT". rewrite EZ. iIntros (j) "%Hj HT". wbind. iApply twp_get_len. rewrite Z.eqb_refl. wret.
      wpost T; try done.
      * symmetry. by apply bool_decide_eq_true.
      * by rewrite set_del_notin.
Qed.


Lemma near_map {A B} (f : A -> B) (t : bin A) : near (bin_map f t) <-> near t.
Proof.
  assert (forall t : bin A, small (bin_map f t) <-> small t) as HS by (by intros [|[] ? []]).
  assert (forall t : bin A, below_leftmost (bin_map f t) = bin_map f (below_leftmost t)) as H1.
  { induction t0 as [|l IHl x r IHr]; [done|]. cbn [bin_map below_leftmost]. destruct l; [done|]. exact IHl. }
  assert (forall t : bin A, below_rightmost (bin_map f t) = bin_map f (below_rightmost t)) as H2.
  { induction t0 as [|l IHl x r IHr]; [done|]. cbn [bin_map below_rightmost]. destruct r; [done|]. exact IHr. }
  destruct t as [|l x [|r1 y r2]]; [done|..]; cbn [bin_map near].
  - rewrite H2. apply HS.
  - change (Bin (bin_map f r1) (f y) (bin_map f r2)) with (bin_map f (Bin r1 y r2)). rewrite H1. apply HS.
Qed.
Lemma avl_near_step s T o : rep s T -> exact T -> increasing (ino T) -> (forall x, o = TRemove (PNum x) -> near (zfind x T).2) ->
  exists r s' T', call CAVL o s = Some (r, s') /\ rep s' T' /\ exact T' /\ answer CAVL o (ino T) r /\ ino T' = next CAVL o (ino T).
Proof.
  intros H HA Hinc Hn. assert (o = TClear \/ o <> TClear) as [->|Hcl] by (destruct o; (by left) || (by right)).
  { destruct (clear_step CAVL s T H) as (s' & E & HR). exists (OUnit false), s', Nil. by split_and!. }
  destruct (changes CAVL o) eqn:Ec.
  - destruct o as [v p|v| | | | | | | | | | | | | ]; try done.
    + apply insert_step; [done| |done]. intros x -> _. by apply avl_insert_exact.
    + apply remove_step; [done| |done]. intros x ->. apply avl_remove_near; try done. by apply Hn.
  - destruct (read_step CAVL o s T Ec H (fun _ => Hinc)) as (r & s' & E & HR & HB & HN). exists r, s', T. by split_and!.
Qed.
Lemma avl_near_run os : forall s T, rep s T -> exact T -> increasing (ino T) ->
  (forall pre x post rs s' t, os = pre ++ TRemove (PNum x) :: post -> calls CAVL pre s = Some (rs, s') -> shape s' = Some t ->
     near (subtree_at x (bin_map p_val t))) ->
  exists rs s' T', calls CAVL os s = Some (rs, s') /\ rep s' T' /\ exact T' /\ answers CAVL os (ino T) rs /\ ino T' = set_after CAVL os (ino T).
Proof.
  induction os as [|o os IH]; intros s T H HE Hinc HB; [by exists [], s, T|].
  destruct (avl_near_step s T o H HE Hinc) as (r & s1 & T1 & E & HR & HE1 & HA1 & HN).
  { intros x ->. specialize (HB [] x os [] s _ eq_refl eq_refl (rep_shape _ _ H)). rewrite subtree_at_zfind in HB. by rewrite !near_map in HB. }
  destruct (IH s1 T1 HR HE1) as (rs & s2 & T2 & E2 & HR2 & HE2 & HA2 & HN2).
  - rewrite HN. by apply next_inc.
  - intros pre x post rs s' t -> Ec Ht. eapply (HB (o :: pre) x post); try done. cbn [calls]. by rewrite E Ec.
  - rewrite HN in HA2, HN2. exists (r :: rs), s2, T2. cbn [calls]. rewrite E E2. by split_and!.
Qed.
