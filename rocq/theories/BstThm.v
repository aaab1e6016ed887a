(** * Every call on a BST, and the read-only calls on all five classes *)
From Coq Require Import Sorted.
From iris.proofmode Require Import proofmode.
From Verif Require Import Base NumOrd TreeModel TreeSpec BstModel BalModel BstSpec BstSep BstRules BstZip BstDel BinThm BstPure.
Local Open Scope py_scope.

(** The tree object in state [s] is the tree [T]. *)
Definition rep (s : tst) (T : ptree) : Prop :=
  exists h, h ⊆ memof s /\ tree None T h /\ t_root s = rp T /\ t_len s = Z.of_nat (bsize T).
Definition post {A} (Q : A -> ptree -> Prop) (a : A) (r : option nat) (n : Z) : hprop :=
  (∃ T', ⌜Q a T' /\ r = rp T' /\ n = Z.of_nat (bsize T')⌝ ∗ tree None T')%I.
Lemma post_elim {A} (Q : A -> ptree -> Prop) a r n h : post Q a r n h ->
  exists T', Q a T' /\ r = rp T' /\ n = Z.of_nat (bsize T') /\ tree None T' h.
Proof.
  intros (T' & h1 & h2 & Hd & Hs & (H1 & H2 & H3) & H4). exists T'. split_and!; try done.
  eapply hp_mono; [|exact H4]. etrans; [|exact Hs]. by apply map_union_subseteq_r.
Qed.
Lemma rep_run {A} (m : M tst A) s T (Q : A -> ptree -> Prop) : rep s T ->
  (tree None T ⊢ twp m (rp T) (Z.of_nat (bsize T)) (post Q)) ->
  exists a s' T', m s = Ok a s' /\ rep s' T' /\ Q a T'.
Proof.
  intros (h & Hs & HT & Hr & Hn) Hm. rewrite -Hr -Hn in Hm.
  destruct (twp_run _ _ _ _ _ Hm HT Hs) as (a & s' & h' & E & Hs' & HQ).
  apply post_elim in HQ as (T' & HQ & Hr' & Hn' & HT'). exists a, s', T'. split_and!; [done| |done].
  exists h'. by split_and!.
Qed.
Ltac wpost T' := iExists T'; iSplit; [iPureIntro; split_and!|].
Lemma rep0 : rep tst0 Nil.
Proof. exists ∅. split_and!; done. Qed.

(** ** Reading *)
Global Instance is_num_dec (v : pyval) : Decision (exists x, v = PNum x).
Proof. destruct v; (by left; eexists) || (right; by intros []). Defined.
Global Instance ptree_nil_dec (T : ptree) : Decision (T = Nil).
Proof. destruct T; [by left|by right]. Defined.
Lemma twp_tree_vals t r n Q : r = rp t ->
  tree None t ∗ (tree None t -∗ Q (bin_map p_val (bin_map snd t)) r n) ⊢ twp tree_vals r n Q.
Proof.
  intros Hr. iIntros "[Ht HQ]". unfold tree_vals. wbind. iApply (twp_tree_pays t); [done|]. iFrame "Ht". iIntros "Ht".
  wret. by iApply "HQ".
Qed.
Lemma rep_shape s T : rep s T -> shape s = Some (bin_map snd T).
Proof.
  intros H. destruct (rep_run tree_pays s T (fun a T' => a = bin_map snd T) H) as (a & s' & T' & E & _ & ->).
  - iIntros "HT". iApply (twp_tree_pays T); [done|]. iFrame "HT". iIntros "HT". wpost T; done.
  - unfold shape. by rewrite E.
Qed.
Lemma rep_vals s T : rep s T -> exists s', tree_vals s = Ok (bin_map p_val (bin_map snd T)) s' /\ rep s' T.
Proof.
  intros H. destruct (rep_run tree_vals s T (fun a T' => a = bin_map p_val (bin_map snd T) /\ T' = T) H) as (a & s' & T' & E & HR & -> & ->).
  - iIntros "HT". iApply (twp_tree_vals T); [done|]. iFrame "HT". iIntros "HT". wpost T; done.
  - by exists s'.
Qed.
Lemma rep_empty s T : rep s T -> bst_is_empty s = Ok (match T with Nil => true | _ => false end) s.
Proof. intros (h & _ & _ & Hr & _). unfold bst_is_empty, get_root, bind, ret. rewrite Hr. by destruct T. Qed.
Lemma last_app_cons {A} (l : list A) x l' : last (l ++ x :: l') = last (x :: l').
Proof. rewrite last_app. by destruct (last (x :: l')) eqn:E; [|apply last_None in E]. Qed.
Lemma zmin_head T l ix u : (zmin T).2 = Bin l ix u -> head (ino T) = Some (p_val ix.2).
Proof.
  intros E. destruct (decide (T = Nil)) as [->|HT]; [done|].
  destruct (zmin_shape T HT) as (jy & u' & E'). rewrite (ino_zmin T jy u') //. rewrite E in E'. by injection E' as _ -> _.
Qed.
Lemma zmax_last T l ix u : (zmax T).2 = Bin l ix u -> last (ino T) = Some (p_val ix.2).
Proof.
  intros E. destruct (decide (T = Nil)) as [->|HT]; [done|].
  destruct (zmax_shape T HT) as (u' & jy & E'). rewrite (ino_zmax T jy u') //. rewrite E in E'. injection E' as _ -> _.
  by rewrite app_assoc last_snoc.
Qed.
Lemma rep_min s T : rep s T -> T <> Nil -> exists x s', bst_get_min s = Ok x s' /\ rep s' T /\ head (ino T) = Some x.
Proof.
  intros H HT. destruct (rep_run bst_get_min s T (fun x T' => T' = T /\ head (ino T) = Some x) H) as (a & s' & T' & E & HR & -> & Hh).
  - iIntros "HT". unfold bst_get_min. wbind. iApply twp_get_root. destruct (rp T) as [i|] eqn:Ei; [|by destruct T].
    wbind. iApply twp_get_fuel; [apply tree_atleast|]. iFrame "HT". iIntros (f Hf) "HT".
    wbind. iApply (twp_get_min_node T None); [lia|done|]. iFrame "HT". iIntros (j) "%Hj HT".
    destruct ((zmin T).2) as [|l [j' x] u] eqn:Em; [done|]. injection Hj as <-.
    iApply (twp_get_data_at T (zmin T).1 l (j', x) u); [by rewrite -Em zmin_plug|done|]. iFrame "HT". iIntros "HT".
    wpost T; try done. by eapply zmin_head in Em.
  - by exists a, s'.
Qed.
Lemma rep_max s T : rep s T -> T <> Nil -> exists x s', bst_get_max s = Ok x s' /\ rep s' T /\ last (ino T) = Some x.
Proof.
  intros H HT. destruct (rep_run bst_get_max s T (fun x T' => T' = T /\ last (ino T) = Some x) H) as (a & s' & T' & E & HR & -> & Hh).
  - iIntros "HT". unfold bst_get_max. wbind. iApply twp_get_root. destruct (rp T) as [i|] eqn:Ei; [|by destruct T].
    wbind. iApply twp_get_fuel; [apply tree_atleast|]. iFrame "HT". iIntros (f Hf) "HT".
    wbind. iApply (twp_get_max_node T None); [lia|done|]. iFrame "HT". iIntros (j) "%Hj HT".
    destruct ((zmax T).2) as [|l [j' x] u] eqn:Em; [done|]. injection Hj as <-.
    iApply (twp_get_data_at T (zmax T).1 l (j', x) u); [by rewrite -Em zmax_plug|done|]. iFrame "HT". iIntros "HT".
    wpost T; try done. by eapply zmax_last in Em.
  - by exists a, s'.
Qed.
(** [_search]: the node reached, as a place in the tree. *)
Definition found (v : num) (T : ptree) : bool := match (zfind v T).2 with Nil => false | _ => true end.
Lemma found_in v T : increasing (ino T) -> found v T = bool_decide (v ∈ ino T).
Proof.
  intros H. unfold found. destruct (zfind v T).2 eqn:E; symmetry.
  - apply bool_decide_eq_false. intros Hv%zfind_in; [|done]. by rewrite E in Hv.
  - apply bool_decide_eq_true, zfind_in; [done|]. by rewrite E.
Qed.
(** The place [_search] stops at. *)
Lemma zlast_node v T : T <> Nil -> exists l ix u, (zlast (zfind v T)).2 = Bin l ix u /\
  bool_decide (p_val ix.2 = v) = found v T.
Proof.
  intros HT. unfold found. pose proof (zfind_val v T) as HV. pose proof (zfind_plug v T) as HP.
  destruct (zfind v T) as [K t] eqn:E. cbn [fst snd] in *. destruct t as [|l ix u].
  - destruct K as [|f K]; [by subst T|]. cbn [zlast snd].
    destruct (fill f Nil) as [|l' jy u'] eqn:Ef; [by destruct f|]. exists l', jy, u'. split; [done|].
    apply bool_decide_eq_false. assert (jy = fnode f) as -> by (destruct f; cbn in Ef |- *; by injection Ef).
    by eapply zfind_last_ne.
  - rewrite zlast_bin. exists l, ix, u. split; [done|]. by apply bool_decide_eq_true, (HV l ix u).
Qed.
Lemma rep_contains s T v : rep s T -> exists s', bst_contains (PNum v) s = Ok (found v T) s' /\ rep s' T.
Proof.
  intros H. unfold bst_contains. erewrite bind_ok; [|by apply rep_empty].
  destruct (decide (T = Nil)) as [->|HT]; [by exists s|].
  assert ((match T with Nil => true | _ => false end) = false) as -> by (by destruct T).
  destruct (rep_run (let! i := search_root v in let! d := get_data i in ret (bool_decide (d = v))) s T
     (fun b T' => b = found v T /\ T' = T) H) as (a & s' & T' & E & HR & -> & ->); [|by exists s'].
  iIntros "HT". wbind. iApply (twp_search_root v T); [done|done|]. iFrame "HT". iIntros (j) "%Hj HT".
  destruct (zlast_node v T HT) as (l & ix & u & E & Hb). rewrite E in Hj. injection Hj as <-.
  wbind. iApply (twp_get_data_at T (zlast (zfind v T)).1 l ix u); [by rewrite -E zlast_plug zfind_plug|done|].
  iFrame "HT". iIntros "HT". wret. wpost T; done.
Qed.

Lemma rep_contains_other s T v : rep s T -> (forall x, v <> PNum x) -> bst_contains v s = Ok false s.
Proof. intros H Hv. unfold bst_contains. rewrite (bind_ok _ _ _ _ _ (rep_empty s T H)). destruct T; [done|]. destruct v; try done. by edestruct Hv. Qed.

(** ** Read-only calls *)
Definition changes (c : tcls) (o : top) : bool :=
  match o with
  | TInsert _ _ | TRemove _ | TClear => true
  | TContains _ => match c with CSplay => true | _ => false end
  | _ => false
  end.
Lemma call_ok c o s r s' : exec c o s = Ok r s' -> call c o s = Some (r, s').
Proof. unfold call. by intros ->. Qed.
Lemma call_exc c o s e s' : exec c o s = Exc e s' -> call c o s = Some (ORaise e, s').
Proof. unfold call. by intros ->. Qed.
Lemma levels_ino (T : ptree) : concat (blevels (bin_map p_val (bin_map snd T))) ≡ₚ ino T.
Proof. destruct (traversals_perm (bin_map p_val (bin_map snd T))) as (H1 & H2 & H3). by rewrite H3 -H1 ino_vals. Qed.
Lemma vals_nil (T : ptree) : (bin_map p_val (bin_map snd T) = Nil) <-> T = Nil.
Proof. by destruct T. Qed.
Lemma ino_empty T : bool_decide (ino T = []) = match T with Nil => true | _ => false end.
Proof. destruct T; [done|]. apply bool_decide_eq_false. rewrite ino_nil. done. Qed.
Lemma rep_children_heights s T i x l u : rep s T -> T = Bin l (i, x) u ->
  exists s', get_children_heights i s = Ok (hh l, hh u) s' /\ rep s' T.
Proof.
  intros H ->. destruct (rep_run (get_children_heights i) s (Bin l (i, x) u) (fun a T' => a = (hh l, hh u) /\ T' = Bin l (i, x) u) H)
    as (a & s' & T' & E & HR & -> & ->); [|by exists s'].
  cbn [tree fst snd]. iIntros "(Hi & Hl & Hu)". iApply (twp_children_heights i x None l _ u). iFrame "Hi Hl Hu". iIntros "Hi Hl Hu".
  wpost (Bin l (i, x) u); try done. cbn [tree fst snd]. iFrame.
Qed.
Lemma rep_height s T i x l u : rep s T -> T = Bin l (i, x) u ->
  exists s', get_height i s = Ok (p_height x) s' /\ rep s' T.
Proof.
  intros H ->. destruct (rep_run (get_height i) s (Bin l (i, x) u) (fun a T' => a = p_height x /\ T' = Bin l (i, x) u) H)
    as (a & s' & T' & E & HR & -> & ->); [|by exists s'].
  cbn [tree fst snd]. iIntros "(Hi & Hl & Hu)". wget1.
  wpost (Bin l (i, x) u); try done. cbn [tree fst snd]. iFrame.
Qed.
Lemma rep_root s T : rep s T -> t_root s = rp T.
Proof. by intros (h & _ & _ & H & _). Qed.
Lemma read_step c o s T : changes c o = false -> rep s T -> ((exists x, o = TContains (PNum x)) -> increasing (ino T)) ->
  exists r s', call c o s = Some (r, s') /\ rep s' T /\ answer c o (ino T) r /\ next c o (ino T) = ino T.
Proof.
  intros Hc H Hinc. destruct (rep_vals s T H) as (s1 & Hv & H1).
  destruct o as [v p|v|v| | | | |m| | | | | | | ]; try done; cbn [next answer].
  - (* contains *)
    destruct (decide (exists x, v = PNum x)) as [[x ->]|Hv'].
    2:{ assert (forall x, v <> PNum x) as Hx by naive_solver. pose proof (rep_contains_other s T v H Hx) as E.
        exists (OBool false), s. split_and!; try done.
        - apply call_ok. cbn [exec]. destruct c; try done; cbn [tree_contains]; by rewrite (bind_ok _ _ _ _ _ E).
        - destruct c, v; naive_solver. }
    assert (exists s', call c (TContains (PNum x)) s = Some (OBool (found x T), s') /\ rep s' T) as (s' & E & HR).
    { destruct (rep_contains s T x H) as (s' & E & HR). exists s'. split; [|done]. apply call_ok. cbn [exec].
      destruct c; try done; cbn [tree_contains]; by rewrite (bind_ok _ _ _ _ _ E). }
    exists (OBool (found x T)), s'. rewrite E found_in; [|apply Hinc; by eexists]. split_and!; try done. destruct c; done.
  - eexists _, s. split; [by apply call_ok|]. split_and!; try done. destruct H as (h & _ & _ & _ & Hn). by rewrite Hn ino_length.
  - eexists _, s. split; [apply call_ok; cbn [exec]; by rewrite (bind_ok _ _ _ _ _ (rep_empty s T H))|].
    rewrite ino_empty. done.
  - destruct (decide (T = Nil)) as [->|HT].
    + exists (ORaise IndexError), s. split_and!; try done. apply call_exc. cbn [exec]. apply bind_exc. unfold bst_get_min, get_root, bind.
      by rewrite (rep_root _ _ H).
    + destruct (rep_min s T H HT) as (x & s' & E & HR & Hx). exists (OVal x), s'. rewrite Hx. split_and!; try done.
      apply call_ok. cbn [exec]. by rewrite (bind_ok _ _ _ _ _ E).
  - destruct (decide (T = Nil)) as [->|HT].
    + exists (ORaise IndexError), s. split_and!; try done. apply call_exc. cbn [exec]. apply bind_exc. unfold bst_get_max, get_root, bind.
      by rewrite (rep_root _ _ H).
    + destruct (rep_max s T H HT) as (x & s' & E & HR & Hx). exists (OVal x), s'. rewrite Hx. split_and!; try done.
      apply call_ok. cbn [exec]. by rewrite (bind_ok _ _ _ _ _ E).
  - (* traverse *)
    pose proof (traversals_perm (bin_map p_val (bin_map snd T))) as (P1 & P2 & P3).
    unfold call. cbn [exec]. rewrite (bind_ok _ _ _ _ _ Hv). unfold traverse.
    destruct m as [|x|m| | |]; try (eexists _, s1; done).
    destruct (decide (lower m = s_inorder)) as [Hm|Hm].
    { rewrite bool_decide_eq_true_2 //. eexists _, s1. split; [done|]. split_and!; [done| |done]. by rewrite ino_vals. }
    rewrite (bool_decide_eq_false_2 _ Hm).
    case_bool_decide as H2.
    { destruct (decide _) as [_|Hd]; [|set_solver]. eexists _, s1. split; [done|]. split_and!; [done| |done]. eexists. split; [done|]. by rewrite P2 -P1 ino_vals. }
    case_bool_decide as H3.
    { destruct (decide _) as [_|Hd]; [|set_solver]. eexists _, s1. split; [done|]. split_and!; [done| |done]. eexists. split; [done|]. by rewrite -P1 ino_vals. }
    case_bool_decide as H4.
    { destruct (decide _) as [_|Hd]; [|set_solver]. eexists _, s1. split; [done|]. split_and!; [done| |done]. eexists. split; [done|]. by rewrite -P1 ino_vals. }
    case_bool_decide as H5.
    { destruct (decide _) as [_|Hd]; [|set_solver]. cbn [orb]. unfold breadth_first_traverse. rewrite bin_to_list_spec. eexists _, s1. split; [done|]. split_and!; [done| |done].
      eexists. split; [done|]. apply levels_ino. }
    destruct (decide _) as [Hd|_]; [set_solver|]. eexists _, s1. done.
  - unfold call. cbn [exec]. rewrite (bind_ok _ _ _ _ _ Hv). rewrite bin_levels_spec. eexists _, s1. split; [done|]. split_and!; [done| |done].
    eexists. split; [done|]. apply levels_ino.
  - (* height *)
    destruct c; try (unfold call; cbn [exec get_tree_height]; unfold bind at 1; rewrite (bind_ok _ _ _ _ _ Hv); eexists _, s1; split; [done|]; split_and!; [done| |done]; by eexists).
    unfold call. cbn [exec get_tree_height]. unfold bind at 1. unfold get_root, bind at 1. rewrite (rep_root _ _ H).
    destruct T as [|l [i x] u]; cbn [rp fst]; [eexists _, s; split; [done|]; split_and!; [done| |done]; by exists 0|].
    destruct (rep_height s _ i x l u H eq_refl) as (s' & E & HR). rewrite (bind_ok _ _ _ _ _ E).
    eexists _, s'. split; [done|]. split_and!; [done| |done]. by eexists.
  - unfold call. cbn [exec]. rewrite (bind_ok _ _ _ _ _ Hv). eexists _, s1. split; [done|]. split_and!; [done| |done]. by eexists.
  - (* is_balanced *)
    rewrite ino_empty.
    destruct c; try (unfold call; cbn [exec get_is_balanced]; unfold bind at 1; rewrite (bind_ok _ _ _ _ _ Hv); eexists _, s1; split; [done|];
       split_and!; [done| |done]; destruct T; cbn; by eexists).
    unfold call. cbn [exec get_is_balanced]. unfold bind at 1. unfold get_root, bind at 1. rewrite (rep_root _ _ H).
    destruct T as [|l [i x] u]; cbn [rp fst]; [eexists _, s; split; [done|]; split_and!; [done| |done]; by eexists|].
    destruct (rep_children_heights s _ i x l u H eq_refl) as (s' & E & HR).
    unfold avl_node_is_balanced. unfold bind at 1. rewrite (bind_ok _ _ _ _ _ E).
    eexists _, s'. split; [done|]. split_and!; [done| |done]. by eexists.
  - (* is_perfect *)
    unfold call. cbn [exec]. rewrite (bind_ok _ _ _ _ _ Hv). rewrite ino_empty.
    destruct (decide (T = Nil)) as [->|HT]; [eexists _, s1; split; [done|]; split_and!; [done| |done]; by eexists|].
    destruct (is_perfect_spec (bin_map p_val (bin_map snd T))) as (b & E & _); [by rewrite vals_nil|]. rewrite E.
    eexists _, s1. split; [done|]. split_and!; [done| |done]. destruct T; [done|]. by eexists.
  - unfold call. cbn [exec]. rewrite (bind_ok _ _ _ _ _ Hv). rewrite ino_empty. eexists _, s1. split; [done|]. split_and!; [done| |done].
    destruct T; by eexists.
Qed.
Lemma clear_step c s T : rep s T -> exists s', call c TClear s = Some (OUnit false, s') /\ rep s' Nil.
Proof.
  intros H. eexists. split; [done|]. exists ∅. split_and!; try done. apply map_empty_subseteq.
Qed.

(** ** Histories *)
Lemma run_history c (I : ptree -> Prop) (P : top -> list num -> Prop) :
  (forall s T o, rep s T -> I T -> increasing (ino T) -> P o (ino T) -> changes c o = true -> o <> TClear ->
     exists r s' T', call c o s = Some (r, s') /\ rep s' T' /\ I T' /\ answer c o (ino T) r /\ ino T' = next c o (ino T)) ->
  I Nil ->
  forall os s T, rep s T -> I T -> increasing (ino T) -> along c P os (ino T) ->
  exists rs s' T', calls c os s = Some (rs, s') /\ rep s' T' /\ I T' /\ answers c os (ino T) rs /\ ino T' = set_after c os (ino T) /\ increasing (ino T').
Proof.
  intros Hstep H0 os. induction os as [|o os IH]; intros s T H HI Hinc HP.
  { exists [], s, T. by split_and!. }
  destruct HP as [HP1 HP2].
  assert (increasing (next c o (ino T))) as Hinc'.
  { destruct o as [[]| [] | | | | | | | | | | | | |]; cbn; try done.
    - destruct (prio_ok c p); [by apply set_add_inc|done].
    - by apply set_del_inc.
    - constructor. }
  assert (exists r s' T', call c o s = Some (r, s') /\ rep s' T' /\ I T' /\ answer c o (ino T) r /\ ino T' = next c o (ino T))
    as (r & s1 & T1 & E & HR & HI1 & HA & HN).
  { assert (o = TClear \/ o <> TClear) as [->|Ho] by (destruct o; (by left) || (by right)).
    - destruct (clear_step c s T H) as (s' & E & HR). exists (OUnit false), s', Nil. by split_and!.
    - destruct (changes c o) eqn:Ec; [by apply Hstep|].
      destruct (read_step c o s T Ec H (fun _ => Hinc)) as (r & s' & E & HR & HA & HN). exists r, s', T. by split_and!. }
  rewrite -HN in Hinc' HP2.
  destruct (IH s1 T1 HR HI1 Hinc' HP2) as (rs & s2 & T2 & E2 & HR2 & HI2 & HA2 & HN2 & Hinc2).
  exists (r :: rs), s2, T2. cbn [calls]. rewrite E E2. rewrite HN in HA2, HN2. by split_and!.
Qed.

Lemma rp_putdel c f t : rp (putdel c f t) = Some (fnode f).1.
Proof. unfold putdel. destruct (leafb t); destruct f; done. Qed.
Lemma croot_app K K' p : croot (K ++ K') p = croot K' (croot K p).
Proof. revert p. induction K as [|f K IH]; intros p; [done|]. cbn. apply IH. Qed.
Lemma croot_cons f K p : croot (f :: K) p = croot K (Some (fnode f).1).
Proof. done. Qed.
Lemma rp_zremove c K l ix u : ~ (K = [] /\ l = Nil /\ u = Nil) ->
  rp (plug (zremove c (K, Bin l ix u)).1 (zremove c (K, Bin l ix u)).2) = croot K (Some ix.1).
Proof.
  intros H. rewrite rp_plug. unfold zremove, zrep. cbn zeta. destruct u as [|u1 jy u2].
  - destruct l as [|l1 jy l2].
    + destruct K as [|f K]; [naive_solver|]. cbn [fst snd]. by rewrite rp_putdel croot_cons.
    + destruct (zmax_shape (Bin l1 jy l2)) as (l3 & ky & E); [done|]. rewrite E.
      destruct (zmax (Bin l1 jy l2)).1 as [|f K'] eqn:EK; cbn [app fst snd].
      * by rewrite rp_putdel.
      * by rewrite rp_putdel croot_app croot_cons.
  - destruct (zmin_shape (Bin u1 jy u2)) as (ky & l3 & E); [done|]. rewrite E.
    destruct (zmin (Bin u1 jy u2)).1 as [|f K'] eqn:EK; cbn [app fst snd].
    + by rewrite rp_putdel.
    + by rewrite rp_putdel croot_app croot_cons.
Qed.

(** ** The guards of insert and remove *)
Lemma zinsert_size c v new x T : T <> Nil -> bsize (zinsert c v new x T) = bsize T + (if found v T then 0 else 1).
Proof.
  intros HT. unfold zinsert, found. pose proof (zfind_plug v T) as HP. destruct (zfind v T) as [K t]. cbn [fst snd] in *.
  destruct t; [|destruct K; lia]. destruct K as [|f K].
  - subst. done.
  - rewrite -HP -!ino_length ino_plug_fillc !ino_plug. cbn [ino leaf_of]. rewrite !app_length. cbn. lia.
Qed.
Lemma insert_size v T : increasing (ino T) -> length (set_add v (ino T)) = bsize T + (if found v T then 0 else 1).
Proof.
  intros H. rewrite -ino_length. rewrite (found_in v T H). case_bool_decide as Hv; [rewrite set_add_in //; lia|].
  assert (forall l, v ∉ l -> length (set_add v l) = length l + 1) as Hl.
  { induction l as [|y l IH]; [done|]. cbn. intros Hn. apply not_elem_of_cons in Hn as [? ?]. rewrite decide_False //.
    destruct (num_ltb v y); cbn; [lia|]. rewrite IH //. }
  by rewrite Hl.
Qed.
(** Into an empty tree. *)
Lemma new_root s pr x : rep s Nil ->
  exists i s', (let! i := new_node x pr in set_root (Some i) ;; add_len 1 ;; ret false) s = Ok false s' /\
    rep s' (leaf_of i (Pay x 0 pr Red)).
Proof.
  intros H.
  destruct (rep_run (let! i := new_node x pr in set_root (Some i) ;; add_len 1 ;; ret false) s Nil
    (fun w T' => w = false /\ exists i, T' = leaf_of i (Pay x 0 pr Red)) H) as (w & s' & T' & E & HR & -> & i & ->).
  - iIntros "HT". unfold new_node. wbind. iApply twp_alloc. iIntros (i) "Hi". wbind. iApply twp_set_root. wbind.
    iApply twp_add_len. wret. wpost (leaf_of i (Pay x 0 pr Red)); [done|by eexists|done|done|].
    unfold leaf_of. cbn [tree fst snd rp]. iFrame.
  - by exists i, s'.
Qed.
(** Removal of the last value; otherwise [rest] runs. *)
Lemma remove_guard s T x (k : num -> M tst bool) (Q : bool -> ptree -> Prop) : rep s T ->
  (T = Nil -> Q true Nil) ->
  (forall l ix u, T = Bin l ix u -> leafb T = true -> x = p_val ix.2 -> Q false Nil) ->
  (T <> Nil -> (forall l ix u, T = Bin l ix u -> leafb T = true -> x <> p_val ix.2) ->
   tree None T ⊢ twp (k x) (rp T) (Z.of_nat (bsize T)) (post Q)) ->
  exists w s' T', remove_with (PNum x) k s = Ok w s' /\ rep s' T' /\ Q w T'.
Proof.
  intros H H0 H1 H2. destruct T as [|l [i y] u].
  - exists true, s, Nil. split_and!; [|done|by apply H0]. unfold remove_with, get_root, bind. by rewrite (rep_root _ _ H).
  - apply (rep_run _ s _ Q H). iIntros "HT". unfold remove_with. wbind. iApply twp_get_root. cbn [rp fst].
    destruct (leafb (Bin l (i, y) u)) eqn:El.
    + iDestruct "HT" as "(Hi & Hl & Hu)". wbind. iApply (twp_node_is_leaf i y l u). iFrame "Hi". iIntros "Hi". rewrite El.
      wget. cbn [andb]. case_bool_decide as Hx.
      * wbind. iApply twp_set_root. wbind. iApply twp_add_len. wret. wpost (Nil : ptree); [by eapply H1|done| |done].
        destruct l, u; done.
      * iApply (H2 with "[Hi Hl Hu]"); [done| |cbn [tree fst snd]; iFrame]. by intros ? ? ? [= <- <- <-] _.
    + iDestruct "HT" as "(Hi & Hl & Hu)". wbind. iApply (twp_node_is_leaf i y l u). iFrame "Hi". iIntros "Hi". rewrite El.
      wget. cbn [andb]. iApply (H2 with "[Hi Hl Hu]"); [done|done|cbn [tree fst snd]; iFrame].
Qed.
(** The insertion step of a class, given what its [insert] does with a number. *)
Lemma insert_step c s T v p (Q : ptree -> Prop) : rep s T ->
  (forall x, v = PNum x -> prio_ok c p = true ->
     exists s' T', tree_insert c v p s = Ok (bool_decide (x ∈ ino T)) s' /\ rep s' T' /\ ino T' = set_add x (ino T) /\ Q T') ->
  Q T ->
  exists r s' T', call c (TInsert v p) s = Some (r, s') /\ rep s' T' /\ Q T' /\
    answer c (TInsert v p) (ino T) r /\ ino T' = next c (TInsert v p) (ino T).
Proof.
  intros H H1 HQ. destruct (decide (exists x, v = PNum x)) as [[x ->]|Hv].
  - destruct (prio_ok c p) eqn:Hp.
    + destruct (H1 x eq_refl eq_refl) as (s' & T' & E & HR & HN & HQ'). exists (OUnit (bool_decide (x ∈ ino T))), s', T'.
      cbn [answer next]. rewrite Hp. split_and!; try done. apply call_ok. cbn [exec]. by rewrite (bind_ok _ _ _ _ _ E).
    + exists (ORaise TypeError), s, T. cbn [answer next]. rewrite Hp. split_and!; try done.
      destruct c; try done. destruct p as [|[]]; done.
  - exists (ORaise (match v with PNone => ValueError | _ => TypeError end)), s, T. destruct v; cbn [answer next]; try (split_and!; try done; by destruct c).
    by (exfalso; apply Hv; eexists).
Qed.
Lemma remove_step c s T v (Q : ptree -> Prop) : rep s T ->
  (forall x, v = PNum x ->
     exists s' T', tree_remove c v s = Ok (bool_decide (x ∉ ino T)) s' /\ rep s' T' /\ ino T' = set_del x (ino T) /\ Q T') ->
  Q T ->
  exists r s' T', call c (TRemove v) s = Some (r, s') /\ rep s' T' /\ Q T' /\
    answer c (TRemove v) (ino T) r /\ ino T' = next c (TRemove v) (ino T).
Proof.
  intros H H1 HQ. destruct (decide (exists x, v = PNum x)) as [[x ->]|Hv].
  - destruct (H1 x eq_refl) as (s' & T' & E & HR & HN & HQ'). exists (OUnit (bool_decide (x ∉ ino T))), s', T'.
    cbn [answer next]. split_and!; try done. apply call_ok. cbn [exec]. by rewrite (bind_ok _ _ _ _ _ E).
  - exists (OUnit true), s, T. split_and!; try done; [|destruct v; done || by (exfalso; apply Hv; eexists)|destruct v; done || by (exfalso; apply Hv; eexists)].
    apply call_ok. cbn [exec]. assert (tree_remove c v s = Ok true s) as E; [|by rewrite (bind_ok _ _ _ _ _ E)].
    assert (forall k, remove_with v k s = Ok true s) as E.
    { intros k. unfold remove_with, get_root, bind. destruct (t_root s); [|done]. destruct v; try done. by (exfalso; apply Hv; eexists). }
    destruct c; apply E.
Qed.

(** ** BST *)
Lemma bst_insert_run s T x p : rep s T ->
  exists s' T', tree_insert CBST (PNum x) p s = Ok (found x T) s' /\ rep s' T' /\
    exists new, T' = match T with Nil => leaf_of new (Pay x 0 (Fin 0) Red) | _ => zinsert CBST x new (Pay x 0 (Fin 0) Red) T end.
Proof.
  intros H. cbn [tree_insert]. unfold bst_insert. rewrite (bind_ok (check_number (PNum x)) _ s x s eq_refl).
  rewrite (bind_ok _ _ _ _ _ (rep_empty s T H)). destruct (decide (T = Nil)) as [->|HT].
  - destruct (new_root s (Fin 0) x H) as (i & s' & E & HR). exists s', (leaf_of i (Pay x 0 (Fin 0) Red)). split_and!; try done. by exists i.
  - assert ((match T with Nil => true | _ => false end) = false) as -> by (by destruct T).
    destruct (rep_run (let! r := insert_value CBST x (Fin 0) in ret (fst r)) s T
       (fun w T' => w = found x T /\ exists new, T' = zinsert CBST x new (Pay x 0 (Fin 0) Red) T) H) as (w & s' & T' & E & HR & -> & new & ->).
    { iIntros "HT". wbind. iApply (twp_insert_value CBST x (Fin 0) T); [done|done|]. iFrame "HT". iIntros (w j new) "%Hw HT".
      wret. cbn [fst]. wpost (zinsert CBST x new (Pay x 0 (Fin 0) Red) T); [| | | |done].
      - unfold found. destruct (zfind x T).2; by destruct Hw.
      - by eexists.
      - by rewrite rp_zinsert.
      - rewrite zinsert_size; [|done]. unfold found. destruct (zfind x T).2; destruct Hw as [-> _]; lia. }
    exists s', (zinsert CBST x new (Pay x 0 (Fin 0) Red) T). split_and!; [done|done|]. exists new. by destruct T.
Qed.
Definition removed (c : tcls) (x : num) (T : ptree) (L : list num) : Prop :=
  match zfind x T with
  | (K, Bin l ix u) => L = zl K ++ rest c l u ++ zr K
  | (_, Nil) => L = ino T
  end.
Lemma removed_perm c x T L : removed c x T L -> if found x T then x :: L ≡ₚ ino T else L = ino T.
Proof.
  unfold removed, found. pose proof (zfind_plug x T) as HP. pose proof (zfind_val x T) as HV.
  destruct (zfind x T) as [K t]. cbn [fst snd] in *. destruct t as [|l ix u]; [done|]. intros ->.
  rewrite -HP ino_plug. cbn [ino]. rewrite (HV l ix u eq_refl). rewrite rest_perm -!app_assoc /=. by rewrite !Permutation_middle.
Qed.
Lemma bst_remove_run s T x : rep s T ->
  exists s' T', tree_remove CBST (PNum x) s = Ok (negb (found x T)) s' /\ rep s' T' /\ removed CBST x T (ino T') /\ (found x T = false -> T' = T).
Proof.
  intros H. cbn [tree_remove]. unfold bst_remove.
  destruct (remove_guard s T x (fun x => let! r := remove_value CBST x in ret (fst r))
     (fun w T' => w = negb (found x T) /\ removed CBST x T (ino T') /\ (found x T = false -> T' = T)) H) as (w & s' & T' & E & HR & -> & HQ); [by intros ->|..|by exists s', T'].
  - intros l [i y] u -> Hl ->. destruct l, u; try done. unfold found, removed. cbn [zfind snd]. by rewrite bool_decide_eq_true_2.
  - intros HT Hl. iIntros "HT". wbind. iApply (twp_remove_value CBST x T); [done|done| |].
    { intros HK. pose proof (zfind_plug x T) as HP. pose proof (zfind_val x T) as HV.
      destruct (zfind x T) as [K t]. cbn [fst snd] in *. subst K. cbn in HP. subst t.
      destruct (leafb T) eqn:El; [|done]. exfalso. destruct T as [|l ix u]; [done|]. by eapply Hl; [..|symmetry; apply (HV l ix u)]. }
    iFrame "HT". destruct (zfind x T) as [K t] eqn:EZ. cbn [fst snd]. destruct t as [|l ix u].
    + iIntros (j) "%Hj HT". wret. wpost T; [unfold found; by rewrite EZ|unfold removed; by rewrite EZ|done|done|done|done].
    + iIntros "HT". wret. set (z := zremove CBST (K, Bin l ix u)). 
      assert (ino (plug z.1 z.2) = zl K ++ rest CBST l u ++ zr K) as Hi.
      { apply zremove_ino. intros (-> & -> & ->). pose proof (zfind_plug x T) as HP. pose proof (zfind_val x T) as HV.
        rewrite EZ in HP HV. cbn in HP, HV. subst T. by eapply Hl; [done|done|symmetry; eapply HV]. }
      assert (bsize T = S (bsize (plug z.1 z.2))) as Hn.
      { rewrite -!ino_length Hi. rewrite -(zfind_plug x T) EZ ino_plug. cbn [fst snd ino].
        rewrite !app_length. cbn. rewrite (Permutation_length (rest_perm CBST l u)) app_length. lia. }
      wpost (plug z.1 z.2); [unfold found; by rewrite EZ|unfold removed; by rewrite EZ|unfold found; by rewrite EZ| |cbn [fst]; lia|done].
      rewrite (rp_zremove CBST K l ix u).
      * pose proof (zfind_plug x T) as HP. rewrite EZ in HP. by rewrite -HP rp_plug.
      * intros (-> & -> & ->). pose proof (zfind_plug x T) as HP. pose proof (zfind_val x T) as HV.
        rewrite EZ in HP HV. cbn in HP, HV. subst T. by eapply Hl; [done|done|symmetry; eapply HV].
Qed.

Lemma found_elem x T : found x T = true -> x ∈ ino T.
Proof. unfold found. destruct (zfind x T) as [K t] eqn:E. destruct t; [done|]. intros _. by eapply zfind_bin_in. Qed.
Lemma zinsert_perm c x new p T : T <> Nil -> p_val p = x -> found x T = false -> ino (zinsert c x new p T) ≡ₚ x :: ino T.
Proof.
  unfold zinsert, found. pose proof (zfind_plug x T) as HP. destruct (zfind x T) as [K t]. cbn [fst snd] in *.
  intros HT Hp Hf. destruct t; [|done]. destruct K as [|f K]; [by subst|].
  rewrite -HP ino_plug_fillc !ino_plug. cbn [ino leaf_of app snd]. rewrite Hp. by rewrite Permutation_middle.
Qed.
Lemma zinsert_found c x new p T : found x T = true -> zinsert c x new p T = T.
Proof. unfold zinsert, found. pose proof (zfind_plug x T) as HP. destruct (zfind x T) as [K t]. cbn [fst snd] in *. by destruct t, K. Qed.
Lemma bst_bag_step s T o : rep s T ->
  exists r s' T', call CBST o s = Some (r, s') /\ rep s' T' /\ bag_step o (ino T) r (ino T').
Proof.
  intros H.
  assert ((forall x, o <> TContains (PNum x)) -> changes CBST o = false -> exists r s' T', call CBST o s = Some (r, s') /\ rep s' T' /\ bag_step o (ino T) r (ino T')) as Hread.
  { intros Hx Hc. destruct (read_step CBST o s T Hc H) as (r & s' & E & HR & HA & HN); [intros [x ->]; by edestruct Hx|].
    exists r, s', T. split_and!; try done. destruct o as [| |[]| | | | | | | | | | | |]; try done. by edestruct Hx. }
  destruct o as [v p|v|v| | | | |m| | | | | | | ]; try (by apply Hread).
  - destruct (decide (exists x, v = PNum x)) as [[x ->]|Hv].
    + destruct (bst_insert_run s T x p H) as (s' & T' & E & HR & new & HT'). exists (OUnit (found x T)), s', T'. split_and!; [|done|].
      { apply call_ok. cbn [exec]. by rewrite (bind_ok _ _ _ _ _ E). }
      cbn [bag_step]. destruct (found x T) eqn:Ef.
      * right. split; [done|]. destruct T; [done|]. rewrite HT' zinsert_found //. split; [done|]. by apply found_elem.
      * left. split; [done|]. destruct T as [|l ix u]; [by subst|]. rewrite HT'. by apply zinsert_perm.
    + destruct (insert_step CBST s T v p (fun T' => True) H) as (r & s' & T' & E & HR & _ & HA & HN); [|done|].
      * intros x ->. by edestruct Hv; eexists.
      * exists r, s', T'. split_and!; try done. destruct v; try done. by edestruct Hv; eexists.
  - destruct (decide (exists x, v = PNum x)) as [[x ->]|Hv].
    + destruct (bst_remove_run s T x H) as (s' & T' & E & HR & HT' & _). exists (OUnit (negb (found x T))), s', T'. split_and!; [|done|].
      { apply call_ok. cbn [exec]. by rewrite (bind_ok _ _ _ _ _ E). }
      cbn [bag_step]. apply removed_perm in HT'. destruct (found x T); [left; by symmetry in HT'|by right].
    + destruct (remove_step CBST s T v (fun T' => True) H) as (r & s' & T' & E & HR & _ & HA & HN); [|done|].
      * intros x ->. by edestruct Hv; eexists.
      * exists r, s', T'. split_and!; try done. destruct v; try done. by edestruct Hv; eexists.
  - destruct (decide (exists x, v = PNum x)) as [[x ->]|Hv].
    + destruct (rep_contains s T x H) as (s' & E & HR). exists (OBool (found x T)), s', T. split_and!; [|done|].
      { apply call_ok. cbn [exec tree_contains]. by rewrite (bind_ok _ _ _ _ _ E). }
      cbn [bag_step]. split; [done|]. eexists. split; [done|]. apply found_elem.
    + apply Hread; [|done]. intros x [= ->]. by edestruct Hv; eexists.
  - destruct (clear_step CBST s T H) as (s' & E & HR). exists (OUnit false), s', Nil. by split_and!.
Qed.
Lemma bst_bag_steps os : forall s T, rep s T ->
  exists rs s' T', calls CBST os s = Some (rs, s') /\ rep s' T' /\ bag_steps os (ino T) rs (ino T').
Proof.
  induction os as [|o os IH]; intros s T H; [by exists [], s, T|].
  destruct (bst_bag_step s T o H) as (r & s1 & T1 & E1 & H1 & B1). destruct (IH s1 T1 H1) as (rs & s2 & T2 & E2 & H2 & B2).
  exists (r :: rs), s2, T2. cbn [calls]. rewrite E1 E2. split_and!; try done. by exists (ino T1).
Qed.
Lemma subtree_at_zfind x T : subtree_at x (bin_map p_val (bin_map snd T)) = bin_map p_val (bin_map snd (zfind x T).2).
Proof.
  induction T as [|l IHl ix u IHu]; [done|]. cbn [bin_map subtree_at zfind].
  destruct (decide (x = p_val ix.2)) as [->|Hx].
  - by rewrite bool_decide_eq_true_2.
  - rewrite bool_decide_eq_false_2 //. destruct (num_ltb x (p_val ix.2)); done.
Qed.
Lemma replaceable_map {A B} (f : A -> B) (t : bin A) : replaceable (bin_map f t) <-> replaceable t.
Proof.
  assert (forall t : bin A, only_left (bin_map f t) <-> only_left t) as HL.
  { clear. induction t as [|l IHl x u IHu]; [done|]. by destruct u. }
  assert (forall t : bin A, only_right (bin_map f t) <-> only_right t) as HR.
  { clear. induction t as [|l IHl x u IHu]; [done|]. by destruct l. }
  assert (forall t : bin A, below_rightmost (bin_map f t) = bin_map f (below_rightmost t)) as BL.
  { clear. induction t as [|l IHl x u IHu]; [done|]. by destruct u. }
  assert (forall t : bin A, below_leftmost (bin_map f t) = bin_map f (below_leftmost t)) as BR.
  { clear. induction t as [|l IHl x u IHu]; [done|]. by destruct l. }
  destruct t as [|l x u]; [done|]. destruct u as [|u1 y u2].
  - cbn [bin_map replaceable]. by rewrite BL HL.
  - change (replaceable (bin_map f (Bin l x (Bin u1 y u2)))) with (only_right (below_leftmost (bin_map f (Bin u1 y u2)))). by rewrite BR HR.
Qed.
Lemma removed_exact c x T L : increasing (ino T) -> removed c x T L ->
  (L = set_del x (ino T) <-> replaceable (zfind x T).2).
Proof.
  intros Hi HL. unfold removed in HL. pose proof (zfind_plug x T) as HP. pose proof (zfind_val x T) as HV.
  destruct (zfind x T) as [K t] eqn:EZ. cbn [fst snd] in *. destruct t as [|l ix u].
  - subst L. rewrite set_del_notin; [done|]. by eapply zfind_nil_notin.
  - specialize (HV l ix u eq_refl).
    assert (ino T = (zl K ++ ino l) ++ x :: (ino u ++ zr K)) as HT.
    { rewrite -HP ino_plug. cbn [ino]. rewrite HV -!app_assoc. done. }
    rewrite HT in Hi |- *. pose proof Hi as (_ & _ & H1 & H2)%inc_mid.
    rewrite set_del_mid; [|by apply lt_notin|by apply gt_notin].
    apply inc_mid_del, inc_NoDup in Hi. rewrite -(rest_exact c) //; cycle 1.
    { rewrite -!app_assoc in Hi. apply NoDup_app in Hi as (_ & _ & Hi). rewrite app_assoc in Hi. by apply NoDup_app in Hi as (Hi & _ & _). }
    subst L. rewrite -!app_assoc. split.
    + intros E%app_inv_head. rewrite app_assoc in E. by apply app_inv_tail in E.
    + intros ->. by rewrite -!app_assoc.
Qed.

(** ** Conclusions about histories *)
Lemma history_set c (I : ptree -> Prop) (P : top -> list num -> Prop) :
  (forall s T o, rep s T -> I T -> increasing (ino T) -> P o (ino T) -> changes c o = true -> o <> TClear ->
     exists r s' T', call c o s = Some (r, s') /\ rep s' T' /\ I T' /\ answer c o (ino T) r /\ ino T' = next c o (ino T)) ->
  I Nil ->
  forall os, along c P os [] ->
  behaves_as_set c os /\
  (forall rs s t, history c os = Some (rs, s) -> shape s = Some t ->
     exists T, rep s T /\ I T /\ t = bin_map snd T /\ ino T = set_after c os [] /\ increasing (ino T)).
Proof.
  intros Hs H0 os HP. destruct (run_history c I P Hs H0 os tst0 Nil rep0 H0) as (rs & s & T & E & HR & HI & HA & HN & Hinc); [constructor|done|].
  split.
  - exists rs, s, (bin_map snd T). split_and!; try done; [by apply rep_shape|]. by rewrite inorder_pays.
  - intros rs' s' t E' Ht. unfold history in E'. rewrite E in E'. injection E' as <- <-. rewrite (rep_shape _ _ HR) in Ht. injection Ht as <-.
    by exists T.
Qed.
Lemma along_all c (P : top -> Prop) os l : Forall P os -> along c (fun o _ => P o) os l.
Proof. revert l. induction os as [|o os IH]; intros l H; [done|]. apply Forall_cons in H as [H1 H2]. split; [done|]. by apply IH. Qed.
Lemma set_after_inc c os : forall l, increasing l -> increasing (set_after c os l).
Proof.
  induction os as [|o os IH]; intros l Hl; [done|]. apply IH.
  destruct o as [[]| [] | | | | | | | | | | | | |]; cbn; try done.
  - destruct (prio_ok c p); [by apply set_add_inc|done].
  - by apply set_del_inc.
  - constructor.
Qed.
Lemma num_leb_refl x : num_leb x x = true.
Proof. unfold num_leb. destruct x; cbn; try done. by rewrite Z.ltb_irrefl. Qed.
Lemma num_lt_leb x y : num_lt x y -> num_leb x y = true.
Proof. intros H. unfold num_leb. by rewrite (num_lt_asym _ _ H). Qed.
Lemma inc_head x l y : increasing (x :: l) -> y ∈ x :: l -> num_leb x y = true.
Proof. intros [_ H]%inc_cons [->|Hy]%elem_of_cons; [apply num_leb_refl|]. rewrite -> Forall_forall in H. apply num_lt_leb. by apply H. Qed.
Lemma inc_last l x y : increasing (l ++ [x]) -> y ∈ l ++ [x] -> num_leb y x = true.
Proof.
  intros (_ & _ & H)%inc_app. rewrite elem_of_app elem_of_list_singleton. intros [Hy| ->]; [|apply num_leb_refl].
  apply num_lt_leb, H; [done|set_solver].
Qed.
Lemma set_after_app c os1 os2 l : set_after c (os1 ++ os2) l = set_after c os2 (set_after c os1 l).
Proof. revert l. induction os1; intros l; [done|]. apply IHos1. Qed.
Lemma answers_app c os1 os2 : forall l rs, answers c (os1 ++ os2) l rs ->
  exists rs1 rs2, rs = rs1 ++ rs2 /\ answers c os1 l rs1 /\ answers c os2 (set_after c os1 l) rs2 /\ length rs1 = length os1.
Proof.
  induction os1 as [|o os1 IH]; intros l rs H; [by exists [], rs|]. destruct rs as [|r rs]; [done|]. destruct H as [H1 H2].
  destruct (IH _ _ H2) as (rs1 & rs2 & -> & HA & HB & Hl). exists (r :: rs1), rs2. cbn. by rewrite Hl.
Qed.
Lemma answers_length c os : forall l rs, answers c os l rs -> length rs = length os.
Proof. induction os as [|o os IH]; intros l [|r rs] H; try done. destruct H as [_ H]. cbn. by rewrite (IH _ _ H). Qed.
Lemma prio_drawn c d : prio_ok c (Drawn d) = true.
Proof. by destruct c. Qed.
Lemma inserts_elem c vs : forall l x, x ∈ set_after c (inserts vs) l <-> x ∈ vs \/ x ∈ l.
Proof.
  induction vs as [|v vs IH]; intros l x; cbn [inserts map set_after next]; [set_solver|].
  rewrite prio_drawn IH elem_set_add elem_of_cons. tauto.
Qed.
Lemma inserts_answers c vs : forall l rs, answers c (inserts vs) l rs ->
  forall i v, vs !! i = Some v -> rs !! i = Some (OUnit (bool_decide (v ∈ take i vs \/ v ∈ l))).
Proof.
  induction vs as [|w vs IH]; intros l rs H i v Hi; [done|]. destruct rs as [|r rs]; [done|]. destruct H as [H1 H2].
  cbn [answer next] in H1, H2. rewrite prio_drawn in H1 H2. destruct i as [|i]; cbn in Hi |- *.
  - injection Hi as ->. rewrite H1. do 2 f_equal. apply bool_decide_ext. set_solver.
  - rewrite (IH _ _ H2 i v Hi). do 2 f_equal. apply bool_decide_ext. rewrite elem_set_add elem_of_cons. tauto.
Qed.
Lemma behaves_after_inserting c vs :
  (forall x, behaves_as_set c (inserts vs ++ [TTraverse (PStr s_inorder); TLen; TGetMin; TGetMax; TContains (PNum x)])) -> after_inserting c vs.
Proof.
  intros Hb Hvs x. destruct (Hb x) as (rs & s & t & E & HA & _ & _). apply answers_app in HA as (rs1 & rs2 & -> & HA1 & HA2 & Hl).
  set (l := set_after c (inserts vs) []) in *.
  assert (increasing l) as Hinc by (apply set_after_inc; constructor).
  assert (forall y, y ∈ l <-> y ∈ vs) as Hel by (intros y; unfold l; rewrite inserts_elem; set_solver).
  assert (l <> []) as Hne. { destruct vs as [|v vs]; [done|]. assert (v ∈ l) as Hv by (apply Hel; set_solver). intros El. rewrite El in Hv. set_solver. }
  pose proof (answers_length _ _ _ _ HA2) as HL2. destruct rs2 as [|t0 [|t1 [|t2 [|t3 [|t4 [|]]]]]]; try done.
  destruct HA2 as (H1 & H2 & H3 & H4 & H5 & _). cbn [next] in *.
  cbn [answer] in H1, H2, H3, H4.
  destruct (decide (lower s_inorder = s_inorder)) as [_|Hno]; [|by destruct Hno].
  destruct l as [|m l'] eqn:El; [done|]. cbn [head] in H3.
  destruct (exists_last Hne) as (l2 & M & El2). rewrite El2 last_snoc in H4.
  assert (t4 = OBool (bool_decide (x ∈ vs))) as ->.
  { cbn [answer] in H5. rewrite -(bool_decide_ext _ _ (Hel x)). destruct c; try done. }
  exists rs1, (m :: l'), m, M, s. subst. unfold inserts in Hl. rewrite map_length in Hl. split_and!; try done.
  - intros i v Hi. rewrite (inserts_answers _ _ _ _ HA1 i v Hi). do 2 f_equal. apply bool_decide_ext. set_solver.
  - apply Hel. set_solver.
  - apply Hel. rewrite El2. set_solver.
  - intros y Hy%Hel. split; [by apply (inc_head m l')|]. rewrite El2 in Hinc Hy. by eapply inc_last.
Qed.
Lemma bst_step s T o : rep s T -> True -> increasing (ino T) -> is_removal o = false -> changes CBST o = true -> o <> TClear ->
  exists r s' T', call CBST o s = Some (r, s') /\ rep s' T' /\ True /\ answer CBST o (ino T) r /\ ino T' = next CBST o (ino T).
Proof.
  intros H _ Hinc Hr Hc Hcl. destruct o; try done. apply insert_step; [done| |done]. intros x -> _.
  destruct (bst_insert_run s T x p H) as (s' & T' & E & HR & new & HT'). exists s', T'. rewrite E found_in //. split_and!; try done.
  destruct (decide (T = Nil)) as [->|HT]; [by subst|].
  assert (T' = zinsert CBST x new (Pay x 0 (Fin 0) Red) T) as -> by (by destruct T). by apply zinsert_ino.
Qed.

Lemma bst_replaceable_run os : forall s T, rep s T -> increasing (ino T) ->
  (forall pre x post rs s' t, os = pre ++ TRemove (PNum x) :: post -> calls CBST pre s = Some (rs, s') -> shape s' = Some t -> replaceable (subtree_at x (bin_map p_val t))) ->
  exists rs s' T', calls CBST os s = Some (rs, s') /\ rep s' T' /\ answers CBST os (ino T) rs /\ ino T' = set_after CBST os (ino T).
Proof.
  induction os as [|o os IH]; intros s T H Hinc HB; [by exists [], s, T|].
  assert (exists r s1 T1, call CBST o s = Some (r, s1) /\ rep s1 T1 /\ answer CBST o (ino T) r /\ ino T1 = next CBST o (ino T)) as (r & s1 & T1 & E & HR & HA1 & HN).
  { assert (o = TClear \/ o <> TClear) as [->|Hcl] by (destruct o; (by left) || (by right)).
    { destruct (clear_step CBST s T H) as (s' & E & HR). exists (OUnit false), s', Nil. by split_and!. }
    destruct (changes CBST o) eqn:Ec.
    2:{ destruct (read_step CBST o s T Ec H (fun _ => Hinc)) as (r & s' & E & HR & HA & HN). by exists r, s', T. }
    destruct (is_removal o) eqn:Er.
    2:{ destruct (bst_step s T o H I Hinc Er Ec Hcl) as (r & s' & T' & E & HR & _ & HA & HN). by exists r, s', T'. }
    destruct o as [|v| | | | | | | | | | | | |]; try done.
    destruct (remove_step CBST s T v (fun _ => True) H) as (r & s' & T' & E & HR & _ & HA & HN); [|done|by exists r, s', T'].
    intros x ->. destruct (bst_remove_run s T x H) as (s' & T' & E & HR & HT' & _). exists s', T'.
    rewrite E (found_in _ _ Hinc) bool_decide_not. split_and!; try done. apply (removed_exact CBST x T); [done|done|].
    rewrite -(replaceable_map snd) -(replaceable_map p_val) -subtree_at_zfind. eapply (HB [] x os); try done. by apply rep_shape. }
  destruct (IH s1 T1 HR) as (rs & s2 & T2 & E2 & HR2 & HA2 & HN2).
  - rewrite HN. apply (set_after_inc CBST [o]). done.
  - intros pre x post rs s' t -> Ec Ht. eapply (HB (o :: pre) x post); try done. cbn [calls]. by rewrite E Ec.
  - rewrite HN in HA2, HN2. exists (r :: rs), s2, T2. cbn [calls]. rewrite E E2. by split_and!.
Qed.
