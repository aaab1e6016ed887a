(** * Whole programs with iterators over a search tree *)
From Verif Require Import Base TreeModel TreeSpec BstModel BalModel BstSpec TreeIterModel TreeIterSpec TreeIterThm TreeIterThm2.
Local Open Scope py_scope.

(** ** Calls that do not touch the nodes *)
Definition idle {A} (m : M tst A) : Prop := forall s,
  match m s with Ok _ s' | Exc _ s' => t_nodes s' = t_nodes s | Diverge => True end.
Lemma idle_ret {A} (a : A) : idle (ret a). Proof. done. Qed.
Lemma idle_raise {A} e : idle (raise e : M tst A). Proof. done. Qed.
Lemma idle_div {A} : idle (diverge : M tst A). Proof. done. Qed.
Lemma idle_bind {A B} (m : M tst A) (k : A -> M tst B) : idle m -> (forall a, idle (k a)) -> idle (bind m k).
Proof.
  intros Hm Hk s. unfold bind. specialize (Hm s). destruct (m s) as [a s1|e s1|]; [|done|done].
  specialize (Hk a s1). destruct (k a s1); congruence.
Qed.
Lemma idle_rd i : idle (rd i). Proof. intros s. unfold rd. by destruct (t_nodes s !! i). Qed.
Lemma idle_root : idle get_root. Proof. done. Qed.
Lemma idle_len : idle get_len. Proof. done. Qed.
Lemma idle_fuel : idle get_fuel. Proof. done. Qed.
Lemma idle_clear : idle bst_clear. Proof. done. Qed.
Ltac idle := repeat first
  [ apply idle_ret | apply idle_raise | apply idle_div | apply idle_rd | apply idle_root | apply idle_len
  | apply idle_fuel | apply idle_clear | assumption
  | apply idle_bind; [|intros ?]
  | match goal with |- idle (match ?x with _ => _ end) => destruct x end ].
Lemma idle_data i : idle (get_data i). Proof. unfold get_data. idle. Qed.
Lemma idle_left i : idle (get_left i). Proof. unfold get_left. idle. Qed.
Lemma idle_right i : idle (get_right i). Proof. unfold get_right. idle. Qed.
Lemma idle_max n : forall i, idle (get_max_node n i).
Proof. induction n as [|n IH]; intros i; cbn [get_max_node]; [idle|]. apply idle_bind; [apply idle_right|]. intros [j|]; [apply IH|idle]. Qed.
Lemma idle_min n : forall i, idle (get_min_node n i).
Proof. induction n as [|n IH]; intros i; cbn [get_min_node]; [idle|]. apply idle_bind; [apply idle_left|]. intros [j|]; [apply IH|idle]. Qed.
Lemma idle_search n v : forall i, idle (search n v i).
Proof.
  induction n as [|n IH]; intros i; cbn [search]; [idle|]. apply idle_bind; [apply idle_data|]. intros x.
  destruct (bool_decide (v = x)); [idle|]. destruct (num_ltb v x); apply idle_bind;
    first [apply idle_left|apply idle_right|intros [j|]; [apply IH|idle]].
Qed.
Lemma idle_snapshot n : forall p, idle (snapshot n p).
Proof.
  induction n as [|n IH]; intros [i|]; cbn [snapshot]; idle; apply IH.
Qed.
Lemma idle_vals : idle tree_vals.
Proof. unfold tree_vals, tree_pays. idle. apply idle_snapshot. Qed.
Lemma idle_height i : idle (get_height i). Proof. unfold get_height. idle. Qed.
Lemma idle_balanced i : idle (avl_node_is_balanced i).
Proof.
  unfold avl_node_is_balanced, get_children_heights, height_of. idle; first [apply idle_left|apply idle_right|apply idle_height].
Qed.
Lemma idle_exec c o : leaves_nodes c o -> idle (exec c o).
Proof.
  destruct o; cbn [leaves_nodes]; intros H; try done; cbn [exec].
  - assert (tree_contains c v = bst_contains v) as -> by (by destruct c).
    unfold bst_contains, bst_is_empty, search_root. idle; first [apply idle_search|apply idle_data].
  - unfold bst_get_min. idle; first [apply idle_min|apply idle_data].
  - unfold bst_get_max. idle; first [apply idle_max|apply idle_data].
  - apply idle_bind; [apply idle_vals|]. intros t. idle.
  - apply idle_bind; [apply idle_vals|]. intros t. idle.
  - apply idle_bind; [|intros ?; idle]. unfold get_tree_height. destruct c; first [by (apply idle_bind; [apply idle_vals|idle])|apply idle_bind; [apply idle_root|]; intros [i|]; [apply idle_bind; [apply idle_height|]; intros; idle|idle]].
  - apply idle_bind; [apply idle_vals|]. intros t. idle.
  - apply idle_bind; [|intros ?; idle]. unfold get_is_balanced. destruct c; first [by (apply idle_bind; [apply idle_vals|idle])|apply idle_bind; [apply idle_root|]; intros [i|]; [apply idle_bind; [apply idle_balanced|]; intros; idle|idle]].
  - apply idle_bind; [apply idle_vals|]. intros t. idle.
  - apply idle_bind; [apply idle_vals|]. intros t. idle.
Qed.
Lemma idle_call c o s r s' : leaves_nodes c o -> call c o s = Some (r, s') -> t_nodes s' = t_nodes s.
Proof.
  intros H Hc. pose proof (idle_exec c o H s) as Hi. unfold call in Hc. destruct (exec c o s); [| |done]; by injection Hc as <- <-.
Qed.

(** ** Insertion into a BST *)
Lemma insert_node_raw n : forall i new s cn, t_nodes s !! new = Some cn ->
  match insert_node n CBST i new s with
  | Ok (w, _) s' =>
      (w = true /\ s' = s) \/
      (w = false /\ exists p (b : bool) cp, p <> new /\ t_nodes s !! p = Some cp /\ (if b then c_left cp else c_right cp) = None /\
        t_nodes s' = <[new := with_parent (Some p) cn]> (<[p := (if b then with_left (Some new) else with_right (Some new)) cp]> (t_nodes s)))
  | Exc _ s' => s' = s
  | Diverge => True
  end.
Proof.
  induction n as [|n IH]; intros i new s cn Hn; [done|]. cbn [insert_node].
  assert (get_data new s = Ok (p_val (c_pay cn)) s) as Hd by (unfold get_data, bind, rd, ret; by rewrite Hn).
  rewrite (bind_ok _ _ _ _ _ Hd). destruct (t_nodes s !! i) as [ci|] eqn:Hi.
  2: { assert (get_data i s = Exc AttributeError s) as He by (unfold get_data, bind, rd, ret; by rewrite Hi).
       by rewrite (bind_exc _ _ _ _ _ He). }
  assert (get_data i s = Ok (p_val (c_pay ci)) s) as Hdi by (unfold get_data, bind, rd, ret; by rewrite Hi).
  rewrite (bind_ok _ _ _ _ _ Hdi). case_bool_decide as Heq; [by left|].
  assert (i <> new) as Hne. { intros ->. rewrite Hn in Hi. injection Hi as ->. done. }
  destruct (num_ltb (p_val (c_pay cn)) (p_val (c_pay ci))).
  - assert (get_left i s = Ok (c_left ci) s) as Hl by (unfold get_left, bind, rd, ret; by rewrite Hi).
    rewrite (bind_ok _ _ _ _ _ Hl). destruct (c_left ci) as [j|] eqn:Ej; [by apply IH|].
    unfold set_left, set_parent, add_len, bind, wr, ret. rewrite Hi. cbn [t_nodes].
    rewrite list_lookup_insert_ne by done. rewrite Hn. right. split; [done|]. exists i, true, ci. by split_and!.
  - assert (get_right i s = Ok (c_right ci) s) as Hl by (unfold get_right, bind, rd, ret; by rewrite Hi).
    rewrite (bind_ok _ _ _ _ _ Hl). destruct (c_right ci) as [j|] eqn:Ej; [by apply IH|].
    unfold set_right, set_parent, add_len, bind, wr, ret. rewrite Hi. cbn [t_nodes].
    rewrite list_lookup_insert_ne by done. rewrite Hn. right. split; [done|]. exists i, false, ci. by split_and!.
Qed.
Definition grows (o : top) (r : tout) (m m' : list cell) : Prop :=
  length m <= length m' /\
  (kept m m' \/ exists x pr p (b : bool), o = TInsert (PNum x) pr /\ r = OUnit false /\ linked p b (length m) (Pay x 0 (Fin 0) Red) m m').
Lemma kept_app m c : kept m (m ++ [c]).
Proof. intros i d H. by apply lookup_app_l_Some. Qed.
Lemma insert_call v pr s r s' : call CBST (TInsert v pr) s = Some (r, s') -> grows (TInsert v pr) r (t_nodes s) (t_nodes s').
Proof.
  unfold call. cbn [exec tree_insert]. unfold bst_insert.
  destruct v as [|x| | | |];
    try (unfold check_number, bind, raise; intros [= <- <-]; split; [done|left; by intros i d]).
  unfold check_number, bst_is_empty, get_root, bind at 1, bind at 1, bind at 1, bind at 1, ret at 1, ret at 1.
  destruct (t_root s) as [i|] eqn:Hr.
  2: { intros [= <- <-]. cbn [t_nodes]. split; [rewrite app_length; lia|]. left. apply kept_app. }
  set (s1 := TSt (t_nodes s ++ [Cell (Pay x 0 (Fin 0) Red) None None None]) (t_root s) (t_len s)).
  assert (insert_value CBST x (Fin 0) s = insert_node (S (length (t_nodes s1))) CBST i (length (t_nodes s)) s1) as E.
  { unfold s1, insert_value, new_node, alloc, get_root, get_fuel, deref, bind, ret. cbn [t_root t_nodes]. by rewrite Hr. }
  unfold bind. fold (@bind tst). rewrite E.
  pose proof (insert_node_raw (S (length (t_nodes s1))) i (length (t_nodes s)) s1 (Cell (Pay x 0 (Fin 0) Red) None None None)
    ltac:(unfold s1; cbn [t_nodes]; rewrite lookup_app_r by done; by rewrite Nat.sub_diag)) as Hraw.
  assert (kept (t_nodes s) (t_nodes s1)) as Hk1 by apply kept_app.
  assert (length (t_nodes s) <= length (t_nodes s1)) as Hlen by (unfold s1; cbn [t_nodes]; rewrite app_length; lia).
  destruct (insert_node _ _ _ _ s1) as [[w j] s2|e s2|]; [| |done].
  2: { intros [= <- <-]. subst s2. split; [done|by left]. }
  cbn [ret fst]. intros [= <- <-]. destruct Hraw as [[-> ->]|(-> & p & b & cp & Hne & Hp & Hside & Es)]; [split; [done|by left]|].
  assert (t_nodes s !! p = Some cp) as Hp0.
  { unfold s1 in Hp. cbn [t_nodes] in Hp. apply lookup_app_Some in Hp as [Hp|[Hge Hp]]; [done|].
    destruct (p - length (t_nodes s)) eqn:Ed; [lia|]. done. }
  split; [rewrite Es, !insert_length; done|]. right. exists x, pr, p, b. split; [done|]. split; [done|]. unfold linked. split_and!; try done.
  - by exists cp.
  - exists (with_parent (Some p) (Cell (Pay x 0 (Fin 0) Red) None None None)). split; [|done].
    rewrite Es. apply list_lookup_insert. rewrite insert_length. unfold s1. cbn [t_nodes]. rewrite app_length. cbn. lia.
  - intros i0 c0 Hi0. pose proof (lookup_lt_Some _ _ _ Hi0) as Hlt.
    rewrite Es, list_lookup_insert_ne by lia. destruct (bool_decide_reflect (i0 = p)) as [->|Hnp].
    + rewrite Hp0 in Hi0. injection Hi0 as <-. rewrite list_lookup_insert by lia. eexists. split; [done|].
      destruct b; cbn [andb negb]; split_and!; done.
    + rewrite list_lookup_insert_ne by done. exists c0. split; [by apply Hk1|]. done.
Qed.

(** Calls that the loop survives. *)
Definition mild (c : tcls) (o : top) : Prop := leaves_nodes c o \/ (c = CBST /\ is_removal o = false).
Lemma mild_call c o s r s' : mild c o -> call c o s = Some (r, s') ->
  t_nodes s' = t_nodes s \/ (c = CBST /\ grows o r (t_nodes s) (t_nodes s')).
Proof.
  intros Hm Hc. assert (leaves_nodes c o \/ (c = CBST /\ exists v pr, o = TInsert v pr)) as [H|(-> & v & pr & ->)].
  { destruct Hm as [H|[-> H]]; [by left|]. destruct o; try done; try (by left); right; split; [done|by eexists _, _]. }
  - left. by eapply idle_call.
  - right. split; [done|]. by eapply insert_call.
Qed.

(** ** The run *)
Definition GStep (c : tcls) (s : tst) (n0 : nat) (g : tgen) (fo : list pay) (pd : list num) : Prop :=
  exists r g', tg_next g s = Ok (r, g') s /\
  ((exists y fo', r = GVal (p_val y) /\ fo = y :: fo' /\ GI c (t_nodes s) n0 g' fo' pd) \/
   (exists x pd', r = GVal x /\ GI c (t_nodes s) n0 g' fo pd' /\ pd ≡ₚ x :: pd') \/
   (r = GStop /\ fo = [] /\ g' = TGDone)).
Definition gives (fo : list pay) (news : list num) (rs : list gout) : Prop :=
  exists vs k taken extra, rs = map GVal vs ++ replicate k GStop /\ merge (map p_val taken) extra vs /\
    taken `prefix_of` fo /\ (0 < k -> taken = fo) /\ extra ⊆+ news.

Lemma done_run c i ts : forall s gs outs e, gs !! i = Some TGDone -> model_trun c (s, gs) ts = Some (outs, e) ->
  exists k, tseen i ts outs = replicate k GStop.
Proof.
  induction ts as [|t ts IH]; intros s gs outs e Hi Hrun; [injection Hrun as <- <-; by exists 0|].
  cbn [model_trun] in Hrun. destruct (model_tstep c (s, gs) t) as [[o [s1 gs1]]|] eqn:E1; [|done]. cbn in Hrun.
  destruct (model_trun c (s1, gs1) ts) as [[os q2]|] eqn:E2; [|done]. cbn in Hrun. injection Hrun as <- <-.
  destruct t as [op| |j]; cbn [model_tstep fst snd] in E1.
  - destruct (call c op s) as [[r s2]|]; [|done]. cbn in E1. injection E1 as <- <- <-. cbn [tseen]. by eapply IH.
  - injection E1 as <- <- <-. cbn [tseen]. eapply IH; [|done]. by apply lookup_app_l_Some.
  - destruct (gs !! j) as [g|] eqn:Ej; [|done]. cbn in E1. unfold tstep_next in E1. destruct (Nat.eqb_spec j i) as [->|Hne].
    + rewrite Hi in Ej. injection Ej as <-. cbn in E1. injection E1 as <- <- <-. cbn [tseen]. rewrite Nat.eqb_refl.
      destruct (IH _ _ _ _ (list_lookup_insert gs i _ (lookup_lt_Some _ _ _ Hi)) E2) as [k Hk]. exists (S k). by rewrite Hk.
    + destruct (tg_next g s) as [[r g'] s2|ex s2|]; [| |done]; injection E1 as <- <- <-; cbn [tseen];
        (destruct (Nat.eqb_spec j i) as [|_]; [done|]); cbn [app]; (eapply IH; [|exact E2]); by rewrite list_lookup_insert_ne.
Qed.

Lemma tg_next_mem g s : match tg_next g s with Ok _ s' | Exc _ s' => s' = s | Diverge => False end.
Proof.
  assert (forall i a b, match tg_yield i a b s with Ok _ s' | Exc _ s' => s' = s | Diverge => False end) as Hy.
  { intros. unfold tg_yield, get_data, bind, rd, ret. by destruct (t_nodes s !! i). }
  destruct g as [|cur rest next|]; [| |done].
  - cbn [tg_next]. unfold bst_is_empty, get_root, bind at 1, bind at 1, ret at 1. destruct (t_root s) as [i|] eqn:Hr; [|done].
    unfold bind, deref, ret. rewrite Hr. apply Hy.
  - cbn [tg_next]. unfold node_children, get_left, get_right, bind, rd, ret. destruct (t_nodes s !! cur) as [ce|] eqn:Hc; [|done].
    rewrite Hc. destruct rest; [|apply Hy]. destruct (next ++ _); [done|apply Hy].
Qed.

Lemma run_loop c n0 i ts : forall s gs g fo pd outs e, calls_only (mild c) ts -> gs !! i = Some g ->
  GI c (t_nodes s) n0 g fo pd -> n0 <= length (t_nodes s) -> model_trun c (s, gs) ts = Some (outs, e) ->
  gives fo (pd ++ inserted ts outs) (tseen i ts outs).
Proof.
  induction ts as [|t ts IH]; intros s gs g fo pd outs e Hm Hi HG Hlen Hrun.
  { injection Hrun as <- <-. exists [], 0, [], []. split_and!; try done; [constructor|apply prefix_nil|lia|apply submseteq_nil_l]. }
  assert (calls_only (mild c) ts) as Hm' by (intros o Ho; apply Hm; by right).
  cbn [model_trun] in Hrun. destruct (model_tstep c (s, gs) t) as [[o [s1 gs1]]|] eqn:E1; [|done]. cbn in Hrun.
  destruct (model_trun c (s1, gs1) ts) as [[os q2]|] eqn:E2; [|done]. cbn in Hrun. injection Hrun as <- <-.
  destruct t as [op| |j]; cbn [model_tstep fst snd] in E1.
  - destruct (call c op s) as [[r s2]|] eqn:Ec; [|done]. cbn in E1. injection E1 as <- <- <-.
    assert (tseen i (XCall op :: ts) (XRes r :: os) = tseen i ts os) as -> by done.
    destruct (mild_call c op s r s2 (Hm op ltac:(left)) Ec) as [Hn|(-> & Hl & Hg)].
    + rewrite <- Hn in HG, Hlen. destruct (IH s2 gs g fo pd os q2 Hm' Hi HG Hlen E2) as (vs & k & tk & ex & H1 & H2 & H3 & H4 & H5).
      exists vs, k, tk, ex. split_and!; try done. etrans; [exact H5|]. apply submseteq_skips_l.
      cbn [inserted]. destruct op; try done. destruct v; try done. destruct r as [[]| | | | | | |]; try done. by apply submseteq_cons.
    + destruct Hg as [Hk|(x & pr & p & b & -> & -> & Hlk)].
      * destruct (IH s2 gs g fo pd os q2 Hm' Hi (GI_kept _ _ _ _ _ _ _ Hk HG) ltac:(lia) E2) as (vs & k & tk & ex & H1 & H2 & H3 & H4 & H5).
        exists vs, k, tk, ex. split_and!; try done. etrans; [exact H5|]. apply submseteq_skips_l.
        cbn [inserted]. destruct op; try done. destruct v; try done. destruct r as [[]| | | | | | |]; try done. by apply submseteq_cons.
      * destruct (GI_linked _ _ _ _ _ _ _ _ _ _ Hlk Hlen HG) as (pd' & HG' & Hp).
        destruct (IH s2 gs g fo pd' os q2 Hm' Hi HG' ltac:(lia) E2) as (vs & k & tk & ex & H1 & H2 & H3 & H4 & H5).
        exists vs, k, tk, ex. split_and!; try done. cbn [inserted]. rewrite <- Permutation_middle.
        destruct Hp as [Hp|Hp]; rewrite Hp in H5; [|exact H5]. by apply submseteq_cons.
  - injection E1 as <- <- <-. assert (tseen i (XIter :: ts) (XNew :: os) = tseen i ts os) as -> by done.
    assert (inserted (XIter :: ts) (XNew :: os) = inserted ts os) as -> by done.
    eapply IH; [done| |done|done|exact E2]. by apply lookup_app_l_Some.
  - destruct (gs !! j) as [gj|] eqn:Ej; [|done]. cbn in E1. unfold tstep_next in E1.
    destruct (Nat.eqb_spec j i) as [->|Hne].
    + rewrite Hi in Ej. injection Ej as <-. destruct (GI_next _ _ _ _ _ _ HG) as (r & g' & En & Hcase). rewrite En in E1.
      injection E1 as <- <- <-. pose proof (list_lookup_insert gs i g' (lookup_lt_Some _ _ _ Hi)) as Hi'.
      assert (tseen i (XNext i :: ts) (XGot r :: os) = r :: tseen i ts os) as -> by (cbn [tseen]; by rewrite Nat.eqb_refl).
      assert (inserted (XNext i :: ts) (XGot r :: os) = inserted ts os) as -> by done.
      destruct Hcase as [(y & fo' & -> & -> & HG')|[(x & pd' & -> & HG' & Hp)|(-> & -> & ->)]].
      * destruct (IH s _ g' fo' pd os q2 Hm' Hi' HG' Hlen E2) as (vs & k & tk & ex & H1 & H2 & H3 & H4 & H5).
        exists (p_val y :: vs), k, (y :: tk), ex. rewrite H1. split_and!; try done; [by constructor|by apply prefix_cons|].
        intros Hk. by rewrite H4.
      * destruct (IH s _ g' fo pd' os q2 Hm' Hi' HG' Hlen E2) as (vs & k & tk & ex & H1 & H2 & H3 & H4 & H5).
        exists (x :: vs), k, tk, (x :: ex). rewrite H1. split_and!; try done; [by constructor|].
        rewrite Hp. by apply submseteq_skip.
      * destruct (done_run c i ts _ _ _ _ Hi' E2) as [k Hk]. exists [], (S k), [], []. rewrite Hk.
        split_and!; try done; [constructor|apply submseteq_nil_l].
    + assert (tseen i (XNext j :: ts) (o :: os) = tseen i ts os) as ->.
      { cbn [tseen]. destruct o; try done. destruct (Nat.eqb_spec j i); done. }
      assert (inserted (XNext j :: ts) (o :: os) = inserted ts os) as -> by done.
      pose proof (tg_next_mem gj s) as Hmem.
      destruct (tg_next gj s) as [[r g'] s2|ex s2|]; [| |done]; injection E1 as <- <- <-; subst s2;
        (eapply IH; [done| |exact HG|done|exact E2]); by rewrite list_lookup_insert_ne.
Qed.

(** ** The start of a loop *)
Lemma start_ok c s T : snap (t_nodes s) (t_root s) T -> (c = CBST -> NoDup (map fst (inorder T))) ->
  GStep c s (length (t_nodes s)) TGNew (breadth_first (bin_map snd T)) [].
Proof.
  intros Hs Hnd. set (n0 := length (t_nodes s)).
  assert (forall p t, snap (t_nodes s) p t -> prune n0 t = bin_map snd t /\ newer n0 t /\ filter (fun ix : nat * pay => n0 <= ix.1) (inorder t) = []) as Hold.
  { intros p t. revert p. induction t as [|l IHl [j y] r IHr]; intros p H; [done|].
    destruct H as (_ & ce & Hc & _ & Hl & Hr). cbn [fst snd] in *. pose proof (lookup_lt_Some _ _ _ Hc) as Hj.
    destruct (IHl _ Hl) as (L1 & L2 & L3). destruct (IHr _ Hr) as (R1 & R2 & R3). cbn [prune newer inorder bin_map fst snd].
    rewrite decide_True by done. rewrite L1, R1, filter_app, filter_cons_False by (cbn; lia). rewrite L3, R3. split_and!; try done. unfold n0. lia. }
  destruct (Hold _ _ Hs) as (Hpr & Hnw & Hpend).
  destruct T as [|l [j y] r].
  - exists GStop, TGDone. cbn in Hs. split; [|right; right; done].
    cbn [tg_next]. unfold bst_is_empty, get_root, bind, ret. by rewrite Hs.
  - pose proof Hs as [Hroot _]. cbn [fst] in Hroot.
    destruct (yield_ok c s n0 j (Bin l (j, y) r) [] [] [] []) as (x & Hx & Hcase).
    { by rewrite <- Hroot. } { constructor. } { constructor. } { constructor; [exact Hnw|constructor]. }
    { intros Hc. specialize (Hnd Hc). unfold nds. cbn [map concat app]. by rewrite app_nil_r. }
    exists (GVal x), (TGAt j [] []). split.
    { cbn [tg_next]. unfold bst_is_empty, get_root, bind at 1, bind at 1, ret at 1. rewrite Hroot.
      unfold bind, deref, ret. rewrite Hroot. exact Hx. }
    assert (pend n0 (Bin l (j, y) r :: [] ++ []) = []) as Hp0.
    { unfold pend, nds. cbn [app map concat]. rewrite app_nil_r. by rewrite Hpend. }
    assert (future (map (prune n0) [Bin l (j, y) r]) (map (prune n0) []) = breadth_first (bin_map snd (Bin l (j, y) r))) as Hf.
    { cbn [map]. unfold future. cbn [app]. rewrite <- bff_step, bff_one. by rewrite Hpr. }
    rewrite Hf, Hp0 in Hcase. destruct Hcase as [(y' & fo' & pd' & Hy & -> & Hp & HG)|(pd' & Hp & HG)].
    + left. exists y', fo'. split_and!; [done|done|]. apply Permutation_nil in Hp as ->. exact HG.
    + apply Permutation_nil in Hp. done.
Qed.
Lemma snapshot_snap n : forall p s t s', snapshot n p s = Ok t s' -> s' = s /\ exists T, snap (t_nodes s) p T /\ bin_map snd T = t.
Proof.
  induction n as [|n IH]; intros [i|] s t s' H; cbn [snapshot] in H; try done;
    try (injection H as <- <-; split; [done|]; by exists Nil).
  unfold bind at 1, rd at 1 in H. destruct (t_nodes s !! i) as [c|] eqn:Hc; [|done].
  unfold bind at 1 in H. destruct (snapshot n (c_left c) s) as [l s1|e s1|] eqn:E1; [|done|done].
  destruct (IH _ _ _ _ E1) as [-> (L & HL & EL)].
  unfold bind at 1 in H. destruct (snapshot n (c_right c) s) as [r s2|e s2|] eqn:E2; [|done|done].
  destruct (IH _ _ _ _ E2) as [-> (R & HR & ER)].
  injection H as <- <-. split; [done|]. exists (Bin L (i, c_pay c) R). cbn [snap bin_map fst snd]. rewrite EL, ER.
  split; [|done]. split; [done|]. exists c. by split_and!.
Qed.
Lemma shape_snap s t : shape s = Some t -> exists T, snap (t_nodes s) (t_root s) T /\ bin_map snd T = t.
Proof.
  unfold shape, tree_pays, get_root, get_fuel, bind. destruct (snapshot _ _ s) as [t' s'|e s'|] eqn:E; [|done|done].
  intros [= <-]. by apply snapshot_snap in E as [_ H].
Qed.
