(** * The suspended generator and the trees it still has to visit *)
From Verif Require Import Base TreeModel TreeSpec BstModel BalModel BstSpec TreeIterModel TreeIterSpec TreeIterThm.
Local Open Scope py_scope.

Definition nds (F : list ltree) : list (nat * pay) := concat (map inorder F).
Definition pend (n0 : nat) (F : list ltree) : list num :=
  map (fun ix => p_val ix.2) (filter (fun ix : nat * pay => n0 <= ix.1) (nds F)).
Notation snaps m := (Forall2 (fun i t => snap m (Some i) t)).
Definition nk (t : ltree) : list ltree :=
  match t with Nil => [] | Bin l _ r => (match l with Nil => [] | _ => [l] end) ++ (match r with Nil => [] | _ => [r] end) end.

(** [fo]: what is still to come of the tree of [n0] nodes; [pd]: the newer values that
    the generator may come to. *)
Definition GI (c : tcls) (m : list cell) (n0 : nat) (g : tgen) (fo : list pay) (pd : list num) : Prop :=
  match g with
  | TGNew => False
  | TGDone => fo = []
  | TGAt cur rest next => exists tc R N,
      snap m (Some cur) tc /\ snaps m rest R /\ snaps m next N /\ Forall (newer n0) (tc :: R ++ N) /\
      (c = CBST -> NoDup (map fst (nds (tc :: R ++ N)))) /\
      fo = future (map (prune n0) R) (map (prune n0) N ++ kids (prune n0 tc)) /\
      pd ≡ₚ pend n0 (kids tc ++ R ++ N)
  end.

Lemma nds_app F F' : nds (F ++ F') = nds F ++ nds F'.
Proof. unfold nds. by rewrite map_app, concat_app. Qed.
Lemma pend_app n0 F F' : pend n0 (F ++ F') = pend n0 F ++ pend n0 F'.
Proof. unfold pend. by rewrite nds_app, filter_app, map_app. Qed.
Lemma pend_perm n0 F F' : nds F ≡ₚ nds F' -> pend n0 F ≡ₚ pend n0 F'.
Proof. intros H. unfold pend. by rewrite H. Qed.
Lemma nds_nk t : nds (nk t) = nds (kids t).
Proof. destruct t as [|l x r]; [done|]. destruct l, r; cbn; done. Qed.
Lemma pend_nk n0 t : pend n0 (nk t) = pend n0 (kids t).
Proof. unfold pend. by rewrite nds_nk. Qed.
Lemma nds_root l ix r F : nds (Bin l ix r :: F) ≡ₚ ix :: nds (kids (Bin l ix r) ++ F).
Proof.
  rewrite nds_app. unfold nds. cbn [kids map concat inorder]. rewrite app_nil_r, <- !app_assoc.
  symmetry. apply (Permutation_middle (inorder l)).
Qed.

(** ** A tree next in the queue *)
Lemma yield_ok c s n0 i t rest R next N : snap (t_nodes s) (Some i) t -> snaps (t_nodes s) rest R -> snaps (t_nodes s) next N ->
  Forall (newer n0) (t :: R ++ N) -> (c = CBST -> NoDup (map fst (nds (t :: R ++ N)))) ->
  exists x, tg_yield i rest next s = Ok (GVal x, TGAt i rest next) s /\
    ((exists y fo' pd', future (map (prune n0) (t :: R)) (map (prune n0) N) = y :: fo' /\ x = p_val y /\
        pend n0 (t :: R ++ N) ≡ₚ pd' /\ GI c (t_nodes s) n0 (TGAt i rest next) fo' pd') \/
     (exists pd', pend n0 (t :: R ++ N) ≡ₚ x :: pd' /\
        GI c (t_nodes s) n0 (TGAt i rest next) (future (map (prune n0) (t :: R)) (map (prune n0) N)) pd')).
Proof.
  intros Ht HR HN Hnew Hnd. destruct t as [|l [j y] r]; [done|].
  pose proof Ht as (Hi & ce & Hc & Hy & _). cbn [fst snd] in *. injection Hi as ->.
  exists (p_val y). split.
  { unfold tg_yield, get_data, bind, rd, ret. rewrite Hc. by rewrite Hy. }
  rewrite map_cons, future_cons.
  assert (pend n0 (Bin l (j, y) r :: R ++ N) ≡ₚ (if decide (n0 <= j) then [p_val y] else []) ++ pend n0 (kids (Bin l (j, y) r) ++ R ++ N)) as Hpd.
  { unfold pend at 1. rewrite nds_root. rewrite filter_cons. cbn [fst]. destruct (decide (n0 <= j)); done. }
  destruct (decide (j < n0)) as [Hj|Hj].
  - left. rewrite decide_False in Hpd by lia. exists y, (future (map (prune n0) R) (map (prune n0) N ++ kids (prune n0 (Bin l (j, y) r)))), (pend n0 (kids (Bin l (j, y) r) ++ R ++ N)).
    split_and!; [|done|done|].
    + cbn [prune fst snd]. rewrite decide_True by done. done.
    + exists (Bin l (j, y) r), R, N. by split_and!.
  - right. rewrite decide_True in Hpd by lia. exists (pend n0 (kids (Bin l (j, y) r) ++ R ++ N)).
    split; [done|]. exists (Bin l (j, y) r), R, N. split_and!; try done.
    cbn [prune fst snd]. rewrite decide_False by done. done.
Qed.

(** ** One [next] *)
Lemma snap_kids m cur t : snap m (Some cur) t -> exists ce, m !! cur = Some ce /\
  snaps m (option_list (c_left ce) ++ option_list (c_right ce)) (nk t).
Proof.
  destruct t as [|l [j y] r]; [done|]. intros (Hi & ce & Hc & Hy & Hl & Hr). cbn [fst snd] in *. injection Hi as ->.
  exists ce. split; [done|]. cbn [nk]. apply Forall2_app.
  - destruct l as [|l1 [a b] l2]; [cbn in Hl; rewrite Hl; constructor|]. pose proof Hl as [E _]. rewrite E. cbn.
    constructor; [|constructor]. by rewrite E in Hl.
  - destruct r as [|l1 [a b] l2]; [cbn in Hr; rewrite Hr; constructor|]. pose proof Hr as [E _]. rewrite E. cbn.
    constructor; [|constructor]. by rewrite E in Hr.
Qed.
Lemma newer_nk n0 t : newer n0 t -> Forall (newer n0) (nk t).
Proof.
  destruct t as [|l ix r]; [constructor|]. intros (_ & Hl & Hr). cbn [nk]. apply Forall_app. split.
  - destruct l; [constructor|]. by constructor.
  - destruct r; [constructor|]. by constructor.
Qed.
Lemma prune_nk n0 t : newer n0 t -> forall n, flev n (kids (prune n0 t)) = flev n (map (prune n0) (nk t)).
Proof.
  destruct t as [|l [i y] r]; [done|]. intros (Hw & _ & _) n. cbn [prune nk fst snd] in *.
  assert (forall u : ltree, flev n (map (prune n0) match u with Nil => [] | _ => [u] end) = bin_level n (prune n0 u)) as Hu.
  { intros u. destruct u; [done|]. unfold flev. cbn [map concat]. by rewrite app_nil_r. }
  rewrite map_app, flev_app, !Hu. destruct (decide (i < n0)) as [Hi|Hi].
  - unfold flev. cbn [kids map concat]. by rewrite app_nil_r.
  - destruct (Hw ltac:(lia)) as [-> ->]. done.
Qed.
Lemma GI_next c s n0 g fo pd : GI c (t_nodes s) n0 g fo pd -> exists r g', tg_next g s = Ok (r, g') s /\
  ((exists y fo', r = GVal (p_val y) /\ fo = y :: fo' /\ GI c (t_nodes s) n0 g' fo' pd) \/
   (exists x pd', r = GVal x /\ GI c (t_nodes s) n0 g' fo pd' /\ pd ≡ₚ x :: pd') \/
   (r = GStop /\ fo = [] /\ g' = TGDone)).
Proof.
  destruct g as [|cur rest next|]; cbn [GI]; [done| |].
  2: { intros ->. exists GStop, TGDone. split; [done|]. right. by right. }
  intros (tc & R & N & Hc & HR & HN & Hnew & Hnd & Hfo & Hpd).
  destruct (snap_kids _ _ _ Hc) as (ce & Hce & Hk).
  apply Forall_cons in Hnew as [Hn1 Hn2]. apply Forall_app in Hn2 as [HnR HnN].
  cbn [tg_next]. assert (node_children cur s = Ok (option_list (c_left ce) ++ option_list (c_right ce)) s) as Hcs.
  { unfold node_children, get_left, get_right, bind, rd, ret. rewrite Hce. by rewrite Hce. }
  rewrite (bind_ok _ _ _ _ _ Hcs). clear Hcs. set (cs := option_list (c_left ce) ++ option_list (c_right ce)) in *.
  assert (fo = future (map (prune n0) R) (map (prune n0) (N ++ nk tc))) as Hfo'.
  { rewrite Hfo, map_app. apply future_ext. intros n. rewrite !flev_app. f_equal. by apply prune_nk. }
  assert (pd ≡ₚ pend n0 (R ++ N ++ nk tc)) as Hpd'.
  { rewrite Hpd, !pend_app, pend_nk. rewrite (Permutation_app_comm (pend n0 (kids tc))). by rewrite app_assoc. }
  assert (c = CBST -> NoDup (map fst (nds (R ++ N ++ nk tc)))) as Hnd'.
  { intros Hbst. specialize (Hnd Hbst). destruct tc as [|l ix r]; [done|]. rewrite nds_root in Hnd. cbn [map] in Hnd.
    apply NoDup_cons in Hnd as [_ Hnd]. rewrite !nds_app, nds_nk. rewrite !nds_app in Hnd.
    rewrite (Permutation_app_comm (nds (kids _))) in Hnd. by rewrite app_assoc. }
  assert (snaps (t_nodes s) (next ++ cs) (N ++ nk tc)) as HN' by (by apply Forall2_app).
  assert (Forall (newer n0) (N ++ nk tc)) as HnN'. { apply Forall_app. split; [done|by apply newer_nk]. }
  assert (forall i t rest' R' next' N', snap (t_nodes s) (Some i) t -> snaps (t_nodes s) rest' R' -> snaps (t_nodes s) next' N' ->
     Forall (newer n0) (t :: R' ++ N') -> (c = CBST -> NoDup (map fst (nds (t :: R' ++ N')))) ->
     fo = future (map (prune n0) (t :: R')) (map (prune n0) N') -> pd ≡ₚ pend n0 (t :: R' ++ N') ->
     exists r g', tg_yield i rest' next' s = Ok (r, g') s /\
      ((exists y fo', r = GVal (p_val y) /\ fo = y :: fo' /\ GI c (t_nodes s) n0 g' fo' pd) \/
       (exists x pd', r = GVal x /\ GI c (t_nodes s) n0 g' fo pd' /\ pd ≡ₚ x :: pd') \/
       (r = GStop /\ fo = [] /\ g' = TGDone))) as Hyield.
  { intros i t rest' R' next' N' H1 H2 H3 H4 H5 H6 H7.
    destruct (yield_ok c s n0 i t rest' R' next' N' H1 H2 H3 H4 H5) as (x & Hx & Hcase).
    exists (GVal x), (TGAt i rest' next'). split; [done|]. destruct Hcase as [(y & fo' & pd' & Hy & -> & Hp & HG)|(pd' & Hp & HG)].
    - left. exists y, fo'. split_and!; [done|congruence|]. destruct HG as (a & b & d & HG).
      exists a, b, d. destruct HG as (? & ? & ? & ? & ? & ? & Hq). split_and!; try done. by rewrite H7, Hp.
    - right. left. exists x, pd'. split_and!; [done| |by rewrite H7]. by rewrite H6. }
  destruct rest as [|i rest'].
  - apply Forall2_nil_inv_l in HR as ->. cbn [app map] in *. rewrite future_nil in Hfo'.
    destruct (next ++ cs) as [|i rest'].
    + apply Forall2_nil_inv_l in HN' as E. rewrite E in Hfo'. exists GStop, TGDone. split; [done|]. right. right. by split_and!.
    + apply Forall2_cons_inv_l in HN' as (t & R' & Ht & HR' & E). rewrite E in *.
      apply (Hyield i t rest' R' [] []); [done|done|constructor| | |done|]; rewrite app_nil_r; done.
  - apply Forall2_cons_inv_l in HR as (t & R' & Ht & HR' & ->).
    apply (Hyield i t rest' R' (next ++ cs) (N ++ nk tc)); try done.
    apply Forall_cons in HnR as [Hnt HnR]. constructor; [done|]. by apply Forall_app.
Qed.

(** ** Calls in between *)
Lemma GI_kept c m m' n0 g fo pd : kept m m' -> GI c m n0 g fo pd -> GI c m' n0 g fo pd.
Proof.
  intros Hk. destruct g as [|cur rest next|]; [done| |done]. intros (tc & R & N & H1 & H2 & H3 & H4).
  exists tc, R, N. split_and!; try apply H4.
  - by eapply snap_kept.
  - eapply Forall2_impl; [exact H2|]. intros. by eapply snap_kept.
  - eapply Forall2_impl; [exact H3|]. intros. by eapply snap_kept.
Qed.
Lemma snap_labels m t : forall p i, snap m p t -> i ∈ map fst (inorder t) -> i < length m.
Proof.
  induction t as [|l IHl [j y] r IHr]; intros p i H Hi; [by apply elem_of_nil in Hi|].
  cbn [snap inorder fst snd] in *. destruct H as (_ & ce & Hc & _ & Hl & Hr).
  rewrite map_app in Hi. cbn [map fst] in Hi. apply elem_of_app in Hi as [Hi|Hi]; [by eapply IHl|].
  apply elem_of_cons in Hi as [->|Hi]; [by eapply lookup_lt_Some|by eapply IHr].
Qed.
Lemma snaps_labels m is F : snaps m is F -> forall i, i ∈ map fst (nds F) -> i < length m.
Proof.
  induction 1 as [|j t is F Ht HF IH]; intros i Hi; [by apply elem_of_nil in Hi|].
  unfold nds in Hi. cbn [map concat] in Hi. rewrite map_app in Hi. apply elem_of_app in Hi as [Hi|Hi].
  - by eapply snap_labels.
  - by apply IH.
Qed.
Lemma nds_hang p b n x F : NoDup (map fst (nds F)) ->
  nds (map (hang p b n x) F) ≡ₚ nds F \/ nds (map (hang p b n x) F) ≡ₚ (n, x) :: nds F.
Proof.
  assert (forall F, p ∉ map fst (nds F) -> map (hang p b n x) F = F) as Hout.
  { clear F. intros F. induction F as [|t F IH]; intros Hp; [done|]. unfold nds in Hp. cbn [map concat] in Hp.
    rewrite map_app in Hp. apply not_elem_of_app in Hp as [H1 H2]. cbn [map]. by rewrite hang_out, IH. }
  induction F as [|t F IH]; intros H; [by left|]. unfold nds in *. cbn [map concat] in *. rewrite map_app in H.
  apply NoDup_app in H as (H1 & H2 & H3). destruct (decide (p ∈ map fst (inorder t))) as [Hp|Hp].
  - rewrite (Hout F) by (by apply H2). destruct (hang_perm p b n x t H1) as [->| ->]; [by left|by right].
  - rewrite (hang_out p b n x t) by done. destruct (IH H3) as [->| ->]; [by left|right].
    by rewrite <- Permutation_middle.
Qed.
Lemma GI_linked m m' n0 g fo pd p b n x : linked p b n x m m' -> n0 <= n -> GI CBST m n0 g fo pd ->
  exists pd', GI CBST m' n0 g fo pd' /\ (pd' ≡ₚ pd \/ pd' ≡ₚ p_val x :: pd).
Proof.
  intros Hl Hn. destruct g as [|cur rest next|]; [done| |intros H; exists pd; split; [done|by left]].
  intros (tc & R & N & Hc & HR & HN & Hnew & Hnd & Hfo & Hpd). specialize (Hnd eq_refl).
  set (f := hang p b n x).
  assert (forall F, map (prune n0) (map f F) = map (prune n0) F) as Hpr.
  { intros F. rewrite map_map. apply map_ext. intros t. by apply prune_hang. }
  assert (forall F is, snaps m is F -> snaps m' is (map f F)) as Hsn.
  { intros F is HF. induction HF; cbn [map]; constructor; [by eapply snap_linked|done]. }
  assert (map f (tc :: R ++ N) = f tc :: map f R ++ map f N) as Ef by (cbn [map]; by rewrite map_app).
  pose proof (nds_hang p b n x _ Hnd) as Hp. fold f in Hp. rewrite Ef in Hp.
  destruct tc as [|l ix r]; [done|].
  assert (exists l' r', f (Bin l ix r) = Bin l' ix r') as (l' & r' & Et) by (by eexists _, _).
  assert (nds (kids (f (Bin l ix r)) ++ map f R ++ map f N) ≡ₚ nds (kids (Bin l ix r) ++ R ++ N) \/
          nds (kids (f (Bin l ix r)) ++ map f R ++ map f N) ≡ₚ (n, x) :: nds (kids (Bin l ix r) ++ R ++ N)) as Hp'.
  { rewrite Et in *. rewrite !nds_root in Hp. destruct Hp as [Hp|Hp]; [left|right].
    - by apply Permutation_cons_inv in Hp.
    - rewrite perm_swap in Hp. by apply Permutation_cons_inv in Hp. }
  exists (pend n0 (kids (f (Bin l ix r)) ++ map f R ++ map f N)). split.
  - exists (f (Bin l ix r)), (map f R), (map f N). split_and!.
    + by eapply snap_linked.
    + by apply Hsn.
    + by apply Hsn.
    + rewrite <- Ef. apply Forall_map. eapply Forall_impl; [exact Hnew|]. intros t Ht. by apply newer_hang.
    + intros _. destruct Hp as [->| ->]; [done|]. cbn [map fst]. apply NoDup_cons. split; [|done].
      intros Hin. assert (snaps m (cur :: rest ++ next) (Bin l ix r :: R ++ N)) as Hall.
      { constructor; [done|]. by apply Forall2_app. }
      pose proof (snaps_labels _ _ _ Hall _ Hin). destruct Hl as (_ & -> & _). lia.
    + rewrite !Hpr. unfold f at 1. by rewrite prune_hang.
    + done.
  - rewrite Hpd. destruct Hp' as [Hp'|Hp']; [left; by apply pend_perm|right].
    unfold pend at 1. rewrite Hp'. rewrite filter_cons_True by (cbn; lia). done.
Qed.
