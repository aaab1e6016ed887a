(** * The nodes on the way to a value of a BST, from the order of insertion *)
From Coq Require Import Sorted Factorial.
From iris.proofmode Require Import proofmode.
From Verif Require Import Base NumOrd TreeModel TreeSpec BstModel BalModel BstSpec BstSep BstRules BstZip BstPure BstThm DepthSpec DepthThm4
  BstAvgSpec TreapAvgSpec TreapAvgThm BstAvgThm.

(** Insertion at a leaf, and the tree that a list of insertions builds. *)
Fixpoint ins (v : num) (t : bin num) : bin num :=
  match t with
  | Nil => Bin Nil v Nil
  | Bin l y r => if decide (v = y) then t else if num_ltb v y then Bin (ins v l) y r else Bin l y (ins v r)
  end.
Definition built (p : list num) : bin num := foldl (fun t v => ins v t) Nil p.
Definition vals (T : ptree) : bin num := values (bin_map snd T).
Lemma zinsert_ins v new x T : p_val x = v -> T <> Nil -> vals (zinsert CBST v new x T) = ins v (vals T).
Proof.
  intros Hx. induction T as [|l IHl ix u IHu]; intros H; [done|]. clear H. cbn [vals values bin_map ins].
  destruct (decide (v = p_val ix.2)) as [E|E].
  - unfold zinsert. cbn [zfind]. rewrite bool_decide_eq_true_2 //.
  - destruct (num_ltb v (p_val ix.2)) eqn:E2.
    + destruct (decide (l = Nil)) as [->|Hl].
      * unfold zinsert. cbn [zfind]. rewrite bool_decide_eq_false_2 // E2. cbn. by rewrite Hx.
      * rewrite zinsert_left //; [|by apply bool_decide_eq_false_2]. specialize (IHl Hl). unfold vals, values in *. cbn [bin_map]. by rewrite IHl.
    + destruct (decide (u = Nil)) as [->|Hu].
      * unfold zinsert. cbn [zfind]. rewrite bool_decide_eq_false_2 // E2. cbn. by rewrite Hx.
      * rewrite zinsert_right //; [|by apply bool_decide_eq_false_2]. specialize (IHu Hu). unfold vals, values in *. cbn [bin_map]. by rewrite IHu.
Qed.
Lemma built_run p : forall s T, rep s T -> exists rs s' T', calls CBST (inserts p) s = Some (rs, s') /\ rep s' T' /\
  vals T' = foldl (fun t v => ins v t) (vals T) p.
Proof.
  induction p as [|v p IH]; intros s T H; [by exists [], s, T|].
  destruct (bst_insert_run s T v (Drawn 0) H) as (s1 & T1 & E & H1 & new & ET).
  destruct (IH s1 T1 H1) as (rs & s' & T' & Ec & H' & Ev). exists (OUnit (found v T) :: rs), s', T'. split_and!; [|done|].
  - change (inserts (v :: p)) with (TInsert (PNum v) (Drawn 0) :: inserts p). cbn [calls].
    rewrite (call_ok _ _ _ (OUnit (found v T)) s1); [by rewrite Ec|]. cbn [exec]. by rewrite (bind_ok _ _ _ _ _ E).
  - rewrite Ev. cbn [foldl]. f_equal. subst T1. destruct T as [|l ix u]; [done|]. by apply zinsert_ins.
Qed.
Lemma built_history p : exists rs s t, history CBST (inserts p) = Some (rs, s) /\ shape s = Some t /\ values t = built p.
Proof.
  destruct (built_run p tst0 Nil rep0) as (rs & s & T & E & H & Ev). exists rs, s, (bin_map snd T). split_and!; [done|by apply rep_shape|done].
Qed.

(** ** Who is on the way *)
Definition free (x v : num) (l : list num) : bool := forallb (fun w => negb (within x v w)) l.
Lemma within_spec x v w : within x v w = true <-> (num_le v w /\ num_le w x) \/ (num_le x w /\ num_le w v).
Proof. unfold within. rewrite orb_true_iff !andb_true_iff !negb_true_iff !num_ltb_le. done. Qed.
Ltac nums := unfold num_lt, within, num_le in *; repeat match goal with x : num |- _ => destruct x; cbn in *; try done end;
  repeat match goal with
  | H : (_ <? _)%Z = true |- _ => apply Z.ltb_lt in H
  | H : (_ <? _)%Z = false |- _ => apply Z.ltb_ge in H
  end.
Lemma within_self x v : within x v v = true.
Proof. destruct x, v; unfold within; cbn; rewrite ?Z.ltb_irrefl; try done. destruct (_ <? _)%Z eqn:E; [|done]. apply Z.ltb_lt in E. cbn. by rewrite (proj2 (Z.ltb_ge z0 z)) //; lia. Qed.
Lemma within_above x v y : num_lt v y -> num_lt x y -> within x v y = false.
Proof. intros H1 H2. unfold within. unfold num_lt in *. by rewrite H1 H2 !andb_false_r. Qed.
Lemma within_below x v y : num_lt y v -> num_lt y x -> within x v y = false.
Proof. intros H1 H2. unfold within. unfold num_lt in *. by rewrite H1 H2. Qed.
Lemma within_ends x v : within x v x = true.
Proof. rewrite -(within_self v x). unfold within. apply orb_comm. Qed.
Lemma within_sep1 x v y : num_lt v y -> num_lt y x -> within x v y = true.
Proof. intros H1 H2. apply within_spec. left. split; by apply num_ltb_lt. Qed.
Lemma within_sep2 x v y : num_lt x y -> num_lt y v -> within x v y = true.
Proof. intros H1 H2. apply within_spec. right. split; by apply num_ltb_lt. Qed.
Lemma free_app x v l1 l2 : free x v (l1 ++ l2) = free x v l1 && free x v l2.
Proof. apply forallb_app. Qed.
Lemma free_true x v l : (forall w, w ∈ l -> within x v w = false) -> free x v l = true.
Proof. intros H. apply forallb_forall. intros w Hw. rewrite H //. by apply elem_of_list_In. Qed.
Lemma free_false x v l w : w ∈ l -> within x v w = true -> free x v l = false.
Proof.
  intros Hw H. apply not_true_iff_false. intros E. unfold free in E. rewrite forallb_forall in E. specialize (E w). rewrite H in E.
  by specialize (E (proj1 (elem_of_list_In _ _) Hw)).
Qed.
Lemma free_false_mid x v l1 y l2 : within x v y = true -> free x v (l1 ++ y :: l2) = false.
Proof. intros H. apply (free_false _ _ _ y); [|done]. rewrite elem_of_app elem_of_cons. tauto. Qed.
Lemma path_ins x v t : increasing (inorder t) -> path x (ins v t) = path x t + one (free x v (inorder t)).
Proof.
  induction t as [|l IHl y r IHr]; intros H.
  - cbn. destruct (decide (x = v)); [done|]. by destruct (num_ltb x v).
  - cbn [inorder] in H. apply inc_mid in H as (Hl & Hr & Hly & Hry). specialize (IHl Hl). specialize (IHr Hr).
    rewrite -> Forall_forall in Hly. rewrite -> Forall_forall in Hry. cbn [ins inorder].
    destruct (decide (v = y)) as [->|Hv].
    { rewrite free_false_mid; [|apply within_self]. cbn [one]. lia. }
    destruct (num_ltb v y) eqn:Ev.
    + cbn [path]. destruct (decide (x = y)) as [->|Hx]; [rewrite free_false_mid; [done|apply within_ends]|].
      destruct (num_ltb x y) eqn:Ex.
      * rewrite IHl free_app. change (y :: inorder r) with ([y] ++ inorder r). rewrite free_app.
        rewrite (free_true _ _ [y]); [|intros w Hw%elem_of_list_singleton; subst w; by apply within_above].
        rewrite (free_true _ _ (inorder r)); [|intros w Hw; apply Hry in Hw; apply within_above; by apply (num_lt_trans _ y)]. rewrite !andb_true_r. lia.
      * rewrite free_false_mid; [cbn; lia|]. apply within_sep1; [done|]. by apply num_lt_total.
    + apply num_lt_total in Ev; [|done]. cbn [path]. destruct (decide (x = y)) as [->|Hx]; [rewrite free_false_mid; [done|apply within_ends]|].
      destruct (num_ltb x y) eqn:Ex.
      * rewrite free_false_mid; [cbn; lia|]. by apply within_sep2.
      * apply num_lt_total in Ex; [|done]. rewrite IHr free_app. change (y :: inorder r) with ([y] ++ inorder r). rewrite free_app.
        rewrite (free_true _ _ [y]); [|intros w Hw%elem_of_list_singleton; subst w; by apply within_below].
        rewrite (free_true _ _ (inorder l)); [|intros w Hw; apply Hly in Hw; apply within_below; by apply (num_lt_trans _ y)]. done.
Qed.
Lemma ins_elem v t w : w ∈ inorder (ins v t) <-> w = v \/ w ∈ inorder t.
Proof.
  induction t as [|l IHl y r IHr]; cbn [ins inorder].
  - rewrite elem_of_list_singleton elem_of_nil. tauto.
  - destruct (decide (v = y)) as [->|Hv]; [cbn [inorder]; rewrite elem_of_app elem_of_cons; tauto|].
    destruct (num_ltb v y); cbn [inorder]; rewrite !elem_of_app !elem_of_cons ?IHl ?IHr; tauto.
Qed.
Lemma ins_inc v t : increasing (inorder t) -> increasing (inorder (ins v t)).
Proof.
  induction t as [|l IHl y r IHr]; intros H; cbn [ins inorder] in *; [by apply inc_cons|].
  destruct (decide (v = y)) as [->|Hv]; [done|]. apply inc_mid in H as (Hl & Hr & Hly & Hry). destruct (num_ltb v y) eqn:E; cbn [inorder]; apply inc_mid; split_and!; auto.
  - apply Forall_forall. intros w [->|Hw]%ins_elem; [done|]. rewrite -> Forall_forall in Hly. auto.
  - apply Forall_forall. intros w [->|Hw]%ins_elem; [by apply num_lt_total|]. rewrite -> Forall_forall in Hry. auto.
Qed.
Lemma built_snoc p v : built (p ++ [v]) = ins v (built p).
Proof. unfold built. by rewrite foldl_app. Qed.
Lemma built_inc p : increasing (inorder (built p)).
Proof. induction p as [|v p IH] using rev_ind; [constructor|]. rewrite built_snoc. by apply ins_inc. Qed.
Lemma built_elem p w : w ∈ inorder (built p) <-> w ∈ p.
Proof.
  induction p as [|v p IH] using rev_ind; [done|]. rewrite built_snoc ins_elem IH elem_of_app elem_of_list_singleton. tauto.
Qed.
Lemma free_ext x v l l' : (forall w, w ∈ l <-> w ∈ l') -> free x v l = free x v l'.
Proof.
  intros H. apply eq_true_iff_eq. unfold free. rewrite !forallb_forall. split; intros Hf w Hw%elem_of_list_In; apply Hf, elem_of_list_In, H, Hw.
Qed.
Lemma find_app_some {A} (P : A -> bool) l1 l2 v : v ∈ l1 -> P v = true -> List.find P (l1 ++ l2) = List.find P l1.
Proof.
  induction l1 as [|x l1 IH]; intros Hv HP; [by apply elem_of_nil in Hv|]. cbn [app List.find]. destruct (P x) eqn:E; [done|].
  apply IH; [|done]. apply elem_of_cons in Hv as [->|Hv]; [congruence|done].
Qed.
Lemma find_free x v p : List.find (within x v) (p ++ [v]) = (if free x v p then Some v else List.find (within x v) p).
Proof.
  induction p as [|w p IH]; cbn [app List.find free forallb]; [by rewrite within_self|]. destruct (within x v w); [done|]. exact IH.
Qed.
(** The nodes on the way to [x] are the values that come first among those between them and [x]. *)
Lemma path_built x p : NoDup p -> path x (built p) = sum (map (fun v => one (comes_first x p v)) p).
Proof.
  induction p as [|v p IH] using rev_ind; intros Hnd; [done|]. apply NoDup_app in Hnd as (Hp & Hv & _).
  rewrite built_snoc path_ins; [|apply built_inc]. rewrite (IH Hp) map_app. cbn [List.map]. rewrite sum_snoc. f_equal.
  - apply sum_map_ext. intros w Hw. unfold comes_first. by rewrite (find_app_some _ _ _ w Hw (within_self x w)).
  - unfold comes_first. rewrite find_free (free_ext _ _ _ p); [|apply built_elem]. destruct (free x v p) eqn:E; [by rewrite bool_decide_eq_true_2|].
    destruct (List.find (within x v) p) as [w|] eqn:Ef; [|done]. rewrite bool_decide_eq_false_2 //. intros ->.
    apply find_some in Ef as [Ef _]. apply (Hv v); [by apply elem_of_list_In|by left].
Qed.

(** ** The average *)
Definition firsts (x : num) (vs : list num) (v : num) : nat := sum (map (fun p => one (comes_first x p v)) (orders vs)).
Lemma firsts_count x vs v : NoDup vs -> v ∈ vs -> length (List.filter (within x v) vs) * firsts x vs v = fact (length vs).
Proof.
  intros Hnd Hv. exact (first_count (within x v) v (length vs) vs eq_refl Hnd Hv (within_self x v)).
Qed.
Lemma sum_paths x vs : NoDup vs -> sum (map (fun p => path x (built p)) (orders vs)) = sum (map (firsts x vs) vs).
Proof.
  intros Hnd. unfold firsts. rewrite -sum_swap. apply sum_map_ext. intros p Hp. apply orders_elem in Hp; [|done].
  rewrite path_built; [|by rewrite Hp]. by apply sum_perm.
Qed.
Lemma firsts_le x vs v A : NoDup vs -> v ∈ vs -> NoDup A -> (forall w, w ∈ A -> w ∈ vs /\ within x v w = true) ->
  length A * firsts x vs v <= fact (length vs).
Proof.
  intros Hnd Hv HA H. rewrite -(firsts_count x vs v) //. apply Nat.mul_le_mono_r.
  apply submseteq_length, NoDup_submseteq; [done|]. intros w Hw. destruct (H w Hw). apply elem_of_list_In, filter_In. split; [by apply elem_of_list_In|done].
Qed.
Lemma inc_nodup l : increasing l -> NoDup l.
Proof.
  induction l as [|x l IH]; intros H; [constructor|]. apply inc_cons in H as [H1 H2]. constructor; [|auto].
  intros Hx. rewrite -> Forall_forall in H2. apply H2 in Hx. by apply num_lt_irrefl in Hx.
Qed.
Lemma split_at x s : increasing s -> exists l r, s = l ++ r /\ Forall (fun y => num_le y x) l /\ Forall (num_lt x) r.
Proof.
  induction s as [|y s IH]; intros H; [by exists [], []|]. apply inc_cons in H as [H1 H2]. destruct (num_ltb x y) eqn:E.
  - exists [], (y :: s). split_and!; [done|constructor|]. constructor; [done|]. eapply Forall_impl; [exact H2|]. cbn. intros z Hz. by apply (num_lt_trans _ y).
  - destruct (IH H1) as (l & r & -> & Hl & Hr). exists (y :: l), r. split_and!; [done| |done]. constructor; [by apply num_ltb_le|done].
Qed.
Lemma average_paths x vs : NoDup vs ->
  sum (map (fun p => path x (built p)) (orders vs)) <= fact (length vs) * (2 * (Nat.log2 (length vs) + 1)).
Proof.
  intros Hnd. rewrite sum_paths //. set (s := inorder (built vs)). assert (increasing s) as Hs by apply built_inc.
  assert (vs ≡ₚ s) as Hp.
  { apply NoDup_Permutation; [done|by apply inc_nodup|]. intros w. by rewrite built_elem. }
  rewrite (sum_perm _ _ _ Hp). destruct (split_at x s Hs) as (l & r & E & Hl & Hr). rewrite E map_app sum_app.
  assert (length vs = length l + length r) as Hn by (by rewrite Hp E app_length).
  assert (forall w, w ∈ l \/ w ∈ r -> w ∈ vs) as Hin by (intros w Hw; by rewrite Hp E elem_of_app).
  rewrite E in Hs. apply inc_app in Hs as (Hil & Hir & _). rewrite -> Forall_forall in Hl. rewrite -> Forall_forall in Hr.
  assert (sum (map (firsts x vs) l) <= fact (length vs) * (Nat.log2 (length l) + 1)) as H1.
  { rewrite (sum_perm _ l (rev l)); [|apply Permutation_rev]. rewrite -(rev_length l). apply harmonic_list. intros i v Hv.
    assert (v ∈ l) as Hvl by (rewrite (Permutation_rev l); by eapply elem_of_list_lookup_2).
    pose proof (take_drop_middle _ _ _ Hv) as Et. apply (f_equal (@rev num)) in Et. rewrite rev_involutive rev_app_distr in Et. cbn [rev] in Et. rewrite -app_assoc in Et. cbn [app] in Et.
    assert (length (v :: rev (take i (rev l))) = S i) as <-.
    { cbn [length]. rewrite rev_length take_length. apply lookup_lt_Some in Hv. lia. }
    rewrite -Et in Hil. apply inc_app in Hil as (_ & Hil & _). apply firsts_le; [done|by apply Hin; left|by apply inc_nodup|].
    intros w Hw. assert (w ∈ l) as Hwl by (rewrite -Et elem_of_app; by right). split; [apply Hin; by left|]. apply within_spec. left. split; [|by apply Hl].
    apply inc_cons in Hil as [_ Hil]. rewrite -> Forall_forall in Hil. apply elem_of_cons in Hw as [->|Hw]; [apply num_le_refl|]. by apply num_ltb_lt, Hil. }
  assert (sum (map (firsts x vs) r) <= fact (length vs) * (Nat.log2 (length r) + 1)) as H2.
  { apply harmonic_list. intros i v Hv. assert (v ∈ r) as Hvr by (by eapply elem_of_list_lookup_2).
    pose proof (take_drop_middle _ _ _ Hv) as Et.
    assert (length (take i r ++ [v]) = S i) as <-.
    { rewrite app_length take_length. apply lookup_lt_Some in Hv. cbn. lia. }
    rewrite -Et in Hir. change (take i r ++ v :: drop (S i) r) with (take i r ++ ([v] ++ drop (S i) r)) in Hir. rewrite app_assoc in Hir. apply inc_app in Hir as (Hir & _ & _).
    apply firsts_le; [done|by apply Hin; right|by apply inc_nodup|].
    intros w Hw. assert (w ∈ r) as Hwr.
    { rewrite -Et. rewrite elem_of_app elem_of_list_singleton in Hw. rewrite elem_of_app elem_of_cons. tauto. }
    split; [apply Hin; by right|]. apply within_spec. right. split; [by apply num_ltb_lt, Hr|].
    apply elem_of_app in Hw as [Hw|Hw%elem_of_list_singleton]; [|subst w; apply num_le_refl].
    apply inc_app in Hir as (_ & _ & Hir). apply num_ltb_lt, Hir; [done|by left]. }
  pose proof (Nat.log2_le_mono (length l) (length vs) ltac:(lia)). pose proof (Nat.log2_le_mono (length r) (length vs) ltac:(lia)). nia.
Qed.

(** ** Increasing order *)
Lemma built_sorted p : forall t, increasing (inorder t ++ p) -> right_branch (foldl (fun t v => ins v t) t p) = right_branch t + length p.
Proof.
  induction p as [|v p IH]; intros t H; cbn [foldl length]; [lia|].
  assert (forall u, Forall (fun y => num_lt y v) (inorder u) -> right_branch (ins v u) = S (right_branch u) /\ inorder (ins v u) = inorder u ++ [v]) as Hi.
  { induction u as [|l _ y r IHr]; intros Hu; [done|]. cbn [inorder ins] in *. apply Forall_app in Hu as [_ Hu]. apply Forall_cons in Hu as [Hy Hu].
    rewrite decide_False; [|intros ->; by apply num_lt_irrefl in Hy]. rewrite (num_lt_asym _ _ Hy). cbn [right_branch inorder]. destruct (IHr Hu) as [-> ->].
    by rewrite -app_assoc. }
  destruct (Hi t) as [E1 E2]; [apply inc_mid in H as (_ & _ & H & _); done|]. rewrite IH; [lia|]. by rewrite E2 -app_assoc.
Qed.
Lemma built_sorted_path p x : increasing p -> Forall (fun y => num_lt y x) p -> path x (built p) = length p.
Proof.
  intros Hp Hx. rewrite DepthThm4.path_above; [by apply (built_sorted p Nil)|]. rewrite -> Forall_forall in *. intros y Hy. by apply Hx, built_elem.
Qed.

(** ** The work of all insertions *)
Fixpoint walks (t : bin num) (p : list num) : list nat :=
  match p with [] => [] | v :: p' => path v t :: walks (ins v t) p' end.
Lemma walks_snoc p v : forall t, walks t (p ++ [v]) = walks t p ++ [path v (foldl (fun t v => ins v t) t p)].
Proof. induction p as [|w p IH]; intros t; [done|]. cbn [app walks foldl]. by rewrite IH. Qed.
Lemma walks_length p : forall t, length (walks t p) = length p.
Proof. induction p as [|w p IH]; intros t; [done|]. cbn [walks length]. by rewrite IH. Qed.
Lemma walks_lookup p : forall t i v k, p !! i = Some v -> walks t p !! i = Some k ->
  k = path v (foldl (fun t v => ins v t) t (take i p)).
Proof.
  induction p as [|w p IH]; intros t i v k Hv Hk; [done|]. destruct i as [|i]; cbn in *; [congruence|]. by eapply IH.
Qed.
Lemma walks_meet p : insertions_meet p (walks Nil p).
Proof.
  split; [apply walks_length|]. intros i v k Hv Hk. apply (walks_lookup _ _ _ _ _ Hv) in Hk as ->.
  destruct (built_history (take i p)) as (rs & s & t & E1 & E2 & E3). exists rs, s, t. split_and!; [done|done|]. by rewrite E3.
Qed.
Lemma within_only v w : within v v w = true -> w = v.
Proof. intros [[]|[]]%within_spec; by apply num_le_antisym. Qed.
Lemma walks_sum p : NoDup p -> sum (walks Nil p) + length p = sum (map (fun v => path v (built p)) p).
Proof.
  induction p as [|v p IH] using rev_ind; intros Hnd; [done|]. apply NoDup_app in Hnd as (Hp & Hv & _). specialize (IH Hp).
  rewrite walks_snoc app_length map_app sum_snoc. cbn [List.map length]. rewrite sum_snoc. rewrite (sum_map_ext _ (fun w => path w (built p))).
  - fold (built p). rewrite built_snoc path_ins; [|apply built_inc]. rewrite free_true; [cbn [one]; lia|].
    intros w Hw. apply not_true_iff_false. intros ->%within_only. rewrite built_elem in Hw. apply (Hv v); [done|by left].
  - intros w Hw. rewrite built_snoc path_ins; [|apply built_inc]. rewrite (free_false _ _ _ w); [cbn [one]; lia|by apply built_elem|apply within_ends].
Qed.
Lemma walks_average vs : NoDup vs ->
  sum (map (fun p => sum (walks Nil p)) (orders vs)) <= fact (length vs) * (length vs * (2 * Nat.log2 (length vs) + 1)).
Proof.
  intros Hnd. set (n := length vs). assert (sum (map (fun p => sum (walks Nil p) + n) (orders vs)) <= fact n * (n * (2 * (Nat.log2 n + 1)))) as H.
  - rewrite (sum_map_ext _ (fun p => sum (map (fun v => path v (built p)) vs))).
    + rewrite sum_swap. transitivity (sum (map (fun _ : num => fact n * (2 * (Nat.log2 n + 1))) vs)); [|rewrite sum_map_const; fold n; lia].
      apply sum_map_le. intros v _. by apply average_paths.
    + intros p Hp. apply orders_elem in Hp; [|done]. unfold n. rewrite -(Permutation_length Hp) walks_sum; [|by rewrite Hp]. by apply sum_perm.
  - rewrite sum_map_add sum_map_const orders_length // in H. fold n in H. nia.
Qed.
Lemma walks_sorted p : increasing p -> walks Nil p = seq 0 (length p).
Proof.
  induction p as [|v p IH] using rev_ind; intros H; [done|]. apply inc_mid in H as (H & _ & Hv & _). rewrite walks_snoc app_length seq_app IH //.
  fold (built p). by rewrite built_sorted_path.
Qed.
Lemma sum_seq n : 2 * sum (seq 0 n) = n * (n - 1).
Proof. induction n as [|n IH]; [done|]. rewrite seq_S sum_snoc. change (0 + n) with n. nia. Qed.
