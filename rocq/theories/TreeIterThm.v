(** * The loops of TreeIterModel.v: breadth-first search of forests, growing trees *)
From Verif Require Import Base TreeModel TreeSpec BstModel BalModel BstSpec TreeIterModel TreeIterSpec.
Local Open Scope py_scope.

(** ** Breadth first, level by level *)
Section bf.
  Context {A : Type}.
  Implicit Types (t : bin A) (F : list (bin A)).
  Definition flev (n : nat) F : list A := concat (map (bin_level n) F).
  Definition kids t : list (bin A) := match t with Nil => [] | Bin l _ r => [l; r] end.
  Definition fkids F : list (bin A) := concat (map kids F).
  Definition bf (m : nat) F : list A := concat (map (fun n => flev n F) (seq 0 m)).
  Definition fmax F : nat := foldr Nat.max 0 (map nlevels F).

  Lemma bin_level_deep t : forall n, nlevels t <= n -> bin_level n t = [].
  Proof.
    induction t as [|l IHl x r IHr]; intros n Hn; [done|]. cbn in *. destruct n; [lia|].
    by rewrite IHl, IHr by lia.
  Qed.
  Lemma flev_app n F F' : flev n (F ++ F') = flev n F ++ flev n F'.
  Proof. unfold flev. by rewrite map_app, concat_app. Qed.
  Lemma flev_S n F : flev (S n) F = flev n (fkids F).
  Proof.
    induction F as [|t F IH]; [done|]. change (fkids (t :: F)) with (kids t ++ fkids F).
    rewrite flev_app, <- IH. change (flev (S n) (t :: F)) with (bin_level (S n) t ++ flev (S n) F). f_equal.
    destruct t; cbn; [done|]. by rewrite app_nil_r.
  Qed.
  Lemma flev_deep F n : fmax F <= n -> flev n F = [].
  Proof.
    induction F as [|t F IH]; intros Hn; [done|]. cbn in Hn. unfold fmax in *. unfold flev. cbn.
    rewrite bin_level_deep by lia. apply IH. lia.
  Qed.
  Lemma bf_S m F : bf (S m) F = flev 0 F ++ bf m (fkids F).
  Proof.
    unfold bf. cbn [seq map concat]. f_equal. rewrite <- seq_shift, map_map. f_equal. apply map_ext.
    intros n. by rewrite flev_S.
  Qed.
  Lemma bf_deep m F : fmax F <= m -> bf m F = bf (fmax F) F.
  Proof.
    intros Hm. replace m with (fmax F + (m - fmax F)) by lia. unfold bf.
    rewrite seq_app, map_app, concat_app. cbn. rewrite <- app_nil_r. f_equal.
    assert (forall a k, fmax F <= a -> concat (map (fun n => flev n F) (seq a k)) = []) as Hz.
    { intros a k. revert a. induction k as [|k IH]; intros a Ha; [done|]. cbn. rewrite flev_deep by done. apply IH. lia. }
    by apply Hz.
  Qed.
  Definition bff F : list A := bf (fmax F) F.
  Lemma fmax_kids F : fmax (fkids F) <= Nat.pred (fmax F).
  Proof.
    assert (forall F F', fmax (F ++ F') = Nat.max (fmax F) (fmax F')) as Happ.
    { intros F1 F2. unfold fmax. induction F1 as [|t F1 IH]; cbn; [done|]. cbn in IH. rewrite IH. lia. }
    induction F as [|t F IH]; [cbn; lia|]. change (fkids (t :: F)) with (kids t ++ fkids F).
    rewrite Happ. unfold fmax in *. cbn. destruct t; cbn; lia.
  Qed.
  Lemma bff_step F : bff F = flev 0 F ++ bff (fkids F).
  Proof.
    unfold bff. rewrite <- (bf_deep (S (fmax F)) F) by lia. rewrite bf_S. f_equal. apply bf_deep.
    pose proof (fmax_kids F). lia.
  Qed.
  Lemma bff_ext F F' : (forall n, flev n F = flev n F') -> bff F = bff F'.
  Proof.
    intros H. unfold bff. rewrite <- (bf_deep (Nat.max (fmax F) (fmax F')) F) by lia.
    rewrite <- (bf_deep (Nat.max (fmax F) (fmax F')) F') by lia. unfold bf. f_equal. apply map_ext, H.
  Qed.
  Lemma bff_one t : bff [t] = breadth_first t.
  Proof.
    unfold bff, bf, breadth_first, fmax. cbn. rewrite Nat.max_0_r. f_equal. apply map_ext. intros n.
    unfold flev. cbn. by rewrite app_nil_r.
  Qed.
  Lemma fkids_app F F' : fkids (F ++ F') = fkids F ++ fkids F'.
  Proof. unfold fkids. by rewrite map_app, concat_app. Qed.

  (** What is still to come: the rest [R] of a level and the part [N] of the next one
      that is already known. *)
  Definition future (R N : list (bin A)) : list A := flev 0 R ++ bff (N ++ fkids R).
  Lemma future_cons t R N : future (t :: R) N = bin_level 0 t ++ future R (N ++ kids t).
  Proof.
    unfold future. change (flev 0 (t :: R)) with (bin_level 0 t ++ flev 0 R).
    change (fkids (t :: R)) with (kids t ++ fkids R). by rewrite <- !app_assoc.
  Qed.
  Lemma future_nil N : future [] N = future N [].
  Proof. unfold future. cbn. rewrite app_nil_r. by rewrite bff_step. Qed.
  Lemma future_ext R N N' : (forall n, flev n N = flev n N') -> future R N = future R N'.
  Proof. intros H. unfold future. f_equal. apply bff_ext. intros n. by rewrite !flev_app, H. Qed.
  Lemma future_empty : future [] [] = [].
  Proof. done. Qed.
End bf.

(** ** Labelled trees in memory *)
Notation ltree := (bin (nat * pay)).
Fixpoint snap (m : list cell) (p : option nat) (t : ltree) : Prop :=
  match t with
  | Nil => p = None
  | Bin l ix r => p = Some ix.1 /\ exists c, m !! ix.1 = Some c /\ c_pay c = ix.2 /\ snap m (c_left c) l /\ snap m (c_right c) r
  end.
(** Nodes below [n0] only: the tree as it was when there were [n0] nodes. *)
Fixpoint prune (n0 : nat) (t : ltree) : bin pay :=
  match t with
  | Nil => Nil
  | Bin l ix r => if decide (ix.1 < n0) then Bin (prune n0 l) ix.2 (prune n0 r) else Nil
  end.
(** Below a new node there are only new ones. *)
Fixpoint newer (n0 : nat) (t : ltree) : Prop :=
  match t with
  | Nil => True
  | Bin l ix r => (n0 <= ix.1 -> prune n0 l = Nil /\ prune n0 r = Nil) /\ newer n0 l /\ newer n0 r
  end.
(** A new leaf [n] on the side [b] ([true]: left) of node [p]. *)
Fixpoint hang (p : nat) (b : bool) (n : nat) (x : pay) (t : ltree) : ltree :=
  match t with
  | Nil => Nil
  | Bin l ix r =>
      Bin (match l with Nil => if bool_decide (ix.1 = p) && b then Bin Nil (n, x) Nil else Nil | _ => hang p b n x l end) ix
          (match r with Nil => if bool_decide (ix.1 = p) && negb b then Bin Nil (n, x) Nil else Nil | _ => hang p b n x r end)
  end.
(** From memory [m] to [m'], a new node [n] is hung on the free side [b] of [p]. *)
Definition linked (p : nat) (b : bool) (n : nat) (x : pay) (m m' : list cell) : Prop :=
  (exists c, m !! p = Some c /\ (if b then c_left c else c_right c) = None) /\
  n = length m /\ (exists c, m' !! n = Some c /\ c_pay c = x /\ c_left c = None /\ c_right c = None) /\
  forall i c, m !! i = Some c -> exists c', m' !! i = Some c' /\ c_pay c' = c_pay c /\
    c_left c' = (if bool_decide (i = p) && b then Some n else c_left c) /\
    c_right c' = (if bool_decide (i = p) && negb b then Some n else c_right c).
Definition kept (m m' : list cell) : Prop := forall i c, m !! i = Some c -> m' !! i = Some c.

Lemma snap_kept m m' t : kept m m' -> forall p, snap m p t -> snap m' p t.
Proof.
  intros Hk. induction t as [|l IHl [i x] r IHr]; intros p H; [done|]. cbn in *.
  destruct H as (-> & c & Hc & Hx & Hl & Hr). split; [done|]. exists c. split_and!; auto.
Qed.
Lemma snap_linked p b n x m m' t : linked p b n x m m' -> forall q, snap m q t -> snap m' q (hang p b n x t).
Proof.
  intros (Hp & Hn & Hnew & Hall). induction t as [|l IHl [i y] r IHr]; intros q H; [done|].
  cbn [snap hang fst snd] in *. destruct H as (-> & c & Hc & Hx & Hl & Hr). split; [done|].
  destruct (Hall _ _ Hc) as (c' & Hc' & Hpay & HL & HR). exists c'. split_and!; [done|congruence| |].
  - rewrite HL. destruct l as [|l1 lx l2].
    + cbn in Hl. destruct (bool_decide (i = p) && b); [|done]. cbn. split; [done|].
      destruct Hnew as (c2 & H2 & H3 & H4 & H5). exists c2. by rewrite H4, H5.
    + destruct (bool_decide_reflect (i = p)) as [->|]; [|by apply IHl]. destruct b; [|by apply IHl].
      destruct Hp as (c0 & Hc0 & HN). rewrite Hc in Hc0. injection Hc0 as <-. rewrite HN in Hl. by destruct Hl.
  - rewrite HR. destruct r as [|r1 rx r2].
    + cbn in Hr. destruct (bool_decide (i = p) && negb b); [|done]. cbn. split; [done|].
      destruct Hnew as (c2 & H2 & H3 & H4 & H5). exists c2. by rewrite H4, H5.
    + destruct (bool_decide_reflect (i = p)) as [->|]; [|by apply IHr]. destruct b; [by apply IHr|].
      destruct Hp as (c0 & Hc0 & HN). rewrite Hc in Hc0. injection Hc0 as <-. rewrite HN in Hr. by destruct Hr.
Qed.
Lemma prune_hang n0 p b n x t : n0 <= n -> prune n0 (hang p b n x t) = prune n0 t.
Proof.
  intros Hn. induction t as [|l IHl [i y] r IHr]; [done|]. cbn [hang prune fst snd].
  destruct (decide (i < n0)); [|done]. f_equal.
  - destruct l; [|done]. destruct (bool_decide (i = p) && b); [|done]. cbn. by rewrite decide_False by lia.
  - destruct r; [|done]. destruct (bool_decide (i = p) && negb b); [|done]. cbn. by rewrite decide_False by lia.
Qed.
Lemma newer_hang n0 p b n x t : n0 <= n -> newer n0 t -> newer n0 (hang p b n x t).
Proof.
  intros Hn. induction t as [|l IHl [i y] r IHr]; [done|]. cbn [hang newer fst snd]. intros (H1 & H2 & H3). split_and!.
  - intros Hi. destruct (H1 Hi) as [HL HR]. split.
    + destruct l; [|by rewrite prune_hang]. destruct (bool_decide (i = p) && b); [|done]. cbn. by rewrite decide_False by lia.
    + destruct r; [|by rewrite prune_hang]. destruct (bool_decide (i = p) && negb b); [|done]. cbn. by rewrite decide_False by lia.
  - destruct l; [|by apply IHl]. by destruct (bool_decide (i = p) && b).
  - destruct r; [|by apply IHr]. by destruct (bool_decide (i = p) && negb b).
Qed.
Lemma hang_out p b n x t : p ∉ map fst (inorder t) -> hang p b n x t = t.
Proof.
  induction t as [|l IHl [i y] r IHr]; intros H; [done|]. cbn [hang inorder fst] in *.
  rewrite map_app in H. cbn [map fst] in H. apply not_elem_of_app in H as [H1 H2]. apply not_elem_of_cons in H2 as [H2 H3].
  rewrite IHl, IHr by done. rewrite bool_decide_eq_false_2 by done. cbn [andb]. by destruct l, r.
Qed.
Lemma hang_perm p b n x t : NoDup (map fst (inorder t)) ->
  inorder (hang p b n x t) ≡ₚ inorder t \/ inorder (hang p b n x t) ≡ₚ (n, x) :: inorder t.
Proof.
  induction t as [|l IHl [i y] r IHr]; intros H; [by left|]. cbn [inorder] in H. rewrite map_app in H. cbn [map fst] in H.
  apply NoDup_app in H as (HL & Hd & HR). apply NoDup_cons in HR as [Hi HR].
  cbn [hang inorder fst].
  set (l' := match l with Nil => _ | _ => _ end). set (r' := match r with Nil => _ | _ => _ end).
  assert (i = p -> (l' = l /\ r' = r) \/ (inorder l' ≡ₚ (n, x) :: inorder l /\ r' = r) \/ (l' = l /\ inorder r' ≡ₚ (n, x) :: inorder r)) as Heq.
  { intros ->. assert (hang p b n x l = l) as El.
    { apply hang_out. intros Hp. apply (Hd _ Hp). left. }
    assert (hang p b n x r = r) as Er by (by apply hang_out).
    unfold l', r'. rewrite El, Er. rewrite bool_decide_eq_true_2 by done. destruct b; cbn [andb negb].
    - destruct l; [right; left|left]; (split; [done|by destruct r]).
    - destruct r; [right; right|left]; (split; [by destruct l|done]). }
  assert (i <> p -> l' = hang p b n x l /\ r' = hang p b n x r) as Hne.
  { intros Hne. unfold l', r'. rewrite bool_decide_eq_false_2 by done. cbn [andb]. split; [by destruct l|by destruct r]. }
  destruct (decide (i = p)) as [E|E].
  - destruct (Heq E) as [[-> ->]|[[-> ->]|[-> ->]]]; [by left|by right|right].
    by rewrite (Permutation_middle (inorder l)), <- perm_swap.
  - destruct (Hne E) as [-> ->]. clear Heq Hne.
    destruct (decide (p ∈ map fst (inorder l))) as [Hp|Hp].
    + rewrite (hang_out p b n x r) by (intros Hp'; apply (Hd _ Hp); by right).
      destruct (IHl HL) as [->| ->]; [by left|by right].
    + rewrite (hang_out p b n x l) by done. destruct (IHr HR) as [->| ->]; [by left|right].
      by rewrite (Permutation_middle (inorder l)), <- perm_swap.
Qed.
