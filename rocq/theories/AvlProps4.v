(** * Removal from an AVL tree: exactly when it keeps the balance (C27, continued)

    Specification: BstSpec.v, AvlDelSpec.v.  Model: BstModel.v, BalModel.v.  Proofs: AvlThm.v,
    AvlThm3.v. *)
From Coq Require Import Sorted.
From iris.proofmode Require Import proofmode.
From Verif Require Import Base NumOrd TreeModel TreeSpec BstModel BalModel BstSpec BstRules BstZip BstPure BstThm AvlThm AvlDelSpec AvlThm3 RbProps3.

Lemma ino_vals T : map p_val (inorder (bin_map snd T)) = ino T.
Proof. apply inorder_pays. Qed.
(** One call on a balanced tree. *)
Lemma avl_iff_step s T o : rep s T -> avl_ok T -> increasing (ino T) ->
  exists r s' T', call CAVL o s = Some (r, s') /\ rep s' T' /\ exact T' /\ answer CAVL o (ino T) r /\ ino T' = next CAVL o (ino T) /\
    (avlb T' <-> keeps_balance o (bin_map snd T)).
Proof.
  intros H HA Hinc. assert (o = TClear \/ o <> TClear) as [->|Hcl] by (destruct o; (by left) || (by right)).
  { destruct (clear_step CAVL s T H) as (s' & E & HR). exists (OUnit false), s', Nil. by split_and!. }
  destruct (changes CAVL o) eqn:Ec.
  - destruct o as [v p|v| | | | | | | | | | | | | ]; try done.
    + destruct (avl_ins_step s T (TInsert v p) H HA Hinc) as (r & s' & T' & E & HR & [HE HB] & HA' & HN); [done..|].
      exists r, s', T'. by split_and!.
    + assert ((exists x, v = PNum x) \/ (forall x, v <> PNum x)) as [[x ->]|Hv]. { destruct v; try (by right); left; eauto. }
      2:{ destruct (remove_step CAVL s T v (fun T' => T' = T) H) as (r & s' & T' & E & HR & -> & HA' & HN); [intros x ->; by destruct (Hv x)|done|].
          destruct HA as [HE HB]. exists r, s', T. split_and!; try done; destruct v as [|x| | | |]; try done; by destruct (Hv x). }
      destruct (avl_remove_iff s T x H HA Hinc) as (s' & T' & E & HR & HI & HE & HB).
      exists (OUnit (bool_decide (x ∉ ino T))), s', T'. split; [apply call_ok; cbn [exec]; by rewrite (bind_ok _ _ _ _ _ E)|].
      split_and!; try done. rewrite HB. cbn [keeps_balance]. by rewrite ino_vals.
  - destruct (read_step CAVL o s T Ec H (fun _ => Hinc)) as (r & s' & E & HR & HB & HN). exists r, s', T. destruct HA. split_and!; try done.
    by destruct o as [| [] | | | | | | | | | | | | |].
Qed.

(** ** C27 *)
(** Removing from a balanced tree: always the right answer and the right values, and the tree
    is balanced afterwards if and only if [keeps_balance] says so. *)
Theorem C27_removal_keeps_balance_iff os rs s t x : balanced_throughout CAVL os ->
  history CAVL os = Some (rs, s) -> shape s = Some t -> height_balanced t ->
  exists s' t', call CAVL (TRemove (PNum x)) s = Some (OUnit (bool_decide (x ∉ map p_val (inorder t))), s') /\ shape s' = Some t' /\
    map p_val (inorder t') = set_del x (map p_val (inorder t)) /\ heights_exact t' /\
    (height_balanced t' <-> keeps_balance (TRemove (PNum x)) t).
Proof.
  intros H Hh Ht Hb. destruct (avl_balanced_run os tst0 Nil rep0) as (rs' & s' & T & E & HR & HE & HA & HN); [done|constructor|exact H|].
  unfold history in Hh. rewrite E in Hh. injection Hh as <- <-. rewrite (rep_shape _ _ HR) in Ht. injection Ht as <-.
  assert (increasing (ino T)) as Hi. { rewrite HN. apply set_after_inc. constructor. }
  assert (avl_ok T) as Hok. { split; [done|]. by apply avlb_balanced. }
  destruct (avl_remove_iff s' T x HR Hok Hi) as (s2 & T' & E2 & HR2 & HI & HE2 & HB).
  exists s2, (bin_map snd T'). rewrite !ino_vals. split; [apply call_ok; cbn [exec]; by rewrite (bind_ok _ _ _ _ _ E2)|].
  split; [by apply rep_shape|]. split; [done|]. split; [by apply exact_heights|]. rewrite -avlb_balanced // HB. cbn [keeps_balance]. by rewrite ino_vals.
Qed.
Print Assumptions C27_removal_keeps_balance_iff.
Lemma avl_good_run os : forall s T, rep s T -> avl_ok T -> increasing (ino T) ->
  (forall pre o post rs s' t, os = pre ++ o :: post -> calls CAVL pre s = Some (rs, s') -> shape s' = Some t -> keeps_balance o t) ->
  exists rs s' T', calls CAVL os s = Some (rs, s') /\ rep s' T' /\ avl_ok T' /\ answers CAVL os (ino T) rs /\ ino T' = set_after CAVL os (ino T).
Proof.
  induction os as [|o os IH]; intros s T H HA Hinc HB; [by exists [], s, T|].
  destruct (avl_iff_step s T o H HA Hinc) as (r & s1 & T1 & E & HR & HE1 & HA1 & HN & Hb).
  destruct (IH s1 T1 HR) as (rs & s2 & T2 & E2 & HR2 & HE2 & HA2 & HN2).
  - split; [done|]. apply Hb. eapply (HB [] o os); try done. by apply rep_shape.
  - rewrite HN. by apply next_inc.
  - intros pre o' post rs s' t -> Ec Ht. eapply (HB (o :: pre) o' post); try done. cbn [calls]. by rewrite E Ec.
  - rewrite HN in HA2, HN2. exists (r :: rs), s2, T2. cbn [calls]. rewrite E E2. by split_and!.
Qed.
(** Whole histories: the tree is balanced after every call, with every answer right, if and
    only if every removal is of that kind. *)
Theorem C27_histories_iff os : avl_throughout os <-> keeps_balance_throughout os.
Proof.
  split.
  - intros HV pre o post rs s t -> Hh Ht.
    destruct (avl_balanced_run pre tst0 Nil rep0) as (rs' & s' & T & E & HR & HE & HA & HN); [done|constructor| |].
    { intros p q rs1 s1 t1 -> _ E1 Ht1. destruct (HV p (q ++ o :: post) ltac:(by rewrite -app_assoc)) as (rs2 & s2 & t2 & E2 & Ht2 & _ & _ & Hb & _).
      unfold history in E2. rewrite E1 in E2. injection E2 as <- <-. rewrite Ht1 in Ht2. by injection Ht2 as <-. }
    unfold history in Hh. rewrite E in Hh. injection Hh as <- <-. rewrite (rep_shape _ _ HR) in Ht. injection Ht as <-.
    assert (increasing (ino T)) as Hi. { rewrite HN. apply set_after_inc. constructor. }
    assert (avl_ok T) as Hok.
    { split; [done|]. apply avlb_balanced; [done|]. destruct (HV pre (o :: post) eq_refl) as (rs2 & s2 & t2 & E2 & Ht2 & _ & _ & Hb & _).
      unfold history in E2. rewrite E in E2. injection E2 as <- <-. rewrite (rep_shape _ _ HR) in Ht2. by injection Ht2 as <-. }
    destruct (avl_iff_step s' T o HR Hok Hi) as (r & s1 & T1 & E1 & HR1 & HE1 & HA1 & HN1 & Hb). apply Hb, avlb_balanced; [done|].
    destruct (HV (pre ++ [o]) post ltac:(by rewrite -app_assoc)) as (rs2 & s2 & t2 & E2 & Ht2 & _ & _ & Hb2 & _).
    unfold history in E2. rewrite (calls_snoc _ _ _ _ _ _ _ _ E E1) in E2. injection E2 as <- <-. rewrite (rep_shape _ _ HR1) in Ht2. by injection Ht2 as <-.
  - intros HK pre post ->. destruct (avl_good_run pre tst0 Nil rep0) as (rs & s & T & E & HR & [HE HA] & HAn & HN); [done|constructor| |].
    { intros p o q rs s t -> E Ht. eapply (HK p o (q ++ post)); [by rewrite -app_assoc|exact E|done]. }
    exists rs, s, (bin_map snd T). split; [done|]. split; [by apply rep_shape|]. split; [done|]. split; [by rewrite ino_vals|].
    split; [by apply avlb_balanced|by apply exact_heights].
Qed.
Print Assumptions C27_histories_iff.
(** In the tree of 50, 20, 60, 10, 30, 70, 5, 40 the removal of 70 is not of that kind; with 25
    instead of 40 it is, although the left side is even at its root. *)
Example C27_exact_example : exists rs s t rs' s' t',
  history CAVL (inserts (map Fin [50; 20; 60; 10; 30; 70; 5; 40]%Z)) = Some (rs, s) /\ shape s = Some t /\
  height_balanced t /\ gap (Fin 70) (bin_map p_val t) = [true; true] /\ ~ keeps_balance (TRemove (PInt 70)) t /\
  history CAVL (inserts (map Fin [50; 20; 60; 10; 30; 70; 5; 25]%Z)) = Some (rs', s') /\ shape s' = Some t' /\
  height_balanced t' /\ keeps_balance (TRemove (PInt 70)) t'.
Proof.
  eexists _, _, _, _, _, _. split; [by vm_compute|]. split; [by vm_compute|]. split; [cbn; lia|]. split; [by vm_compute|].
  split. { intros H. specialize (H ltac:(apply (bool_decide_unpack _); by vm_compute)). vm_compute in H. destruct H as [_ H]. apply H. split_and!; try done; lia. }
  split; [by vm_compute|]. split; [by vm_compute|]. split; [cbn; lia|]. intros _. vm_compute. split; [split; [done|]|]; intros (_ & H & H2); try done; lia.
Qed.
(** A history with removals that are handled throughout. *)
Example C27_histories_example : keeps_balance_throughout (inserts (map Fin [5; 2; 8; 1; 9; 7; 3]%Z) ++ [TRemove (PInt 5); TRemove (PInt 9); TRemove (PInt 8)]).
Proof.
  intros pre o post rs s t E Hh Ht.
  do 10 (destruct pre as [|? pre]; [cbn in E; injection E as <- _; vm_compute in Hh; injection Hh as <- <-; vm_compute in Ht; injection Ht as <-; try done;
    intros _; vm_compute; naive_solver lia|]; cbn in E; injection E as <- E).
  clear Hh. by destruct pre.
Qed.
