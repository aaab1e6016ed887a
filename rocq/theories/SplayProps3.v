(** * Exactly which histories of a SplayTree behave as a set (C31)

    Specification: BstSpec.v.  Proofs: SplayThm.v. *)
From iris.proofmode Require Import proofmode.
From Verif Require Import Base NumOrd TreeModel TreeSpec BstModel BalModel BstSpec BstSep BstRules BstZip BstDel BinThm BstPure BstThm AvlThm SplayThm SplayProps BstProps BstProps4.

(** After any history of replaceable removals, any removal returns with the right answer and
    loses nothing but the value; the values are then in order if and only if that value was
    replaceable. *)
Theorem C31_one_removal os rs s t x : removals_replaceable CSplay os -> history CSplay os = Some (rs, s) -> shape s = Some t ->
  let l := map p_val (inorder t) in
  increasing l /\
  exists s' t', call CSplay (TRemove (PNum x)) s = Some (OUnit (bool_decide (x ∉ l)), s') /\ shape s' = Some t' /\
    map p_val (inorder t') ≡ₚ set_del x l /\
    (map p_val (inorder t') = set_del x l <-> replaceable (subtree_at x (bin_map p_val t))).
Proof.
  intros H Hh Ht l. destruct (splay_run os tst0 Nil rep0) as (rs' & s0 & T & E & HR & HA & HN); [constructor|done|].
  unfold history in Hh. rewrite Hh in E. injection E as <- <-. rewrite (rep_shape _ _ HR) in Ht. injection Ht as <-. subst l. rewrite inorder_pays.
  assert (increasing (ino T)) as Hi by (rewrite HN; apply set_after_inc; constructor). split; [done|].
  destruct (splay_remove_any s T x HR Hi) as (s' & T' & E & HR' & HT'). exists s', (bin_map snd T'). rewrite inorder_pays. split_and!.
  - apply call_ok. cbn [exec]. by rewrite (bind_ok _ _ _ _ _ E).
  - by apply rep_shape.
  - apply removed_perm in HT'. rewrite (found_in _ _ Hi) in HT'. case_bool_decide as Hx.
    + apply inc_NoDup in Hi. unfold set_del. rewrite -HT' in Hi. rewrite -HT'. apply NoDup_cons in Hi as [Hx' _]. rewrite filter_cons_False; [|tauto].
      symmetry. change (set_del x (ino T') ≡ₚ ino T'). by rewrite set_del_notin.
    + rewrite HT'. by rewrite set_del_notin.
  - rewrite subtree_at_zfind !replaceable_map. by eapply removed_exact.
Qed.
Print Assumptions C31_one_removal.

(** A history behaves as a set after each of its calls if and only if every value removed in
    it is replaceable at the time. *)
Theorem C31_histories_iff os : set_throughout CSplay os <-> removals_replaceable CSplay os.
Proof.
  split.
  - induction os as [|o os IH] using rev_ind; intros HS.
    { intros pre x post rs s t E. by destruct pre. }
    assert (removals_replaceable CSplay os) as HR.
    { apply IH. intros pre post ->. apply (HS pre (post ++ [o])). by rewrite -app_assoc. }
    intros pre x post rs s t E Hh Ht. destruct post as [|o' post _] using rev_ind.
    + apply app_inj_tail in E as [-> ->]. destruct (C31_one_removal pre rs s t x HR Hh Ht) as (_ & s' & t' & Ec & Ht' & _ & Hiff). apply Hiff.
      destruct (HS pre [TRemove (PNum x)] eq_refl) as (rs0 & s0 & t0 & E0 & _ & Ht0 & Hi0). rewrite Hh in E0. injection E0 as <- <-. rewrite Ht in Ht0. injection Ht0 as <-.
      destruct (HS (pre ++ [TRemove (PNum x)]) []) as (rs1 & s1 & t1 & E1 & _ & Ht1 & Hi1); [by rewrite app_nil_r|].
      unfold history in E1, Hh. rewrite (run_snoc _ _ _ _ _ _ _ _ Hh Ec) in E1. injection E1 as <- <-. rewrite Ht' in Ht1. injection Ht1 as <-.
      rewrite Hi1 set_after_app. cbn [set_after next]. by rewrite Hi0.
    + rewrite app_comm_cons app_assoc in E. apply app_inj_tail in E as [E _]. by eapply HR.
  - intros HR pre post ->. apply C31_removal_partial. intros p x q rs s t -> Hh Ht. eapply (HR p x (q ++ post)); [|done|done]. by rewrite -app_assoc.
Qed.
Print Assumptions C31_histories_iff.

(** A history that satisfies both sides, and one that satisfies neither. *)
Example C31_iff_example :
  removals_replaceable CSplay (inserts (map Fin [4; 9; 11; 5; 1]%Z) ++ [TRemove (PInt 5)]) /\
  ~ removals_replaceable CSplay (inserts (map Fin [4; 9; 11; 5; 1]%Z) ++ [TRemove (PInt 1)]).
Proof.
  split.
  - intros pre x post rs s t E Hh Ht. apply one_removal in E as [-> ->]; [|repeat constructor].
    vm_compute in Hh. injection Hh as <- <-. vm_compute in Ht. injection Ht as <-. vm_compute. tauto.
  - intros HR. assert (exists rs s t, history CSplay (inserts (map Fin [4; 9; 11; 5; 1]%Z)) = Some (rs, s) /\ shape s = Some t /\
      ~ replaceable (subtree_at (Fin 1) (bin_map p_val t))) as (rs & s & t & Hh & Ht & Hn).
    { eexists _, _, _. split; [vm_compute; reflexivity|]. split; [vm_compute; reflexivity|]. vm_compute. tauto. }
    apply Hn. by eapply (HR _ (Fin 1) []).
Qed.
