(** * Properties of BST (C24 - C25)

    Specification: BstSpec.v.  Model: BstModel.v, BalModel.v.  Proofs: BstThm.v. *)
From Coq Require Import Sorted.
From iris.proofmode Require Import proofmode.
From Verif Require Import Base NumOrd TreeModel TreeSpec BstModel BalModel BstSpec BstZip BstPure BstThm.

(** ** C24: histories without removals *)
(** Every call of every history without removals answers like a set. *)
Theorem C24_insertions_implement_a_set os : no_removals os -> behaves_as_set CBST os.
Proof.
  intros H. eapply (history_set CBST (fun _ => True) (fun o _ => is_removal o = false)); [|done|by apply along_all].
  intros s T o ? ? ? ?. by apply bst_step.
Qed.
Print Assumptions C24_insertions_implement_a_set.
(** In plain terms. *)
Theorem C24_after_inserting vs : after_inserting CBST vs.
Proof.
  apply behaves_after_inserting. intros x. apply C24_insertions_implement_a_set. unfold no_removals. rewrite Forall_app. split.
  - apply Forall_map, Forall_true. done.
  - repeat constructor.
Qed.
Print Assumptions C24_after_inserting.
Example C24_example :
  no_removals [TInsert (PInt 5) (Drawn 0); TInsert (PInt 2) (Drawn 0); TInsert (PInt 9) (Drawn 0); TInsert (PInt 2) (Drawn 0);
    TInsert PNone (Drawn 0); TContains (PInt 9); TGetMin; TTraverse (PStr s_inorder)] /\
  option_map fst (history CBST [TInsert (PInt 5) (Drawn 0); TInsert (PInt 2) (Drawn 0); TInsert (PInt 9) (Drawn 0); TInsert (PInt 2) (Drawn 0);
    TInsert PNone (Drawn 0); TContains (PInt 9); TGetMin; TTraverse (PStr s_inorder)]) =
  Some [OUnit false; OUnit false; OUnit false; OUnit true; ORaise ValueError; OBool true; OVal (Fin 2); OVals [Fin 2; Fin 5; Fin 9]].
Proof. split; [repeat constructor|by vm_compute]. Qed.

(** ** C25: removal *)
(** False: with 10, 20, 40, 30 inserted, removing 10 puts 40 before 30, and 30 is then not found. *)
Theorem C25_removal_refuted :
  exists os rs, option_map fst (history CBST os) = Some rs /\ ~ answers CBST os [] rs.
Proof.
  exists (inserts [Fin 10; Fin 20; Fin 40; Fin 30] ++ [TRemove (PInt 10); TContains (PInt 30); TTraverse (PStr s_inorder)]).
  eexists. split; [by vm_compute|]. cbn. intros H. decompose [and] H. done.
Qed.
Print Assumptions C25_removal_refuted.
(** What does hold of every history: no crash, no value lost or invented, the length exact. *)
Theorem C25_nothing_lost_partial os :
  exists rs s t, history CBST os = Some (rs, s) /\ shape s = Some t /\
    bag_steps os [] rs (map p_val (inorder t)).
Proof.
  destruct (bst_bag_steps os tst0 Nil rep0) as (rs & s & T & E & HR & HB). exists rs, s, (bin_map snd T).
  split_and!; [done|by apply rep_shape|]. by rewrite inorder_pays.
Qed.
Print Assumptions C25_nothing_lost_partial.
(** Exactly when a removal is right: a tree in search order stays so iff below the
    neighbour that replaces the value there is only a single branch. *)
Theorem C25_removal_partial os rs s t x l :
  history CBST os = Some (rs, s) -> shape s = Some t -> map p_val (inorder t) = l -> increasing l ->
  exists s' t', call CBST (TRemove (PNum x)) s = Some (OUnit (bool_decide (x ∉ l)), s') /\ shape s' = Some t' /\
    map p_val (inorder t') ≡ₚ set_del x l /\
    (map p_val (inorder t') = set_del x l <-> replaceable (subtree_at x (bin_map p_val t))).
Proof.
  intros Hh Ht Hl Hi. destruct (bst_bag_steps os tst0 Nil rep0) as (rs' & s' & T & E & HR & _).
  unfold history in Hh. rewrite Hh in E. injection E as <- <-. rewrite (rep_shape _ _ HR) in Ht. injection Ht as <-.
  rewrite inorder_pays in Hl. subst l. destruct (bst_remove_run s T x HR) as (s' & T' & E & HR' & HT' & _).
  exists s', (bin_map snd T'). rewrite inorder_pays. split_and!.
  - apply call_ok. cbn [exec]. rewrite (bind_ok _ _ _ _ _ E). rewrite (found_in _ _ Hi). by rewrite bool_decide_not.
  - by apply rep_shape.
  - apply removed_perm in HT'. rewrite (found_in _ _ Hi) in HT'. case_bool_decide as Hx.
    + apply inc_NoDup in Hi. unfold set_del. rewrite -HT' in Hi. rewrite -HT'. apply NoDup_cons in Hi as [Hx' _]. rewrite filter_cons_False; [|tauto].
      symmetry. change (set_del x (ino T') ≡ₚ ino T'). by rewrite set_del_notin.
    + rewrite HT'. by rewrite set_del_notin.
  - rewrite subtree_at_zfind !replaceable_map. by eapply removed_exact.
Qed.
Print Assumptions C25_removal_partial.
(** Histories are right as long as every value removed is replaceable when it is removed. *)
Theorem C25_histories_partial os : removals_replaceable CBST os -> behaves_as_set CBST os.
Proof.
  intros H. destruct (bst_replaceable_run os tst0 Nil rep0) as (rs & s & T & E & HR & HA & HN); [constructor|done|].
  exists rs, s, (bin_map snd T). split_and!; try done; [by apply rep_shape|]. by rewrite inorder_pays.
Qed.
Print Assumptions C25_histories_partial.
(** Both sides of the equivalence occur; 20 is replaceable in 10, 20, 40, 30 and 10 is not. *)
Example C25_example : exists rs s t,
  history CBST (inserts [Fin 10; Fin 20; Fin 40; Fin 30]) = Some (rs, s) /\ shape s = Some t /\
  map p_val (inorder t) = [Fin 10; Fin 20; Fin 30; Fin 40] /\
  replaceable (subtree_at (Fin 20) (bin_map p_val t)) /\ ~ replaceable (subtree_at (Fin 10) (bin_map p_val t)).
Proof. eexists _, _, _. split_and!; [by vm_compute..| |]; vm_compute; tauto. Qed.
(** Removing an absent value changes nothing. *)
Theorem C25_absent_value os rs s t x :
  history CBST os = Some (rs, s) -> shape s = Some t -> x ∉ map p_val (inorder t) ->
  exists s', call CBST (TRemove (PNum x)) s = Some (OUnit true, s') /\ shape s' = Some t.
Proof.
  intros Hh Ht Hx. destruct (bst_bag_steps os tst0 Nil rep0) as (rs' & s' & T & E & HR & _).
  unfold history in Hh. rewrite Hh in E. injection E as <- <-. rewrite (rep_shape _ _ HR) in Ht. injection Ht as <-.
  rewrite inorder_pays in Hx. destruct (bst_remove_run s T x HR) as (s' & T' & E & HR' & _ & HT').
  destruct (found x T) eqn:Ef; [by apply found_elem in Ef|]. rewrite (HT' eq_refl) in HR'.
  exists s'. split; [|by apply rep_shape]. apply call_ok. cbn [exec]. by rewrite (bind_ok _ _ _ _ _ E).
Qed.
Print Assumptions C25_absent_value.
