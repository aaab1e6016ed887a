(** * Properties of Treap (C29, C47)

    Specification: BstSpec.v.  Model: BstModel.v, BalModel.v.  Proofs: BstThm.v, TreapThm.v. *)
From Coq Require Import Sorted.
From iris.proofmode Require Import proofmode.
From Verif Require Import Base NumOrd TreeModel TreeSpec BstModel BalModel BstSpec BstRules BstZip BstPure BstThm TreapThm.

Lemma treap_history b os : Forall (treap_pre b) os ->
  behaves_as_set CTreap os /\
  forall rs s t, history CTreap os = Some (rs, s) -> shape s = Some t ->
    heap_ordered t /\ pairs_of t ≡ₚ pairs_after os [] /\ map p_val (inorder t) = set_after CTreap os [].
Proof.
  intros H. destruct (treap_run b os tst0 Nil rep0) as (rs & s & T & E & HR & [HH _] & HA & HN & HP); [|constructor|done|].
  { split; [done|]. intros _. constructor. }
  split.
  - exists rs, s, (bin_map snd T). split_and!; try done; [by apply rep_shape|]. by rewrite inorder_pays.
  - intros rs' s' t Hh Ht. unfold history in Hh. rewrite E in Hh. injection Hh as <- <-. rewrite (rep_shape _ _ HR) in Ht. injection Ht as <-.
    split_and!; [by apply heap_ordered_heap|done|]. by rewrite inorder_pays.
Qed.

(** ** C29: a Treap is a set and a heap *)
(** False when negative priorities are given: removal takes a missing child to have
    priority -1, and follows it. *)
Theorem C29_set_refuted :
  exists os, (exists vs, Forall (fun o => exists v p, o = TInsert (PInt v) (Given (PInt p))) vs /\ exists x, os = vs ++ [TRemove (PInt x)]) /\
    ~ behaves_as_set CTreap os.
Proof.
  exists ([TInsert (PInt 2) (Given (PInt 5)); TInsert (PInt 1) (Given (PInt (-2)))] ++ [TRemove (PInt 2)]). split.
  { eexists. split; [|by eexists]. repeat constructor; by eexists _, _. }
  intros (rs & s & t & E & HA & _). vm_compute in E. injection E as <- _. cbn in HA. destruct HA as (_ & _ & HA & _). by vm_compute in HA.
Qed.
Print Assumptions C29_set_refuted.
(** Without removals everything holds, whatever the priorities. *)
Theorem C29_insertions os : no_removals os ->
  behaves_as_set CTreap os /\
  forall rs s t, history CTreap os = Some (rs, s) -> shape s = Some t -> heap_ordered t /\ pairs_of t ≡ₚ pairs_after os [].
Proof. intros H. destruct (treap_history false os H) as [H1 H2]. split; [done|]. intros rs s t Hh Ht. destruct (H2 rs s t Hh Ht) as (? & ? & ?). done. Qed.
Print Assumptions C29_insertions.
(** With priorities above -1 (in particular with the default, random ones) everything holds
    on all histories. *)
Theorem C29_priorities_above_partial os : Forall prio_above os ->
  behaves_as_set CTreap os /\
  forall rs s t, history CTreap os = Some (rs, s) -> shape s = Some t -> heap_ordered t /\ pairs_of t ≡ₚ pairs_after os [].
Proof. intros H. destruct (treap_history true os H) as [H1 H2]. split; [done|]. intros rs s t Hh Ht. destruct (H2 rs s t Hh Ht) as (? & ? & ?). done. Qed.
Print Assumptions C29_priorities_above_partial.
Theorem C29_after_inserting vs : after_inserting CTreap vs.
Proof.
  apply behaves_after_inserting. intros x. apply C29_insertions. unfold no_removals. rewrite Forall_app. split.
  - apply Forall_map, Forall_true. done.
  - repeat constructor.
Qed.
Print Assumptions C29_after_inserting.
Definition C29_ops : list top :=
  [TInsert (PInt 5) (Drawn 3); TInsert (PInt 2) (Drawn 9); TInsert (PInt 8) (Drawn 4); TInsert (PInt 6) (Given (PInt 7));
   TRemove (PInt 2); TInsert (PInt 2) (Drawn 1); TRemove (PInt 7)].
Example C29_example : Forall prio_above C29_ops /\ exists rs s t, history CTreap C29_ops = Some (rs, s) /\ shape s = Some t /\
  rs = [OUnit false; OUnit false; OUnit false; OUnit false; OUnit false; OUnit false; OUnit true] /\
  bin_map p_val t = Bin (Bin (Bin Nil (Fin 2) Nil) (Fin 5) Nil) (Fin 6) (Bin Nil (Fin 8) Nil).
Proof. split; [repeat constructor|]. eexists _, _, _. split_and!; by vm_compute. Qed.

(** ** C47: the shape does not depend on the history *)
Definition value_prio (x : pay) : num * num := (p_val x, p_prio x).
Theorem C47_history_independence os1 os2 rs1 rs2 s1 s2 t1 t2 :
  Forall prio_above os1 -> Forall prio_above os2 ->
  history CTreap os1 = Some (rs1, s1) -> shape s1 = Some t1 ->
  history CTreap os2 = Some (rs2, s2) -> shape s2 = Some t2 ->
  pairs_after os1 [] ≡ₚ pairs_after os2 [] -> NoDup (map snd (pairs_after os1 [])) ->
  bin_map value_prio t1 = bin_map value_prio t2.
Proof.
  intros H1 H2 E1 S1 E2 S2 HP HN.
  destruct (treap_history true os1 H1) as [_ H1']. destruct (H1' _ _ _ E1 S1) as (O1 & P1 & I1).
  destruct (treap_history true os2 H2) as [_ H2']. destruct (H2' _ _ _ E2 S2) as (O2 & P2 & I2).
  apply treap_unique; try done.
  - rewrite I1. apply set_after_inc. constructor.
  - rewrite I2. apply set_after_inc. constructor.
  - by rewrite P1 P2.
  - by rewrite P1.
Qed.
Print Assumptions C47_history_independence.
Theorem C47_insertions_history_independence os1 os2 rs1 rs2 s1 s2 t1 t2 :
  no_removals os1 -> no_removals os2 ->
  history CTreap os1 = Some (rs1, s1) -> shape s1 = Some t1 ->
  history CTreap os2 = Some (rs2, s2) -> shape s2 = Some t2 ->
  pairs_after os1 [] ≡ₚ pairs_after os2 [] -> NoDup (map snd (pairs_after os1 [])) ->
  bin_map value_prio t1 = bin_map value_prio t2.
Proof.
  intros H1 H2 E1 S1 E2 S2 HP HN.
  destruct (treap_history false os1 H1) as [_ H1']. destruct (H1' _ _ _ E1 S1) as (O1 & P1 & I1).
  destruct (treap_history false os2 H2) as [_ H2']. destruct (H2' _ _ _ E2 S2) as (O2 & P2 & I2).
  apply treap_unique; try done.
  - rewrite I1. apply set_after_inc. constructor.
  - rewrite I2. apply set_after_inc. constructor.
  - by rewrite P1 P2.
  - by rewrite P1.
Qed.
Print Assumptions C47_insertions_history_independence.
Definition C47_ops : list top :=
  [TInsert (PInt 2) (Drawn 1); TInsert (PInt 5) (Drawn 3); TInsert (PInt 6) (Drawn 7); TInsert (PInt 8) (Drawn 4)].
Example C47_example : Forall prio_above C47_ops /\ pairs_after C29_ops [] ≡ₚ pairs_after C47_ops [] /\ NoDup (map snd (pairs_after C29_ops [])).
Proof.
  split; [repeat constructor|]. split.
  - apply NoDup_Permutation; [refine (bool_decide_unpack _ _); by vm_compute..|]. intros y.
    let l := eval vm_compute in (pairs_after C29_ops []) in change (pairs_after C29_ops []) with l.
    let l := eval vm_compute in (pairs_after C47_ops []) in change (pairs_after C47_ops []) with l.
    rewrite !elem_of_cons. tauto.
  - refine (bool_decide_unpack _ _). by vm_compute.
Qed.
