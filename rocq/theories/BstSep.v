(** * An affine separation logic for the node memory of BstModel.v

    Proof machinery only (no code is modelled here): predicates over finite maps from
    locations to nodes form a bunched logic, so Iris' proof mode can be used. *)
From iris.bi Require Import interface.
From iris.proofmode Require Import proofmode.
From stdpp Require Import gmap.
From Verif Require Import Base TreeModel BstModel.

Notation mem := (gmap nat cell).

Record hprop := HProp {
  hp_holds :> mem -> Prop;
  hp_mono (h h' : mem) : h ⊆ h' -> hp_holds h -> hp_holds h' }.
Add Printing Constructor hprop.

Section ofe.
  Inductive hprop_equiv' (P Q : hprop) : Prop := { hprop_in_equiv : forall h, P h <-> Q h }.
  Local Instance hprop_equiv : Equiv hprop := hprop_equiv'.
  Local Instance hprop_equivalence : Equivalence (≡@{hprop}).
  Proof.
    split; repeat destruct 1; constructor; naive_solver.
  Qed.
  Canonical Structure hpropO := discreteO hprop.
End ofe.

Inductive hp_entails (P Q : hprop) : Prop := { hp_in_entails : forall h, P h -> Q h }.

Program Definition hp_pure (φ : Prop) : hprop := HProp (fun _ => φ) _.
Next Obligation. done. Qed.
Definition hp_emp : hprop := hp_pure True.
Program Definition hp_and (P Q : hprop) : hprop := HProp (fun h => P h /\ Q h) _.
Next Obligation. intros P Q h h' ? [? ?]. split; eapply hp_mono; eauto. Qed.
Program Definition hp_or (P Q : hprop) : hprop := HProp (fun h => P h \/ Q h) _.
Next Obligation. intros P Q h h' ? [? | ?]; [left|right]; eapply hp_mono; eauto. Qed.
Program Definition hp_impl (P Q : hprop) : hprop := HProp (fun h => forall h', h ⊆ h' -> P h' -> Q h') _.
Next Obligation. intros P Q h h' ? HPQ h'' ? ?. apply HPQ; [by etrans|done]. Qed.
Program Definition hp_forall {A} (Φ : A -> hprop) : hprop := HProp (fun h => forall x, Φ x h) _.
Next Obligation. intros A Φ h h' ? H x. eapply hp_mono; eauto. Qed.
Program Definition hp_exist {A} (Φ : A -> hprop) : hprop := HProp (fun h => exists x, Φ x h) _.
Next Obligation. intros A Φ h h' ? [x H]. exists x. eapply hp_mono; eauto. Qed.
Program Definition hp_sep (P Q : hprop) : hprop :=
  HProp (fun h => exists h1 h2, h1 ##ₘ h2 /\ h1 ∪ h2 ⊆ h /\ P h1 /\ Q h2) _.
Next Obligation. intros P Q h h' ? (h1 & h2 & ? & ? & ? & ?). exists h1, h2. split_and!; try done. by etrans. Qed.
Program Definition hp_wand (P Q : hprop) : hprop :=
  HProp (fun h => forall h', h ##ₘ h' -> P h' -> Q (h ∪ h')) _.
Next Obligation.
  intros P Q h h2 Hsub HPQ h' Hd HP. eapply (hp_mono _ (h ∪ h')).
  - by apply map_union_mono_r.
  - apply HPQ; [|done]. by eapply map_disjoint_weaken_l.
Qed.
Program Definition hp_persistently (P : hprop) : hprop := HProp (fun _ => P ∅) _.
Next Obligation. done. Qed.

Section mixins.
  Lemma hp_bi_mixin : BiMixin hp_entails hp_emp hp_pure hp_and hp_or hp_impl
    (@hp_forall) (@hp_exist) hp_sep hp_wand hp_persistently.
  Proof.
    split.
    - split; [by constructor|]. intros P Q R [H1] [H2]. constructor. eauto.
    - intros P Q. split.
      + intros [H]. split; constructor; intros h; apply H.
      + intros [[H1] [H2]]. constructor. split; eauto.
    - intros n φ1 φ2 H. constructor. intros. cbn. exact H.
    - intros n P1 P2 [H1] Q1 Q2 [H2]. constructor. intros h. cbn. by rewrite H1 H2.
    - intros n P1 P2 [H1] Q1 Q2 [H2]. constructor. intros h. cbn. by rewrite H1 H2.
    - intros n P1 P2 [H1] Q1 Q2 [H2]. constructor. intros h. cbn. split; intros H h' Hs HP.
      + apply H2, H; [done|]. by apply H1.
      + apply H2, H; [done|]. by apply H1.
    - intros A n Φ1 Φ2 H. constructor. intros h. cbn. split; intros H' x; apply (H x); apply H'.
    - intros A n Φ1 Φ2 H. constructor. intros h. cbn. split; intros [x H']; exists x; apply (H x); apply H'.
    - intros n P1 P2 [H1] Q1 Q2 [H2]. constructor. intros h. cbn.
      split; intros (h1 & h2 & ? & ? & ? & ?); exists h1, h2; split_and!; try done; (by apply H1) || (by apply H2).
    - intros n P1 P2 [H1] Q1 Q2 [H2]. constructor. intros h. cbn.
      split; intros H h' Hd HP; apply H2, H; try done; by apply H1.
    - intros n P1 P2 [H1]. constructor. intros h. apply H1.
    - intros φ P H. constructor. done.
    - intros φ P H. constructor. intros h Hφ. by apply (H Hφ).
    - intros P Q. constructor. by intros h [? ?].
    - intros P Q. constructor. by intros h [? ?].
    - intros P Q R [H1] [H2]. constructor. intros h ?. split; eauto.
    - intros P Q. constructor. by left.
    - intros P Q. constructor. by right.
    - intros P Q R [H1] [H2]. constructor. intros h [? | ?]; eauto.
    - intros P Q R [H]. constructor. intros h HP h' Hs HQ. apply H. split; [|done]. by eapply hp_mono.
    - intros P Q R [H]. constructor. intros h [HP HQ]. by apply (H h HP h).
    - intros A P Ψ H. constructor. intros h HP a. by apply (H a).
    - intros A Ψ a. constructor. intros h H. apply H.
    - intros A Ψ a. constructor. intros h H. by exists a.
    - intros A Φ Q H. constructor. intros h [a Ha]. by apply (H a).
    - intros P P' Q Q' [H1] [H2]. constructor. intros h (h1 & h2 & ? & ? & ? & ?).
      exists h1, h2. split_and!; eauto.
    - intros P. constructor. intros h HP. exists ∅, h. split_and!; try done.
      + apply map_disjoint_empty_l.
      + by rewrite (left_id ∅ (∪)).
    - intros P. constructor. intros h (h1 & h2 & Hd & Hs & _ & HP).
      eapply hp_mono; [|done]. etrans; [|done]. by apply map_union_subseteq_r.
    - intros P Q. constructor. intros h (h1 & h2 & Hd & Hs & HP & HQ).
      exists h2, h1. split_and!; try done. rewrite map_union_comm; done.
    - intros P Q R. constructor. intros h (h12 & h3 & Hd & Hs & (h1 & h2 & Hd' & Hs' & HP & HQ) & HR).
      assert (Hd3 : h1 ∪ h2 ##ₘ h3) by (eapply map_disjoint_weaken_l; eauto).
      apply map_disjoint_union_l in Hd3 as [Hd1 Hd2].
      exists h1, (h2 ∪ h3). split_and!; try done.
      + by apply map_disjoint_union_r.
      + rewrite (assoc_L (∪)). etrans; [|done]. by apply map_union_mono_r.
      + exists h2, h3. split_and!; done.
    - intros P Q R [H]. constructor. intros h HP h' Hd HQ. apply H. exists h, h'. done.
    - intros P Q R [H]. constructor. intros h (h1 & h2 & Hd & Hs & HP & HQ).
      eapply hp_mono; [done|]. by apply H.
    - intros P Q [H]. constructor. intros h. apply H.
    - intros P. constructor. done.
    - constructor. done.
    - intros P Q. constructor. intros h [H1 H2]. split; done.
    - intros A Ψ. constructor. intros h [x H]. by exists x.
    - intros P Q. constructor. intros h (h1 & h2 & Hd & Hs & HP & HQ). exact HP.
    - intros P Q. constructor. intros h [HP HQ]. exists ∅, h. split_and!; try done.
      + apply map_disjoint_empty_l.
      + by rewrite (left_id ∅ (∪)).
  Qed.
  Lemma hp_bi_later_mixin :
    BiLaterMixin hp_entails hp_pure hp_or hp_impl (@hp_forall) (@hp_exist) hp_sep hp_persistently id.
  Proof. eapply bi_later_mixin_id; [done|apply hp_bi_mixin]. Qed.
End mixins.

Canonical Structure hpropI : bi :=
  {| bi_ofe_mixin := ofe_mixin_of hprop;
     bi_bi_mixin := hp_bi_mixin; bi_bi_later_mixin := hp_bi_later_mixin |}.
Global Instance hp_pure_forall : BiPureForall hpropI.
Proof. constructor. done. Qed.
Global Instance hp_affine : BiAffine hpropI.
Proof. intros P. constructor. done. Qed.
