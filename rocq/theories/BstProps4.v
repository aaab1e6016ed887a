(** * C25 for whole histories: exactly which histories of a BST behave as a set.

    Specification: BstSpec.v. *)
From Coq Require Import Sorted.
From iris.proofmode Require Import proofmode.
From Verif Require Import Base NumOrd TreeModel TreeSpec BstModel BalModel BstSpec BstZip BstPure BstThm BstProps.

(** The history answers like a set after every call, not only in the end. *)
Definition set_throughout (c : tcls) (os : list top) : Prop :=
  forall pre post, os = pre ++ post -> behaves_as_set c pre.

Lemma run_snoc c os o s rs s1 r s2 : calls c os s = Some (rs, s1) -> call c o s1 = Some (r, s2) -> calls c (os ++ [o]) s = Some (rs ++ [r], s2).
Proof.
  revert s rs. induction os as [|a os IH]; intros s rs E1 E2; cbn in *; [injection E1 as <- <-; by rewrite E2|].
  destruct (call c a s) as [[r1 s']|]; [|done]. destruct (calls c os s') as [[rs' s'']|] eqn:E; [|done]. injection E1 as <- <-. by rewrite (IH s' rs').
Qed.
(** A history behaves as a set after each of its calls if and only if every value removed
    in it is replaceable at the time: below the neighbour that replaces it there is only
    a single branch. *)
Theorem C25_histories_iff os : set_throughout CBST os <-> removals_replaceable CBST os.
Proof.
  split.
  - intros HS pre x post rs s t E Hh Ht.
    destruct (HS pre (TRemove (PNum x) :: post) E) as (rs0 & s0 & t0 & E0 & _ & Ht0 & Hi0). rewrite Hh in E0. injection E0 as <- <-.
    rewrite Ht in Ht0. injection Ht0 as <-.
    destruct (C25_removal_partial pre rs s t x _ Hh Ht eq_refl) as (s' & t' & Ec & Ht' & _ & Hiff).
    { rewrite Hi0. apply set_after_inc. constructor. }
    apply Hiff. destruct (HS (pre ++ [TRemove (PNum x)]) post) as (rs1 & s1 & t1 & E1 & _ & Ht1 & Hi1); [by rewrite -app_assoc|].
    unfold history in E1, Hh. rewrite (run_snoc _ _ _ _ _ _ _ _ Hh Ec) in E1. injection E1 as <- <-. rewrite Ht' in Ht1. injection Ht1 as <-.
    rewrite Hi1 set_after_app. cbn [set_after next]. by rewrite Hi0.
  - intros HR pre post ->. apply C25_histories_partial. intros p x q rs s t -> Hh Ht. eapply (HR p x (q ++ post)); [|done|done]. by rewrite -app_assoc.
Qed.
Print Assumptions C25_histories_iff.
(** A history that satisfies both sides, and one that satisfies neither. *)
Example C25_iff_example :
  removals_replaceable CBST (inserts (map Fin [10; 20; 40; 30]%Z) ++ [TRemove (PInt 20)]) /\
  ~ removals_replaceable CBST (inserts (map Fin [10; 20; 40; 30]%Z) ++ [TRemove (PInt 10)]).
Proof.
  split.
  - intros pre x post rs s t E Hh Ht.
    assert (pre = inserts (map Fin [10; 20; 40; 30]%Z) /\ x = Fin 20) as [-> ->].
    { destruct post as [|o post _] using rev_ind.
      - apply app_inj_tail in E as [<- [= <-]]. split; reflexivity.
      - exfalso. rewrite app_comm_cons app_assoc in E. apply app_inj_tail in E as [E _].
        assert (no_removals (inserts (map Fin [10; 20; 40; 30]%Z))) as HF by repeat constructor. rewrite E in HF.
        apply Forall_app in HF as [_ HF]. by apply Forall_cons in HF as [HF _]. }
    vm_compute in Hh. injection Hh as <- <-. vm_compute in Ht. injection Ht as <-. vm_compute. tauto.
  - intros HR. assert (exists rs s t, history CBST (inserts (map Fin [10; 20; 40; 30]%Z)) = Some (rs, s) /\ shape s = Some t /\
      ~ replaceable (subtree_at (Fin 10) (bin_map p_val t))) as (rs & s & t & Hh & Ht & Hn).
    { eexists _, _, _. split; [vm_compute; reflexivity|]. split; [vm_compute; reflexivity|]. vm_compute. tauto. }
    apply Hn. by eapply (HR _ (Fin 10) []).
Qed.
