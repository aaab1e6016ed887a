(** * C28, continued: removals from an AVL tree that is no longer balanced *)
From Verif Require Import Base NumOrd TreeModel TreeSpec BstModel BalModel BstSpec BstSpec2 BstPure BstThm AvlThm AvlThm2.

(** Balance is not needed for a removal to be exact (compare C28_removal_partial): it is
    enough that at most one node hangs below the neighbour that replaces the removed value.
    Then every call is right and the stored heights stay exact. *)
Theorem C28_near_removals_partial os : removals_near CAVL os ->
  behaves_as_set CAVL os /\
  forall rs s t, history CAVL os = Some (rs, s) -> shape s = Some t -> heights_exact t.
Proof.
  intros H. destruct (avl_near_run os tst0 Nil rep0) as (rs & s & T & E & HR & HE & HA & HN); [done|constructor|exact H|].
  split.
  - exists rs, s, (bin_map snd T). split_and!; try done; [by apply rep_shape|]. by rewrite inorder_pays.
  - intros rs' s' t Hh Ht. unfold history in Hh. rewrite E in Hh. injection Hh as <- <-. rewrite (rep_shape _ _ HR) in Ht. injection Ht as <-.
    by apply exact_heights.
Qed.
Print Assumptions C28_near_removals_partial.
(** The condition is weaker than balance. *)
Lemma balanced_near {A} (t : bin A) : height_balanced t -> near t.
Proof.
  assert (forall t : bin A, height_balanced t -> height_balanced (below_leftmost t) /\ (t <> Nil -> nlevels (below_leftmost t) <= 1)) as H1.
  { induction t0 as [|l IHl x r IHr]; [done|]. intros (Hl & Hr & B1 & B2). cbn [below_leftmost]. destruct l as [|l1 y l2].
    - cbn in B2. split; [done|]. intros _. lia.
    - destruct (IHl Hl) as [? ?]. split; [done|]. auto. }
  assert (forall t : bin A, height_balanced t -> height_balanced (below_rightmost t) /\ (t <> Nil -> nlevels (below_rightmost t) <= 1)) as H2.
  { induction t0 as [|l IHl x r IHr]; [done|]. intros (Hl & Hr & B1 & B2). cbn [below_rightmost]. destruct r as [|r1 y r2].
    - cbn in B1. split; [done|]. intros _. lia.
    - destruct (IHr Hr) as [? ?]. split; [done|]. auto. }
  assert (forall t : bin A, nlevels t <= 1 -> small t) as HS.
  { intros [|[] ? []]; cbn -[Nat.max]; try done; intros; lia. }
  intros H. destruct t as [|l x [|r1 y r2]]; [done|..]; destruct H as (Hl & Hr & _ & _); cbn [near]; apply HS.
  - destruct l as [|l1 y l2]; [cbn; lia|]. by apply H2.
  - by apply H1.
Qed.
(** 70 leaves the tree of C27 unbalanced; three more removals still meet the condition. *)
Example C28_near_example : exists os rs s t,
  os = inserts (map Fin [50; 20; 60; 10; 30; 70; 5; 40]%Z) ++ [TRemove (PInt 70)] /\
  history CAVL os = Some (rs, s) /\ shape s = Some t /\ ~ height_balanced t /\
  forall x, near (subtree_at x (bin_map p_val t)).
Proof.
  eexists _, _, _, _. split; [done|]. split; [by vm_compute|]. split; [by vm_compute|]. split.
  - vm_compute. intros H. decompose [and] H. lia.
  - intros x. cbn [bin_map p_val]. assert (forall t : bin num, Forall (fun u => near u) (Nil :: (fix subs t := match t with Nil => [] | Bin l _ r => t :: subs l ++ subs r end) t) -> near (subtree_at x t)) as HF.
    { clear. induction t as [|l IHl y r IHr]; intros H; [done|]. apply Forall_cons in H as [H0 H]. apply Forall_cons in H as [H1 H]. apply Forall_app in H as [H2 H3].
      cbn [subtree_at]. destruct (decide (x = y)); [done|]. destruct (num_ltb x y); [apply IHl|apply IHr]; by constructor. }
    apply HF. clear. repeat (apply Forall_cons; split; [by vm_compute|]). vm_compute. repeat constructor.
Qed.
