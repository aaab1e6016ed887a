(** * Properties of RedBlackTree (C32 - C34, C48)

    Specification: BstSpec.v.  Model: BstModel.v, BalModel.v.  Proofs: BstThm.v, RbThm.v. *)
From Coq Require Import Sorted.
From iris.proofmode Require Import proofmode.
From Verif Require Import Base NumOrd TreeModel TreeSpec BstModel BalModel BstSpec BstRules BstZip BstPure BstThm AvlThm RbThm.

Lemma rb_ins_history os : no_removals os ->
  behaves_as_set CRB os /\
  (forall rs s t, history CRB os = Some (rs, s) -> shape s = Some t ->
     exists T, rep s T /\ colr T = Black /\ t = bin_map snd T /\ ino T = set_after CRB os [] /\ increasing (ino T)).
Proof.
  intros H. apply (history_set CRB (fun T => colr T = Black) (fun o _ => is_removal o = false)); [|done|by apply along_all].
  intros s T o HR HB Hi Hr _ _. destruct (rb_ins_step s T o HR Hi HB Hr) as (r & s' & T' & E & HR' & [HB' _] & HA & HN). by exists r, s', T'.
Qed.
Lemma rb_history os : colors_allow_throughout os ->
  behaves_as_set CRB os /\
  (forall rs s t, history CRB os = Some (rs, s) -> shape s = Some t ->
     exists T, rep s T /\ rbok T /\ t = bin_map snd T /\ ino T = set_after CRB os [] /\ increasing (ino T)).
Proof.
  intros H. destruct (rb_run os tst0 Nil rep0) as (rs & s & T & E & HR & Hk & HA & HN); [constructor|by split; [|exists 0]|done|]. split.
  - exists rs, s, (bin_map snd T). split_and!; try done; [by apply rep_shape|]. by rewrite inorder_pays.
  - intros rs' s' t Hh Ht. unfold history in Hh. rewrite E in Hh. injection Hh as <- <-. rewrite (rep_shape _ _ HR) in Ht. injection Ht as <-.
    exists T. split; [done|]. split; [done|]. split_and!; try done. rewrite HN. apply set_after_inc. constructor.
Qed.

(** ** C32: histories without removals *)
Theorem C32_insertions_implement_a_set os : no_removals os -> behaves_as_set CRB os.
Proof. intros H. by apply rb_ins_history. Qed.
Print Assumptions C32_insertions_implement_a_set.
Theorem C32_root_is_black os rs s t : no_removals os ->
  history CRB os = Some (rs, s) -> shape s = Some t -> root_color t = Black.
Proof.
  intros H Hh Ht. destruct (rb_ins_history os H) as [_ HH]. destruct (HH rs s t Hh Ht) as (T & HR & HB & -> & _). by rewrite -colr_root.
Qed.
Print Assumptions C32_root_is_black.
Theorem C32_after_inserting vs : after_inserting CRB vs.
Proof.
  apply behaves_after_inserting. intros x. apply C32_insertions_implement_a_set. unfold no_removals. rewrite Forall_app. split.
  - apply Forall_map, Forall_true. done.
  - repeat constructor.
Qed.
Print Assumptions C32_after_inserting.
(** The example of the documentation: RedBlackTree([13, 8, 17, 1, 11, 15, 25, 6]). *)
Example C32_example : exists rs s t,
  history CRB (inserts (map Fin [13; 8; 17; 1; 11; 15; 25; 6]%Z)) = Some (rs, s) /\ shape s = Some t /\
  bin_map (fun x => (p_val x, p_color x)) t =
    Bin (Bin (Bin Nil (Fin 1, Black) (Bin Nil (Fin 6, Red) Nil)) (Fin 8, Red) (Bin Nil (Fin 11, Black) Nil)) (Fin 13, Black)
        (Bin (Bin Nil (Fin 15, Red) Nil) (Fin 17, Black) (Bin Nil (Fin 25, Red) Nil)).
Proof. eexists _, _, _. split_and!; by vm_compute. Qed.

(** ** C33: the red-black invariants under insertion *)
(** False: eight insertions are enough to get a red node with a red child. *)
Theorem C33_no_red_red_refuted :
  exists vs rs s t, history CRB (inserts vs) = Some (rs, s) /\ shape s = Some t /\ ~ no_red_red t.
Proof.
  exists (map Fin [50; 20; 80; 10; 30; 5; 35; 40]%Z). eexists _, _, _. split; [by vm_compute|]. split; [by vm_compute|].
  vm_compute. naive_solver.
Qed.
Print Assumptions C33_no_red_red_refuted.
(** ... and nodes of unequal black height: *)
Theorem C33_black_height_refuted :
  exists vs rs s t, history CRB (inserts vs) = Some (rs, s) /\ shape s = Some t /\ ~ exists n, has_blacks t n.
Proof.
  exists (map Fin [50; 20; 80; 10; 30; 5; 35; 40]%Z). eexists _, _, _. split; [by vm_compute|]. split; [by vm_compute|].
  vm_compute. intros (n & m & -> & H). naive_solver.
Qed.
Print Assumptions C33_black_height_refuted.
(** True as long as every insertion goes through the inner red nodes without turning. *)
Theorem C33_straight_insertions_partial os rs s t : no_removals os -> colors_allow_throughout os ->
  history CRB os = Some (rs, s) -> shape s = Some t -> red_black t.
Proof.
  intros _ H Hh Ht. destruct (rb_history os H) as [_ HH]. destruct (HH rs s t Hh Ht) as (T & HR & HB & -> & _). by apply rbok_spec.
Qed.
Print Assumptions C33_straight_insertions_partial.
(** In particular when every inserted value is, at that time, at most the minimum or at least
    the maximum: for instance increasing or decreasing sequences. *)
Theorem C33_insertions_at_the_ends_partial os rs s t :
  along CRB (fun o l => is_removal o = false /\ inserts_at_ends o l) os [] ->
  history CRB os = Some (rs, s) -> shape s = Some t -> red_black t /\ nlevels t <= 2 * Nat.log2 (length (inorder t) + 1).
Proof.
  intros H Hh Ht. destruct (history_set CRB rbok (fun o l => is_removal o = false /\ inserts_at_ends o l)) with (os := os) as [_ HH]; [|by split; [|exists 0]|done|].
  - intros s1 T o HR Hk Hi [Hr He] _ _. apply rb_step; try done. by apply ends_straight.
  - destruct (HH rs s t Hh Ht) as (T & HR & Hk & -> & _). apply rbok_spec in Hk. split; [done|by apply rb_height].
Qed.
Print Assumptions C33_insertions_at_the_ends_partial.
Lemma sorted_at_ends vs : StronglySorted (fun a b => num_leb a b = true) vs ->
  forall l, (forall y z, y ∈ l -> z ∈ vs -> num_leb y z = true) ->
  along CRB (fun o l => is_removal o = false /\ inserts_at_ends o l) (inserts vs) l.
Proof.
  induction 1 as [|x vs HS IH HF]; intros l Hl; [done|]. cbn. split.
  - split; [done|]. intros x' p [= <- <-]. right. intros y Hy. apply Hl; [done|]. by left.
  - apply IH. intros y z Hy Hz. cbn in Hy. apply elem_set_add in Hy as [->|Hy].
    + rewrite Forall_forall in HF. by apply HF.
    + apply Hl; [done|]. by right.
Qed.
Theorem C33_increasing_insertions_partial vs rs s t : StronglySorted (fun a b => num_leb a b = true) vs ->
  history CRB (inserts vs) = Some (rs, s) -> shape s = Some t -> red_black t /\ nlevels t <= 2 * Nat.log2 (length (inorder t) + 1).
Proof. intros H. apply C33_insertions_at_the_ends_partial, sorted_at_ends; [done|]. set_solver. Qed.
Print Assumptions C33_increasing_insertions_partial.
(** A single step, from any tree with the invariants that a history of insertions reaches. *)
Theorem C33_one_straight_insertion_partial os rs s t x p : no_removals os ->
  history CRB os = Some (rs, s) -> shape s = Some t -> red_black t -> straight x None t ->
  exists w s' t', call CRB (TInsert (PNum x) p) s = Some (OUnit w, s') /\ shape s' = Some t' /\ red_black t'.
Proof.
  intros H Hh Ht Hk Hs. destruct (rb_ins_history os H) as [_ HH]. destruct (HH rs s t Hh Ht) as (T & HR & HB & -> & _ & Hi).
  apply rbok_spec in Hk. destruct (rb_step s T (TInsert (PNum x) p) HR Hi Hk Hs) as (r & s' & T' & E & HR' & Hk' & HA & _).
  cbn in HA. exists (bool_decide (x ∈ ino T)), s', (bin_map snd T'). rewrite -HA. split_and!; [done|by apply rep_shape|]. by apply rbok_spec.
Qed.
Print Assumptions C33_one_straight_insertion_partial.
Example C33_example : exists rs s t,
  history CRB (inserts (map Fin [13; 8; 17; 1; 11; 15; 25]%Z)) = Some (rs, s) /\ shape s = Some t /\ straight (Fin 6) None t /\ red_black t.
Proof.
  eexists _, _, _. split; [by vm_compute|]. split; [by vm_compute|]. split.
  - vm_compute. naive_solver.
  - split_and!; [done|vm_compute; naive_solver|]. exists 2. vm_compute. naive_solver eauto.
Qed.
Example C33_increasing_example : StronglySorted (fun a b => num_leb a b = true) (map Fin [1; 2; 2; 3; 4; 5; 6; 7; 8]%Z).
Proof. repeat constructor. Qed.

(** ** C34: removal *)
(** False: on the tree of 1, ..., 8, a valid red-black tree, removing 2 fails ... *)
Theorem C34_removal_refuted :
  exists vs rs s t, history CRB (inserts vs) = Some (rs, s) /\ shape s = Some t /\ red_black t /\
  exists x s', x ∈ vs /\ call CRB (TRemove (PNum x)) s = Some (ORaise ValueError, s').
Proof.
  exists (map Fin [1; 2; 3; 4; 5; 6; 7; 8]%Z). eexists _, _, _. split; [by vm_compute|]. split; [by vm_compute|]. split.
  - split_and!; [done|vm_compute; naive_solver|]. exists 2. vm_compute. naive_solver eauto.
  - exists (Fin 2). eexists. split; [set_solver|by vm_compute].
Qed.
Print Assumptions C34_removal_refuted.
(** ... and removing 1 gives a red node with a red child. *)
Theorem C34_invariant_refuted :
  exists vs x rs s t, history CRB (inserts vs ++ [TRemove (PNum x)]) = Some (rs, s) /\ shape s = Some t /\ x ∈ vs /\
  last rs = Some (OUnit false) /\ ~ no_red_red t.
Proof.
  exists (map Fin [1; 2; 3; 4; 5; 6; 7; 8]%Z), (Fin 1). eexists _, _, _. split; [by vm_compute|]. split; [by vm_compute|]. split; [set_solver|].
  split; [done|]. vm_compute. naive_solver.
Qed.
Print Assumptions C34_invariant_refuted.
(** Removals and insertions are right, and keep the invariants, as long as the tree can spare
    a red node: the value is in a red leaf, or its neighbour in order below it is red, or it
    is the only value. *)
Theorem C34_red_removals_partial os : colors_allow_throughout os ->
  behaves_as_set CRB os /\
  forall rs s t, history CRB os = Some (rs, s) -> shape s = Some t -> red_black t /\ nlevels t <= 2 * Nat.log2 (length (inorder t) + 1).
Proof.
  intros H. destruct (rb_history os H) as [HS HH]. split; [done|]. intros rs s t Hh Ht. destruct (HH rs s t Hh Ht) as (T & HR & Hk & -> & _).
  apply rbok_spec in Hk. split; [done|by apply rb_height].
Qed.
Print Assumptions C34_red_removals_partial.
Theorem C34_one_removal_partial os rs s t x : no_removals os ->
  history CRB os = Some (rs, s) -> shape s = Some t -> red_black t -> red_spare (node_at x t) ->
  exists s' t', call CRB (TRemove (PNum x)) s = Some (OUnit (bool_decide (x ∉ map p_val (inorder t))), s') /\ shape s' = Some t' /\
    map p_val (inorder t') = set_del x (map p_val (inorder t)) /\ red_black t'.
Proof.
  intros H Hh Ht Hk Hs. destruct (rb_ins_history os H) as [_ HH]. destruct (HH rs s t Hh Ht) as (T & HR & HB & -> & _ & Hi).
  apply rbok_spec in Hk. destruct (rb_step s T (TRemove (PNum x)) HR Hi Hk (or_introl Hs)) as (r & s' & T' & E & HR' & Hk' & HA & HN).
  exists s', (bin_map snd T'). rewrite !inorder_pays. rewrite E. cbn in HA, HN. rewrite HA. split; [done|]. split; [by apply rep_shape|]. split; [done|]. by apply rbok_spec.
Qed.
Print Assumptions C34_one_removal_partial.
Example C34_example : exists rs s t,
  history CRB (inserts (map Fin [13; 8; 17; 1; 11; 15; 25; 6]%Z)) = Some (rs, s) /\ shape s = Some t /\ red_black t /\
  red_spare (node_at (Fin 13) t) /\ red_spare (node_at (Fin 1) t) /\ red_spare (node_at (Fin 25) t) /\ red_spare (node_at (Fin 17) t).
Proof.
  eexists _, _, _. split; [by vm_compute|]. split; [by vm_compute|]. split.
  - split_and!; [done|vm_compute; naive_solver|]. exists 2. vm_compute. naive_solver eauto.
  - vm_compute. naive_solver.
Qed.

(** ** C48: get_black_height *)
(** False in general, since the invariants do not hold: *)
Theorem C48_black_height_refuted :
  exists vs rs s l x r, history CRB (inserts vs) = Some (rs, s) /\ shape s = Some (Bin l x r) /\
  exists k s' b p n, rb_black_height s = Ok k s' /\ blacks_to_nil (if b : bool then r else l) p = Some n /\ n <> k.
Proof.
  exists (map Fin [50; 20; 80; 10; 30; 5; 35; 40]%Z). eexists _, _, _, _, _. split; [by vm_compute|]. split; [by vm_compute|].
  eexists _, _. 
  first [ exists true, [false]; eexists; split; [by vm_compute|]; split; [by vm_compute|]; done
        | exists true, [true]; eexists; split; [by vm_compute|]; split; [by vm_compute|]; done
        | exists true, [false; false]; eexists; split; [by vm_compute|]; split; [by vm_compute|]; done
        | exists true, [true; true]; eexists; split; [by vm_compute|]; split; [by vm_compute|]; done
        | exists false, [true; true]; eexists; split; [by vm_compute|]; split; [by vm_compute|]; done
        | exists false, [true; false]; eexists; split; [by vm_compute|]; split; [by vm_compute|]; done ].
Qed.
Print Assumptions C48_black_height_refuted.
(** When the invariants hold, it is the number of black nodes on every way from the root to a
    missing child, not counting the root, and counting the missing child. *)
Theorem C48_black_height_partial os rs s l x r : no_removals os \/ colors_allow_throughout os ->
  history CRB os = Some (rs, s) -> shape s = Some (Bin l x r) -> red_black (Bin l x r) ->
  exists k s', rb_black_height s = Ok k s' /\ shape s' = Some (Bin l x r) /\
  forall (b : bool) p n, blacks_to_nil (if b then r else l) p = Some n -> n = k.
Proof.
  intros H Hh Ht Hk.
  assert (exists T, rep s T /\ Bin l x r = bin_map snd T) as (T & HR & ET).
  { destruct H as [H|H].
    - destruct (rb_ins_history os H) as [_ HH]. destruct (HH rs s _ Hh Ht) as (T & HR & _ & E & _). by exists T.
    - destruct (rb_history os H) as [_ HH]. destruct (HH rs s _ Hh Ht) as (T & HR & _ & E & _). by exists T. }
  destruct T as [|l' ix r']; [done|]. destruct (rb_black_height_run s _ l' ix r' HR eq_refl) as (s' & E & HR').
  exists (lblacks l' + 1), s'. split; [done|]. split; [rewrite ET; by apply rep_shape|].
  intros b p n Hp. cbn in ET. injection ET as -> -> ->.
  destruct Hk as (_ & _ & N & Hb). cbn in Hb. destruct Hb as (m & _ & B1 & B2).
  assert (lblacks l' = m) as ->.
  { clear -B1. revert m B1. induction l' as [|l1 IH [i y] l2 _]; intros m; cbn; [done|]. intros (m' & -> & B & _). rewrite (IH _ B). by destruct (p_color y). }
  destruct b; [exact (blacks_all _ _ _ _ B2 Hp)|exact (blacks_all _ _ _ _ B1 Hp)].
Qed.
Print Assumptions C48_black_height_partial.
(** An empty tree has no black height. *)
Theorem C48_empty_partial os rs s : no_removals os -> history CRB os = Some (rs, s) -> shape s = Some Nil ->
  rb_black_height s = Exc AttributeError s.
Proof.
  intros H Hh Ht. destruct (rb_ins_history os H) as [_ HH]. destruct (HH rs s _ Hh Ht) as (T & HR & _ & E & _).
  destruct T; [|done]. unfold rb_black_height, get_root, bind. by rewrite (rep_root _ _ HR).
Qed.
Print Assumptions C48_empty_partial.
Example C48_example : exists rs s s' l x r,
  history CRB (inserts (map Fin [13; 8; 17; 1; 11; 15; 25; 6]%Z)) = Some (rs, s) /\ shape s = Some (Bin l x r) /\
  rb_black_height s = Ok 2 s' /\ blacks_to_nil l [false; false] = Some 2.
Proof. eexists _, _, _, _, _, _. split_and!; by vm_compute. Qed.
