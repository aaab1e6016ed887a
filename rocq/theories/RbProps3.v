(** * Insertion into a RedBlackTree: exactly when it keeps the tree valid (C33, C34, continued)

    Specification: BstSpec.v, RbSpec.v, RbInsSpec.v.  Model: BstModel.v, BalModel.v.  Proofs:
    RbThm.v, RbIns.v, RbDel.v - RbDel5.v. *)
From Coq Require Import Sorted.
From iris.proofmode Require Import proofmode.
From Verif Require Import Base NumOrd TreeModel TreeSpec BstModel BalModel BstSpec RbSpec RbInsSpec BstRules BstZip BstPure BstThm AvlThm RbThm RbDel3 RbDel5 RbProps2 RbIns.

Lemma rbt_dec t : (exists n, rbt t n) \/ brk t.
Proof.
  induction t as [|l [[a Ha]|Hl] ix u [[b Hb]|Hu]].
  - left. by exists 0.
  - destruct (decide (a = b)) as [->|Hab].
    + destruct (decide (col ix = Red -> colr l = Black /\ colr u = Black)) as [Hc|Hc].
      * left. exists (bump (col ix) b), b. by split_and!.
      * right. intros N (m & _ & _ & _ & H). done.
    + right. intros N (m & _ & H1 & H2 & _). apply Hab. by rewrite (rbt_unique _ _ _ Ha H1) (rbt_unique _ _ _ Hb H2).
  - right. apply brk2_brk. by right.
  - right. apply brk2_brk. by left.
  - right. apply brk2_brk. by left.
Qed.
Lemma rbok_dec T : rbok T \/ ~ rbok T.
Proof. destruct (colr T) eqn:E; [|by right; intros [? _]; congruence]. destruct (rbt_dec T) as [H|H]; [by left|right]. by intros [_ [N ?%H]]. Qed.
(** One call on a valid tree. *)
Lemma exact_step s T o : rep s T -> increasing (ino T) -> rbok T ->
  exists r s', call CRB o s = Some (r, s') /\
   ((keeps_valid o (bin_map snd T) /\ exists T', rep s' T' /\ rbok T' /\ answer CRB o (ino T) r /\ ino T' = next CRB o (ino T)) \/
    (~ keeps_valid o (bin_map snd T) /\ (~ answer CRB o (ino T) r \/ exists T', rep s' T' /\ ~ rbok T'))).
Proof.
  intros H Hi Hk.
  assert ((exists x p, o = TInsert (PNum x) p) \/ (exists x, o = TRemove (PNum x)) \/ (removals_allowed o (bin_map snd T) /\ keeps_valid o (bin_map snd T))) as [(x & p & ->)|[(x & ->)|[Hal Hkv]]].
  { destruct o as [[]|[]| | | | | | | | | | | | |]; try (right; right; done); [left; eauto|right; left; eauto]. }
  - destruct (rb_insert_exact s T x p H Hi Hk) as (s' & T' & E & HR & HI & HB & Hb). exists (OUnit (bool_decide (x ∈ ino T))), s'.
    split; [apply call_ok; cbn [exec]; by rewrite (bind_ok _ _ _ _ _ E)|]. destruct (rbok_dec T') as [Hk'|Hk']; [left|right].
    + split; [by apply Hb|]. exists T'. by split_and!.
    + split; [by intros ?%Hb|]. right. by exists T'.
  - destruct (rb_remove_exact s T x H Hi Hk) as [(s' & T' & E & HR & HC & HI & Hb)|(Hno & _ & Hc)].
    + exists (OUnit (bool_decide (x ∉ ino T))), s'. split; [apply call_ok; cbn [exec]; by rewrite (bind_ok _ _ _ _ _ E)|]. destruct (rbok_dec T') as [Hk'|Hk']; [left|right].
      * split; [by apply Hb|]. exists T'. by split_and!.
      * split; [by intros ?%Hb|]. right. by exists T'.
    + assert (exists e s', tree_remove CRB (PNum x) s = Exc e s') as (e & s' & E). { destruct Hc as [(_ & s' & E)|(_ & s' & E & _)]; eauto. }
      exists (ORaise e), s'. split; [unfold call; cbn [exec]; unfold bind; by rewrite E|]. right. split; [done|]. by left.
  - destruct (allowed_step s T o H Hi Hk Hal) as (r & s' & T' & E & HR & Hk' & HA & HN). exists r, s'. split; [done|]. left. split; [done|]. by exists T'.
Qed.
Lemma valid_run os : forall s T, rep s T -> increasing (ino T) -> rbok T ->
  (forall pre o post rs s' t, os = pre ++ o :: post -> calls CRB pre s = Some (rs, s') -> shape s' = Some t -> keeps_valid o t) ->
  exists rs s' T', calls CRB os s = Some (rs, s') /\ rep s' T' /\ rbok T' /\ answers CRB os (ino T) rs /\ ino T' = set_after CRB os (ino T).
Proof.
  induction os as [|o os IH]; intros s T H Hinc Hk HB; [by exists [], s, T|].
  destruct (exact_step s T o H Hinc Hk) as (r & s1 & E & [(_ & T1 & HR & Hk1 & HA1 & HN)|[Hno _]]).
  2:{ exfalso. apply Hno. eapply (HB [] o os); try done. by apply rep_shape. }
  destruct (IH s1 T1 HR) as (rs & s2 & T2 & E2 & HR2 & Hk2 & HA2 & HN2); [|done| |].
  - rewrite HN. by apply next_inc.
  - intros pre o' post rs s' t -> Ec Ht. eapply (HB (o :: pre) o' post); try done. cbn [calls]. by rewrite E Ec.
  - rewrite HN in HA2, HN2. exists (r :: rs), s2, T2. cbn [calls]. rewrite E E2. by split_and!.
Qed.
Lemma calls_snoc c os o s rs s1 r s2 : calls c os s = Some (rs, s1) -> call c o s1 = Some (r, s2) -> calls c (os ++ [o]) s = Some (rs ++ [r], s2).
Proof.
  revert s rs. induction os as [|a os IH]; intros s rs E1 E2; cbn in *; [injection E1 as <- <-; by rewrite E2|].
  destruct (call c a s) as [[r1 s']|]; [|done]. destruct (calls c os s') as [[rs' s'']|] eqn:E; [|done]. injection E1 as <- <-. by rewrite (IH s' rs').
Qed.
Lemma answers_snoc c os o l rs r : answers c os l rs -> answers c (os ++ [o]) l (rs ++ [r]) -> answer c o (set_after c os l) r.
Proof. revert l rs. induction os as [|a os IH]; intros l [|r1 rs]; cbn; try done; [naive_solver|]. intros [_ H1] [_ H2]. by eapply IH. Qed.
(** Valid prefixes are represented. *)
Lemma valid_rep os : valid_throughout os -> exists rs s T, history CRB os = Some (rs, s) /\ rep s T /\ rbok T /\ ino T = set_after CRB os [] /\ answers CRB os [] rs.
Proof.
  induction os as [|o os IH] using rev_ind; intros HV.
  { exists [], tst0, Nil. split; [done|]. split; [apply rep0|]. split; [by split; [|exists 0]|]. by split. }
  destruct IH as (rs & s & T & E & HR & Hk & HI & HA). { intros pre post ->. apply (HV pre (post ++ [o])). by rewrite app_assoc. }
  assert (increasing (ino T)) as Hi. { rewrite HI. apply set_after_inc. constructor. }
  destruct (HV (os ++ [o]) [] ltac:(by rewrite app_nil_r)) as (rs2 & s2 & t2 & E2 & Ht2 & HA2 & HI2 & Hk2).
  destruct (exact_step s T o HR Hi Hk) as (r & s1 & Ec & HX). unfold history in *. rewrite (calls_snoc _ _ _ _ _ _ _ _ E Ec) in E2. injection E2 as <- <-.
  destruct HX as [(_ & T' & HR' & Hk' & HA' & HN')|(_ & [Hna|(T' & HR' & Hnk)])].
  - exists (rs ++ [r]), s1, T'. split; [by apply (calls_snoc _ _ _ _ _ s)|]. split_and!; try done. by rewrite set_after_app -HI.
  - exfalso. apply Hna. rewrite HI. by eapply answers_snoc.
  - exfalso. apply Hnk, rbok_spec. rewrite (rep_shape _ _ HR') in Ht2. by injection Ht2 as <-.
Qed.

(** ** C33 *)
(** Inserting into a valid tree: always the right answer and the right values, and the tree is
    valid afterwards if and only if [mended] says so. *)
Theorem C33_insertion_keeps_valid_iff os rs s t x p : removals_fit_throughout os ->
  history CRB os = Some (rs, s) -> shape s = Some t -> red_black t ->
  exists s' t', call CRB (TInsert (PNum x) p) s = Some (OUnit (bool_decide (x ∈ map p_val (inorder t))), s') /\ shape s' = Some t' /\
    map p_val (inorder t') = set_add x (map p_val (inorder t)) /\ (red_black t' <-> mended x t).
Proof.
  intros H Hh Ht Hk. destruct (fit_history os H) as [_ HH]. destruct (HH rs s t Hh Ht) as (T & HR & HB & -> & _ & Hi).
  apply rbok_spec in Hk. destruct (rb_insert_exact s T x p HR Hi Hk) as (s' & T' & E & HR' & HI & HC & Hb).
  exists s', (bin_map snd T'). rewrite !inorder_pays. split; [apply call_ok; cbn [exec]; by rewrite (bind_ok _ _ _ _ _ E)|].
  split; [by apply rep_shape|]. split; [done|]. by rewrite -Hb rbok_spec.
Qed.
Print Assumptions C33_insertion_keeps_valid_iff.
(** The condition covers the insertions that do not turn at an inner red node. *)
Theorem C33_straight_is_mended x t : straight x None t -> mended x t.
Proof. destruct (tag_tree t) as [T ->]. apply straight_mended. Qed.
Print Assumptions C33_straight_is_mended.
(** Whole histories, of insertions and removals: all calls are right, and the tree stays
    valid, if and only if every call is one that the code can handle. *)
Theorem C33_histories_iff os : valid_throughout os <-> keeps_valid_throughout os.
Proof.
  split.
  - intros HV pre o post rs s t -> Hh Ht. destruct (valid_rep pre) as (rs1 & s1 & T & E & HR & Hk & HI & HA).
    { intros p q ->. apply (HV p (q ++ o :: post)). by rewrite app_assoc. }
    rewrite E in Hh. injection Hh as <- <-. rewrite (rep_shape _ _ HR) in Ht. injection Ht as <-.
    assert (increasing (ino T)) as Hi. { rewrite HI. apply set_after_inc. constructor. }
    destruct (HV (pre ++ [o]) post ltac:(by rewrite -app_assoc)) as (rs2 & s2 & t2 & E2 & Ht2 & HA2 & HI2 & Hk2).
    destruct (exact_step s1 T o HR Hi Hk) as (r & s' & Ec & HX). unfold history in *. rewrite (calls_snoc _ _ _ _ _ _ _ _ E Ec) in E2. injection E2 as <- <-.
    destruct HX as [[HX _]|(_ & [Hna|(T' & HR' & Hnk)])]; [done| |].
    + exfalso. apply Hna. rewrite HI. by eapply answers_snoc.
    + exfalso. apply Hnk, rbok_spec. rewrite (rep_shape _ _ HR') in Ht2. by injection Ht2 as <-.
  - intros HK pre post ->. destruct (valid_run pre tst0 Nil rep0) as (rs & s & T & E & HR & Hk & HA & HN); [constructor|by split; [|exists 0]| |].
    { intros pr o po rs s' t -> Ec Ht. eapply (HK pr o (po ++ post)); [by rewrite -app_assoc|exact Ec|done]. }
    exists rs, s, (bin_map snd T). split_and!; try done; [by apply rep_shape|by rewrite inorder_pays|by apply rbok_spec].
Qed.
Print Assumptions C33_histories_iff.
(** In the tree of 50, 20, 80, 10, 30, 5, 25, 35 the search for 40 turns at the inner red node
    20, and yet the insertion is mended.  Without 25 it is not. *)
Example C33_exact_example : exists rs s t rs' s' t',
  history CRB (inserts (map Fin [50; 20; 80; 10; 30; 5; 25; 35]%Z)) = Some (rs, s) /\ shape s = Some t /\
  red_black t /\ mended (Fin 40) t /\ ~ straight (Fin 40) None t /\
  history CRB (inserts (map Fin [50; 20; 80; 10; 30; 5; 35]%Z)) = Some (rs', s') /\ shape s' = Some t' /\
  red_black t' /\ ~ mended (Fin 40) t'.
Proof.
  eexists _, _, _, _, _, _. split; [by vm_compute|]. split; [by vm_compute|]. split.
  { split_and!; [done|vm_compute; naive_solver|]. exists 2. vm_compute. naive_solver eauto. }
  split; [vm_compute; naive_solver|]. split; [vm_compute; naive_solver|]. split; [by vm_compute|]. split; [by vm_compute|]. split.
  { split_and!; [done|vm_compute; naive_solver|]. exists 2. vm_compute. naive_solver eauto. }
  vm_compute; naive_solver.
Qed.
(** A history of insertions and removals that the code gets right throughout. *)
Example C33_histories_example : keeps_valid_throughout (inserts (map Fin [2; 1; 3; 4]%Z) ++ [TRemove (PNum (Fin 1)); TRemove (PNum (Fin 2))]).
Proof.
  intros pre o post rs s t E Hh Ht.
  do 6 (destruct pre as [|? pre]; [cbn in E; injection E as <- _; vm_compute in Hh; injection Hh as <- <-; vm_compute in Ht; injection Ht as <-; vm_compute; naive_solver|]; cbn in E; injection E as <- E).
  clear Hh. by destruct pre.
Qed.
