(** * Exactly which removals from a Treap work (C29)

    Specification: BstSpec.v, TreapSpec.v.  Proofs: TreapThm.v, TreapRemThm.v. *)
From Coq Require Import Sorted.
From iris.proofmode Require Import proofmode.
From Verif Require Import Base NumOrd TreeModel TreeSpec BstModel BalModel BstSpec BstRules BstZip BstPure BstThm TreapThm TreapSpec TreapRemThm TreapProps BstProps BstProps4.

Lemma sink_history os : removals_sinkable os -> exists rs s T, history CTreap os = Some (rs, s) /\ rep s T /\ heap T /\
  answers CTreap os [] rs /\ ino T = set_after CTreap os [] /\ pairs T ≡ₚ pairs_after os [].
Proof. intros H. apply (sink_run os tst0 Nil rep0); [done|constructor|exact H]. Qed.

Lemma last_answer c os o l rs r : answers c os l rs -> answers c (os ++ [o]) l (rs ++ [r]) -> answer c o (set_after c os l) r.
Proof.
  revert l rs. induction os as [|a os IH]; intros l rs; destruct rs as [|b rs]; cbn; try done; [tauto|]. intros [_ H1] [_ H2]. by eapply IH.
Qed.

(** Whatever the priorities: as long as the removed values are sinkable when they are
    removed, a Treap is a set and a heap, and every value keeps its priority. *)
Theorem C29_sinkable os : removals_sinkable os ->
  behaves_as_set CTreap os /\
  forall rs s t, history CTreap os = Some (rs, s) -> shape s = Some t -> heap_ordered t /\ pairs_of t ≡ₚ pairs_after os [].
Proof.
  intros H. destruct (sink_history os H) as (rs & s & T & E & HR & HH & HA & HN & HP). split.
  - exists rs, s, (bin_map snd T). split_and!; try done; [by apply rep_shape|]. by rewrite inorder_pays.
  - intros rs' s' t Hh Ht. rewrite E in Hh. injection Hh as <- <-. rewrite (rep_shape _ _ HR) in Ht. injection Ht as <-.
    split; [by apply heap_ordered_heap|done].
Qed.
Print Assumptions C29_sinkable.

(** After such a history, removing a sinkable value (or one that is not there) takes it out
    and nothing else; removing any other value raises AttributeError and takes nothing out. *)
Theorem C29_one_removal os rs s t x : removals_sinkable os -> history CTreap os = Some (rs, s) -> shape s = Some t ->
  (sinkable x t -> exists s' t', call CTreap (TRemove (PNum x)) s = Some (OUnit (bool_decide (x ∉ map p_val (inorder t))), s') /\
     shape s' = Some t' /\ heap_ordered t' /\ pairs_of t' = filter (fun y => y.1 <> x) (pairs_of t)) /\
  (~ sinkable x t -> x ∈ map p_val (inorder t) /\ exists s' t', call CTreap (TRemove (PNum x)) s = Some (ORaise AttributeError, s') /\
     shape s' = Some t' /\ inorder t' = inorder t /\ t_len s' = t_len s).
Proof.
  intros H Hh Ht. destruct (sink_history os H) as (rs' & s0 & T & E & HR & HH & HA & HN & HP).
  rewrite Hh in E. injection E as <- <-. rewrite (rep_shape _ _ HR) in Ht. injection Ht as <-. rewrite inorder_pays.
  assert (increasing (ino T)) as Hi by (rewrite HN; apply set_after_inc; constructor). rewrite sinkable_sks. split.
  - intros Hs. destruct (treap_remove_run s T x HR HH Hs Hi) as (s' & T' & E & HR' & HI & HH' & HPp). exists s', (bin_map snd T'). split_and!.
    + apply call_ok. cbn [exec]. by rewrite (bind_ok _ _ _ _ _ E).
    + by apply rep_shape.
    + by apply heap_ordered_heap.
    + exact HPp.
  - intros Hs. split.
    + destruct (decide (x ∈ ino T)) as [|Hx]; [done|]. exfalso. apply Hs. pose proof (zfind_in x T Hi) as HZ. unfold sks.
      destruct (zfind x T) as [K t]. cbn [snd] in *. destruct t; [done|]. exfalso. by apply Hx, HZ.
    + destruct (treap_remove_stuck s T x HR HH Hs Hi) as (s' & T' & E & HR' & HI). exists s', (bin_map snd T'). split_and!; [|by apply rep_shape|done|].
      * unfold call. cbn [exec]. unfold bind. by rewrite E.
      * rewrite (rep_len _ _ HR) (rep_len _ _ HR'). f_equal. rewrite -!ino_length !ino_pin. by rewrite HI.
Qed.
Print Assumptions C29_one_removal.

(** A history behaves as a set after each of its calls if and only if every value removed in
    it is sinkable at the time. *)
Theorem C29_histories_iff os : set_throughout CTreap os <-> removals_sinkable os.
Proof.
  split.
  - induction os as [|o os IH] using rev_ind; intros HS.
    { intros pre x post rs s t E. by destruct pre. }
    assert (removals_sinkable os) as HR.
    { apply IH. intros pre post ->. apply (HS pre (post ++ [o])). by rewrite -app_assoc. }
    intros pre x post rs s t E Hh Ht. destruct post as [|o' post _] using rev_ind.
    + apply app_inj_tail in E as [-> ->]. destruct (sink_history pre HR) as (rs' & s0 & T & E & HRe & HH & HA & HN & HP).
      rewrite Hh in E. injection E as <- <-. pose proof Ht as Ht'. rewrite (rep_shape _ _ HRe) in Ht'. injection Ht' as <-.
      destruct (C29_one_removal pre rs s _ x HR Hh Ht) as [_ HC]. destruct (sks_dec x T) as [Hs|Hs]; [by apply sinkable_sks|]. exfalso.
      rewrite sinkable_sks in HC. destruct (HC Hs) as (Hx & s' & t' & Ec & _).
      destruct (HS (pre ++ [TRemove (PNum x)]) []) as (rs1 & s1 & t1 & E1 & HA1 & _); [by rewrite app_nil_r|].
      unfold history in E1, Hh. rewrite (run_snoc _ _ _ _ _ _ _ _ Hh Ec) in E1. injection E1 as <- <-.
      destruct (HS pre [TRemove (PNum x)] eq_refl) as (rs0 & s2 & t0 & E0 & HA0 & _). unfold history in E0. rewrite Hh in E0. injection E0 as <- <-.
      pose proof (last_answer _ _ _ _ _ _ HA0 HA1) as HL. cbn in HL. done.
    + rewrite app_comm_cons app_assoc in E. apply app_inj_tail in E as [E _]. by eapply HR.
  - intros HR pre post ->. apply C29_sinkable. intros p x q rs s t -> Hh Ht. eapply (HR p x (q ++ post)); [|done|done]. by rewrite -app_assoc.
Qed.
Print Assumptions C29_histories_iff.

(** A test for [sinkable], for the examples. *)
Definition sinkableb (x : num) (t : bin pay) : bool :=
  match node_at x t with
  | Nil => true
  | Bin l _ r =>
      match last (inorder l) with Some p => num_ltb (Fin (-1)) (p_prio p) | None => true end &&
      match head (inorder r) with Some p => num_leb (Fin (-1)) (p_prio p) | None => true end
  end.
Lemma sinkableb_spec x t : sinkableb x t = true <-> sinkable x t.
Proof.
  unfold sinkableb, sinkable. destruct (node_at x t) as [|l y r]; [done|]. rewrite andb_true_iff.
  destruct (last (inorder l)) as [p|], (head (inorder r)) as [q|]; (split; intros [H1 H2]; split; first [by intros ? [= <-]|by apply H1|by apply H2|done]).
Qed.
(** Priorities of -1 and below: 5 is the root, with 2 and 8 below; 2 has the priority -1 and
    stops the removal of 5, while 8 with the same priority does not. *)
Example C29_sinkable_example :
  let ins (p q : Z) := [TInsert (PInt 5) (Given (PInt 4)); TInsert (PInt 2) (Given (PInt p)); TInsert (PInt 8) (Given (PInt q))] in
  removals_sinkable (ins 1%Z (-1)%Z ++ [TRemove (PInt 5); TRemove (PInt 2)]) /\
  ~ removals_sinkable (ins (-1)%Z 1%Z ++ [TRemove (PInt 5)]) /\
  removals_sinkable (ins (-7)%Z (-9)%Z ++ [TRemove (PInt 8); TRemove (PInt 2); TRemove (PInt 5)]).
Proof.
  cbn zeta. split_and!.
  - intros pre x post rs s t E Hh Ht.
    do 5 (destruct pre as [|? pre]; [cbn in E; first [discriminate E|injection E as <- _; vm_compute in Hh; injection Hh as <- <-; vm_compute in Ht; injection Ht as <-;
      apply sinkableb_spec; by vm_compute]|]; cbn in E; injection E as <- E). clear Hh. by destruct pre.
  - intros HR. assert (exists rs s t, history CTreap [TInsert (PInt 5) (Given (PInt 4)); TInsert (PInt 2) (Given (PInt (-1))); TInsert (PInt 8) (Given (PInt 1))] = Some (rs, s) /\
      shape s = Some t /\ ~ sinkable (Fin 5) t) as (rs & s & t & Hh & Ht & Hn).
    { eexists _, _, _. split; [vm_compute; reflexivity|]. split; [vm_compute; reflexivity|]. rewrite -sinkableb_spec. by vm_compute. }
    apply Hn. by eapply (HR _ (Fin 5) []).
  - intros pre x post rs s t E Hh Ht.
    do 6 (destruct pre as [|? pre]; [cbn in E; first [discriminate E|injection E as <- _; vm_compute in Hh; injection Hh as <- <-; vm_compute in Ht; injection Ht as <-;
      apply sinkableb_spec; by vm_compute]|]; cbn in E; injection E as <- E). clear Hh. by destruct pre.
Qed.
