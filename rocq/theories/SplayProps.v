(** * Properties of SplayTree (C30 - C31)

    Specification: BstSpec.v.  Model: BstModel.v, BalModel.v.  Proofs: BstThm.v, SplayThm.v. *)
From Coq Require Import Sorted.
From iris.proofmode Require Import proofmode.
From Verif Require Import Base NumOrd TreeModel TreeSpec BstModel BalModel BstSpec BstRules BstZip BstPure BstThm AvlThm SplayThm.

Lemma no_removals_replaceable c os : no_removals os -> removals_replaceable c os.
Proof. intros H pre x post rs s t -> _ _. apply Forall_app in H as [_ H]. by apply Forall_cons in H as [H _]. Qed.
Lemma splay_history os : removals_replaceable CSplay os ->
  behaves_as_set CSplay os /\
  forall rs s t, history CSplay os = Some (rs, s) -> shape s = Some t ->
    exists T, rep s T /\ t = bin_map snd T /\ increasing (ino T) /\ ino T = set_after CSplay os [].
Proof.
  intros H. destruct (splay_run os tst0 Nil rep0) as (rs & s & T & E & HR & HA & HN); [constructor|done|]. split.
  - exists rs, s, (bin_map snd T). split_and!; try done; [by apply rep_shape|]. by rewrite inorder_pays.
  - intros rs' s' t Hh Ht. unfold history in Hh. rewrite E in Hh. injection Hh as <- <-. rewrite (rep_shape _ _ HR) in Ht. injection Ht as <-.
    exists T. split_and!; try done. rewrite HN. apply set_after_inc. constructor.
Qed.

(** ** C30: insertion and search *)
(** Every call of every history of insertions, searches and reading calls answers like a set. *)
Theorem C30_insertions_implement_a_set os : no_removals os -> behaves_as_set CSplay os.
Proof. intros H. by apply splay_history, no_removals_replaceable. Qed.
Print Assumptions C30_insertions_implement_a_set.
(** Inserting [x] makes it the root, whether it was there or not. *)
Theorem C30_insert_moves_to_root os rs s t x p : no_removals os ->
  history CSplay os = Some (rs, s) -> shape s = Some t ->
  exists s' t', call CSplay (TInsert (PNum x) p) s = Some (OUnit (bool_decide (x ∈ map p_val (inorder t))), s') /\ shape s' = Some t' /\
    root_value (bin_map p_val t') = Some x /\ map p_val (inorder t') = set_add x (map p_val (inorder t)).
Proof.
  intros H Hh Ht. apply (no_removals_replaceable CSplay) in H. destruct (splay_history os H) as [_ HH]. destruct (HH rs s t Hh Ht) as (T & HR & -> & Hi & _).
  destruct (splay_step s T (TInsert (PNum x) p) HR Hi) as (r & s' & T' & E & HR' & Hro & HA & HN); [done|].
  exists s', (bin_map snd T'). rewrite !inorder_pays. split_and!; [|by apply rep_shape|done|by rewrite HN]. rewrite E. by rewrite HA.
Qed.
Print Assumptions C30_insert_moves_to_root.
(** Searching [x] makes the last node visited the root - [x] itself when it is there - and
    changes nothing else. *)
Theorem C30_search_moves_to_root os rs s t x : no_removals os ->
  history CSplay os = Some (rs, s) -> shape s = Some t -> t <> Nil ->
  exists s' t', call CSplay (TContains (PNum x)) s = Some (OBool (bool_decide (x ∈ map p_val (inorder t))), s') /\ shape s' = Some t' /\
    root_value (bin_map p_val t') = last_visited x (bin_map p_val t) /\
    (x ∈ map p_val (inorder t) -> root_value (bin_map p_val t') = Some x) /\
    map p_val (inorder t') = map p_val (inorder t).
Proof.
  intros H Hh Ht Hn. apply (no_removals_replaceable CSplay) in H. destruct (splay_history os H) as [_ HH]. destruct (HH rs s t Hh Ht) as (T & HR & -> & Hi & _).
  destruct (splay_step s T (TContains (PNum x)) HR Hi) as (r & s' & T' & E & HR' & Hro & HA & HN); [done|].
  exists s', (bin_map snd T'). rewrite !inorder_pays. assert (T <> Nil) as HT by (by intros ->).
  split_and!; [|by apply rep_shape|done| |by rewrite HN].
  - rewrite E HA decide_False //. by rewrite ino_nil.
  - intros Hx. rewrite Hro. unfold vals. rewrite last_visited_zlast //. destruct (zlast_node x T HT) as (l & ix & u & -> & Hb).
    rewrite (found_in _ _ Hi) (bool_decide_eq_true_2 _ Hx) in Hb. apply bool_decide_eq_true in Hb. by rewrite -Hb.
Qed.
Print Assumptions C30_search_moves_to_root.
Theorem C30_after_inserting vs : after_inserting CSplay vs.
Proof.
  apply behaves_after_inserting. intros x. apply C30_insertions_implement_a_set. unfold no_removals. rewrite Forall_app. split.
  - apply Forall_map, Forall_true. done.
  - repeat constructor.
Qed.
Print Assumptions C30_after_inserting.
(** The example of the documentation: SplayTree([2, 5, 4, 6, 3]), then 5 and 50 are searched. *)
Example C30_example : exists rs s t,
  history CSplay (inserts (map Fin [2; 5; 4; 6; 3]%Z) ++ [TContains (PInt 5); TContains (PInt 50)]) = Some (rs, s) /\ shape s = Some t /\
  drop 5 rs = [OBool true; OBool false] /\ last_visited (Fin 50) (Bin (Bin Nil (Fin 3) Nil) (Fin 5) (Bin Nil (Fin 6) Nil)) = Some (Fin 6) /\
  bin_map p_val t = Bin (Bin (Bin (Bin Nil (Fin 2) Nil) (Fin 3) (Bin Nil (Fin 4) Nil)) (Fin 5) Nil) (Fin 6) Nil.
Proof. eexists _, _, _. split_and!; by vm_compute. Qed.

(** ** C31: removal *)
(** False: the removal inherited from [BST] may break the search order. *)
Theorem C31_removal_refuted : exists vs x, ~ behaves_as_set CSplay (inserts vs ++ [TRemove (PNum x)]).
Proof.
  exists (map Fin [4; 9; 11; 5; 1]%Z), (Fin 1). intros (rs & s & t & E & _ & Hs & Hi).
  assert (option_map (fun t => map p_val (inorder t)) (shape s) = Some (map p_val (inorder t))) as H by by rewrite Hs.
  revert H. rewrite Hi. clear -E. revert E.
  let h := eval vm_compute in (history CSplay (inserts (map Fin [4; 9; 11; 5; 1]%Z) ++ [TRemove (PNum (Fin 1))])) in
  change (history CSplay (inserts (map Fin [4; 9; 11; 5; 1]%Z) ++ [TRemove (PNum (Fin 1))])) with h.
  intros [= <- <-]. by vm_compute.
Qed.
Print Assumptions C31_removal_refuted.
(** Histories are right as long as every value removed is replaceable: below the neighbour
    that replaces it there is only a single branch. *)
Theorem C31_removal_partial os : removals_replaceable CSplay os -> behaves_as_set CSplay os.
Proof. intros H. by apply splay_history. Qed.
Print Assumptions C31_removal_partial.
(** In particular, removing absent values is always right. *)
Theorem C31_absent_value_partial os : along CSplay (fun o l => forall x, o = TRemove (PNum x) -> x ∉ l) os [] -> behaves_as_set CSplay os.
Proof.
  intros H. apply (history_set CSplay (fun _ => True) (fun o l => forall x, o = TRemove (PNum x) -> x ∉ l)); [|done|done].
  intros s T o HR _ Hi HP _ _. destruct (splay_step s T o HR Hi) as (r & s' & T' & E & HR' & _ & HA & HN); [|by exists r, s', T'].
  intros x ->. specialize (HP x eq_refl). pose proof (zfind_in x T Hi) as HZ. destruct (zfind x T).2; [done|]. exfalso. by apply HP, HZ.
Qed.
Print Assumptions C31_absent_value_partial.
Lemma one_removal os y pre x post : no_removals os -> os ++ [TRemove (PNum y)] = pre ++ TRemove (PNum x) :: post -> pre = os /\ x = y.
Proof.
  intros HF E. destruct post as [|o post _] using rev_ind.
  - by apply app_inj_tail in E as [<- [= <-]].
  - rewrite app_comm_cons app_assoc in E. apply app_inj_tail in E as [-> _].
    apply Forall_app in HF as [_ HF]. by apply Forall_cons in HF as [HF _].
Qed.
Example C31_example :
  removals_replaceable CSplay (inserts (map Fin [2; 5; 4; 6; 3]%Z) ++ [TRemove (PInt 5)]).
Proof.
  intros pre x post rs s t E Hh Ht. apply one_removal in E as [-> ->]; [|repeat constructor].
  vm_compute in Hh. injection Hh as <- <-. vm_compute in Ht. injection Ht as <-. by vm_compute.
Qed.
