(** * Properties of SkipList (C17, C18, C49)

    Specification: SkipSpec.v.  Model: SkipModel.v.  Proofs: SkipThm.v, SkipThm2.v, SkipThm3.v. *)
From Coq Require Import Sorted.
From Verif Require Import Base NumOrd ListModel SkipModel SkipSpec SkipThm SkipThm2 SkipThm3.

(** ** C17: a SkipList is a sorted set, whatever the coins *)
(** [KInsert v heads]: [heads] is what the coin decides, so quantifying over the history
    quantifies over the coins. *)
Theorem C17_sorted_set os : Forall avoids_neg_inf os -> behaves_as_sorted_set os.
Proof. intros H. destruct (history_ok os H) as (s & E & _). by exists s. Qed.
Print Assumptions C17_sorted_set.
(** The specification is a set: membership changes as it should, order is strict. *)
Theorem C17_set_laws A x y h : StronglySorted (fun a b => num_ltb a b = true) (elems A) ->
  (x ∈ elems (tput y h A) <-> x = y \/ x ∈ elems A) /\ (x ∈ elems (tdel y A) <-> x <> y /\ x ∈ elems A).
Proof.
  intros HS. split.
  - destruct (tower_cases y A HS) as [(A1 & A2 & -> & _ & _ & ->)|(A1 & k & A2 & -> & _ & _ & ->)]; rewrite !elems_app; cbn; set_solver.
  - rewrite tdel_elems, elem_of_list_filter. done.
Qed.
Print Assumptions C17_set_laws.
(** to_list() after any history is strictly increasing. *)
Theorem C17_increasing os : Forall avoids_neg_inf os ->
  exists rs xs s, khistory (os ++ [KToList]) = Some (rs ++ [KVals (map PNum xs)], s) /\ StronglySorted (fun a b => num_ltb a b = true) xs.
Proof.
  intros H. destruct (history_then os KToList H) as (s & HG & E). destruct (to_list_sl_ok _ _ _ HG) as (s' & E' & _).
  unfold kcall in E. cbn [kexec] in E. rewrite (bind_ok _ _ _ _ _ E') in E. cbn in E. eexists _, _, _. split; [exact E|]. by eapply good_sorted.
Qed.
Print Assumptions C17_increasing.
(** Two runs of the same calls with different coins answer the same; only get_height differs. *)
Theorem C17_coins_irrelevant os os' : Forall avoids_neg_inf os -> Forall2 same_call os os' ->
  exists rs s rs' s', khistory os = Some (rs, s) /\ khistory os' = Some (rs', s') /\
    forall i o, os !! i = Some o -> o <> KHeight -> rs !! i = rs' !! i.
Proof.
  intros H HF. assert (Forall avoids_neg_inf os') as H'.
  { clear -H HF. induction HF as [|o o' os os' Hs _ IH]; [constructor|]. apply Forall_cons in H as [Ho H]. constructor; [|by apply IH].
    destruct o, o'; cbn in *; congruence || (injection Hs as <-; done) || done. }
  destruct (history_ok os H) as (s & E & _). destruct (history_ok os' H') as (s' & E' & _). eexists _, s, _, s'. split; [exact E|]. split; [exact E'|].
  intros i o Hi Ho. by eapply coins_history.
Qed.
Print Assumptions C17_coins_irrelevant.
Definition C17_ops : list skop :=
  [KInsert (PInt 5) 2; KInsert (PInt 1) 0; KInsert (PNum PosInf) 1; KInsert (PInt 3) 3; KHeight; KToList; KGet (IInt 1); KRemove (PInt 3); KHeight; KContains (PInt 3);
   KContains (PInt 5); KDel (IInt 0); KLen; KToList; KGet (IInt (-1)); KInsert PNone 0; KRemove (PInt 9)].
Example C17_example : Forall avoids_neg_inf C17_ops /\ exists s, khistory C17_ops = Some
  ([KUnit; KUnit; KUnit; KUnit; KNat 4; KVals [PInt 1; PInt 3; PInt 5; PNum PosInf]; KVal (PInt 3); KUnit; KNat 3; KBool false;
    KBool true; KUnit; KNat 2; KVals [PInt 5; PNum PosInf]; KExc IndexError; KExc ValueError; KUnit], s).
Proof. split; [repeat constructor; done|]. eexists. by vm_compute. Qed.

(** ** C18: -inf *)
(** False: every level starts with a node holding -inf, and the list finds that one. *)
Theorem C18_refuted :
  (exists os, ~ behaves_as_sorted_set os /\ os = [KContains (PNum NegInf)]) /\
  (exists os, ~ behaves_as_sorted_set os /\ os = [KInsert (PNum NegInf) 0; KLen]) /\
  (exists os, ~ behaves_as_sorted_set os /\ os = [KInsert (PInt 5) 0; KRemove (PNum NegInf); KToList]).
Proof. split_and!; eexists; (split; [|reflexivity]); intros (s & E); by vm_compute in E. Qed.
Print Assumptions C18_refuted.
(** remove(-inf) takes another element away, here all of them, and the list keeps
    contradicting itself: 5 is still "in" the empty list. *)
Theorem C18_remove_corrupts : exists s, khistory [KInsert (PInt 5) 0; KRemove (PNum NegInf); KLen; KContains (PInt 5); KToList] =
  Some ([KUnit; KUnit; KNat 0; KBool true; KVals []], s).
Proof. eexists. by vm_compute. Qed.
Print Assumptions C18_remove_corrupts.
(** On every list that has not been corrupted: -inf is always found, and inserting it does
    nothing (the sentinel stands for it), so that nothing else is disturbed. *)
Theorem C18_contains_partial os : Forall avoids_neg_inf os ->
  exists s, khistory (os ++ [KContains (PNum NegInf)]) = Some (tanswers os [] ++ [KBool true], s).
Proof.
  intros H. destruct (history_then os (KContains (PNum NegInf)) H) as (s & HG & E). unfold kcall in E. cbn [kexec] in E. rewrite (bind_ok _ _ _ _ _ (neg_contains _ _ _ HG)) in E. by exists s.
Qed.
Print Assumptions C18_contains_partial.
Theorem C18_insert_partial os h os' : Forall avoids_neg_inf os -> Forall avoids_neg_inf os' ->
  exists s, khistory (os ++ [KInsert (PNum NegInf) h] ++ os') = Some (tanswers os [] ++ [KUnit] ++ tanswers os' (tafter os []), s).
Proof.
  intros H H'. destruct (history_ok os H) as (s & E & HG). destruct new_ok as (s0 & E0 & _). unfold khistory in *. rewrite E0 in *.
  destruct (calls_ok 0 os' s _ HG H') as (s' & E' & _). exists s'. rewrite !map_app, kcalls_app, E, kcalls_app. cbn [map kcalls fst snd]. unfold kcall. cbn [kexec].
  rewrite (bind_ok _ _ _ _ _ (neg_insert _ _ _ h HG)). cbn. by rewrite E'.
Qed.
Print Assumptions C18_insert_partial.

(** ** C49: SkipList(other) is a copy *)
(** False: both share the lists of levels, but each counts the levels for itself. *)
Theorem C49_refuted : exists pre os rs rs', Forall avoids_neg_inf pre /\ Forall (fun p => avoids_neg_inf p.2) os /\
  kcopied pre os = Some (rs, rs') /\ rs' <> tanswers2 os (tafter pre []) (tafter pre []).
Proof. exists [], [(1, KInsert (PInt 5) 0); (0, KContains (PInt 5))], [], [KUnit; KBool true]. split_and!; [constructor|repeat constructor; done|by vm_compute|by vm_compute]. Qed.
Print Assumptions C49_refuted.
(** Nor is it an alias: after b.insert(5) with one head, a.remove(5) leaves a 5 that b finds
    and that to_list() does not show. *)
Theorem C49_neither_alias : exists rs, kcopied [] [(1, KInsert (PInt 5) 1); (0, KRemove (PInt 5)); (1, KContains (PInt 5)); (1, KToList); (0, KContains (PInt 5))] =
  Some (rs, [KUnit; KUnit; KBool true; KVals []; KBool false]).
Proof. eexists. by vm_compute. Qed.
Print Assumptions C49_neither_alias.
(** As long as only the copy is used it is a sorted set that starts with the elements of the original. *)
Theorem C49_copy_alone_partial pre os : Forall avoids_neg_inf pre -> Forall avoids_neg_inf os ->
  kcopied pre (map (pair 1) os) = Some (tanswers pre [], tanswers os (tafter pre [])).
Proof.
  intros Hp Ho. destruct (history_ok pre Hp) as (s & E & HG). unfold kcopied. rewrite E. destruct HG as (r & ols & G & H & Hl).
  assert (length (k_sls s) = 1) as Hn.
  { destruct new_ok as (s0 & E0 & _). unfold khistory in E. rewrite E0 in E. rewrite (kcalls_keeps _ _ _ _ E). vm_compute in E0. injection E0 as <-. done. }
  unfold sl_copy. unfold alloc_sl, bind at 1. unfold get_sl, bind at 1. cbn [k_sls]. rewrite lookup_app_l by (by eapply lookup_lt_Some, H). rewrite (i_sl _ _ _ _ _ _ H).
  unfold put_sl, bind at 1. cbn [k_st k_lls k_sls]. rewrite Hn. unfold ret.
  destruct (calls_ok 1 os (KSt (k_st s) (k_lls s) (<[1:=(r, length G)]> (k_sls s ++ [(0, 0)]))) (tafter pre [])) as (s' & E' & _); [|done|by rewrite E'].
  exists r, ols, G. split; [|done]. split; cbn; [apply list_lookup_insert; rewrite app_length; cbn; lia|apply H|apply H|done|done].
Qed.
Print Assumptions C49_copy_alone_partial.
Example C49_example : kcopied [KInsert (PInt 5) 1; KInsert (PInt 2) 0] (map (pair 1) [KToList; KInsert (PInt 3) 2; KRemove (PInt 5); KToList; KHeight]) =
  Some ([KUnit; KUnit], [KVals [PInt 2; PInt 5]; KUnit; KUnit; KVals [PInt 2; PInt 3]; KNat 3]).
Proof. by vm_compute. Qed.
