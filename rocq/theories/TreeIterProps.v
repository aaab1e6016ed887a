(** * C65: looping over a search tree while the program goes on.

    A program is any sequence of calls on one tree, [iter(t)] and [next(it)] on any
    number of iterators over it, interleaved in any way; [model_trun] runs it. *)
From Verif Require Import Base TreeModel TreeSpec BstModel BalModel BstSpec TreeIterModel TreeIterSpec TreeIterThm TreeIterThm2 TreeIterThm3 TreeIterThm4.

(** Iterators do not disturb the tree: in every class, the calls of a program give
    what they give without its iterators, and leave the same tree; [next] always
    comes back. *)
Theorem C65_iterators_only_read : forall c ts rs s, made 0 ts -> history c (calls_of ts) = Some (rs, s) ->
  exists outs gs, model_trun c tconf0 ts = Some (outs, (s, gs)) /\ results_of outs = rs.
Proof.
  intros c ts rs s Hm Hh. destruct (run_total c ts tst0 [] rs s Hh Hm) as (outs & [s' gs] & H).
  destruct (run_calls c ts _ _ _ _ H) as (Hc & _ & _). unfold history in Hh. rewrite Hh in Hc. injection Hc as -> ->.
  by exists outs, gs.
Qed.
Print Assumptions C65_iterators_only_read.

(** A loop over a tree that is not changed meanwhile gives exactly its values, level
    by level from left to right, each once, and then stops, whatever else the program
    does between two steps: other loops over the same tree, reading calls (on a
    SplayTree, all but [in]), even [clear()].  The program before the loop is
    arbitrary, and [s] is the tree at the start of the loop. *)
Theorem C65_plain_loop : forall c pre ts outs e rs s t,
  history c (calls_of pre) = Some (rs, s) -> shape s = Some t ->
  calls_only (leaves_nodes c) ts ->
  let i := iters pre in
  let p := pre ++ XIter :: XNext i :: ts in
  model_trun c tconf0 p = Some (outs, e) ->
  tseen i p outs = exact_loop (values t) (tasks i p).
Proof.
  intros c pre ts outs e rs s t Hh Hsh Hts i p Hrun. rewrite <- (seen_asks c i p _ _ _ Hrun). apply loop_exact.
  rewrite <- (inserted_none c ts Hts (drop (2 + length pre) outs)). eapply whole_loop; [done|done| |done].
  intros o Ho. left. by apply Hts.
Qed.
Print Assumptions C65_plain_loop.

(** A loop over a BST into which the program inserts between two steps (it may also
    read it, clear it and run other loops, but not remove): the values that were in
    the tree at the start all come, each once, level by level from left to right;
    between them some of the inserted values may come, each at most once, and nothing
    else; the loop ends, as soon as it is asked often enough. *)
Theorem C65_growing_partial : forall pre ts,
  let i := iters pre in
  let p := pre ++ XIter :: XNext i :: ts in
  made 0 p -> calls_only (fun o => is_removal o = false) ts ->
  exists rs s t outs e,
    history CBST (calls_of pre) = Some (rs, s) /\ shape s = Some t /\
    model_trun CBST tconf0 p = Some (outs, e) /\
    loop_with (values t) (inserted ts (drop (2 + length pre) outs)) (tseen i p outs).
Proof.
  intros pre ts i p Hm Hts.
  destruct (bst_runs (calls_of pre)) as (rs & s & t & Hh & Hsh). destruct (bst_runs (calls_of p)) as (rs' & s' & _ & Hh' & _).
  destruct (run_total CBST p tst0 [] rs' s' Hh' Hm) as (outs & e & Hrun).
  exists rs, s, t, outs, e. split_and!; try done. eapply whole_loop; [done|done| |done].
  intros o Ho. right. split; [done|by apply Hts].
Qed.
Print Assumptions C65_growing_partial.
(** How often is enough: as many times as there were values and insertions, and once
    more; then every value of the start has come. *)
Theorem C65_growing_ends : forall old new rs, loop_with old new rs -> length old + length new < length rs ->
  exists vs k extra, rs = map GVal vs ++ replicate (S k) GStop /\ merge old extra vs /\ extra ⊆+ new.
Proof.
  intros old new rs (vs & k & tk & ex & -> & H2 & H3 & H4 & H5) Hl.
  assert (length vs = length tk + length ex) as Hv by (clear -H2; induction H2; cbn; lia).
  rewrite app_length, map_length, replicate_length in Hl. apply prefix_length in H3. apply submseteq_length in H5 as H6.
  destruct k as [|k]; [lia|]. rewrite (H4 ltac:(lia)) in H2. by exists vs, k, ex.
Qed.
Print Assumptions C65_growing_ends.

(** [t = SplayTree.from_iterable([1, 2])], then [for x in t: x in t]: the loop comes
    back to the same two values for ever. *)
Definition splay_setup : list tstmt := [XCall (TInsert (PInt 1) (Drawn 0)); XCall (TInsert (PInt 2) (Drawn 0)); XIter].
Definition splay_round : list tstmt := [XNext 0; XCall (TContains (PInt 2)); XNext 0; XCall (TContains (PInt 1))].
Definition after_round (q : tconf) (ts : list tstmt) : list tsout * tconf :=
  match model_trun CSplay q ts with Some r => r | None => ([], q) end.
Definition splay_0 := Eval vm_compute in after_round tconf0 splay_setup.
Definition splay_1 := Eval vm_compute in after_round tconf0 (splay_setup ++ splay_round).
Definition splay_2 := Eval vm_compute in (after_round splay_1.2 splay_round).1.
Lemma splay_init : model_trun CSplay tconf0 splay_setup = Some (splay_0.1, splay_0.2).
Proof. vm_compute. reflexivity. Qed.
Lemma splay_start : model_trun CSplay tconf0 (splay_setup ++ splay_round) = Some (splay_1.1, splay_1.2).
Proof. vm_compute. reflexivity. Qed.
Lemma splay_again : model_trun CSplay splay_1.2 splay_round = Some (splay_2, splay_1.2).
Proof. vm_compute. reflexivity. Qed.
Lemma periodic c q0 su rd o0 q1 so q ro vs :
  model_trun c q0 su = Some (o0, q1) -> tseen 0 su o0 = [] ->
  model_trun c q0 (su ++ rd) = Some (so, q) -> tseen 0 (su ++ rd) so = vs -> length so = length (su ++ rd) ->
  model_trun c q rd = Some (ro, q) -> tseen 0 rd ro = vs -> length ro = length rd ->
  forall n, exists outs e, let p := su ++ concat (replicate n rd) in
    model_trun c q0 p = Some (outs, e) /\ tseen 0 p outs = concat (replicate n vs).
Proof.
  intros H0 H0' Hs Hs1 Hs2 Hq Hro Hlo.
  assert (forall n, exists o, model_trun c q (concat (replicate n rd)) = Some (o, q) /\
    tseen 0 (concat (replicate n rd)) o = concat (replicate n vs)) as Hn.
  { intros n. induction n as [|n (o & IH1 & IH2)]; [by exists []|]. exists (ro ++ o). cbn [replicate concat].
    rewrite trun_app, Hq, IH1. split; [done|]. rewrite tseen_app by exact Hlo. by rewrite Hro, IH2. }
  intros [|n].
  { exists o0, q1. cbn [replicate concat]. cbv zeta. rewrite app_nil_r. done. }
  destruct (Hn n) as (o & H1 & H2).
  exists (so ++ o), q. cbn [replicate concat]. cbv zeta. rewrite app_assoc, trun_app, Hs, H1. split; [done|].
  rewrite tseen_app by exact Hs2. by rewrite Hs1, H2.
Qed.
Theorem C65_splay_lookup_refuted : forall n, exists outs e,
  let p := splay_setup ++ concat (replicate n splay_round) in
  model_trun CSplay tconf0 p = Some (outs, e) /\
  tseen 0 p outs = concat (replicate n [GVal (Fin 2); GVal (Fin 1)]).
Proof.
  exact (periodic CSplay tconf0 splay_setup splay_round splay_0.1 splay_0.2 splay_1.1 splay_1.2 splay_2 _
    splay_init eq_refl splay_start eq_refl eq_refl splay_again eq_refl eq_refl).
Qed.
Print Assumptions C65_splay_lookup_refuted.

(** Changes of the other classes, and removals, make a loop lose values that are in
    the tree the whole time: one step is taken, then the change, then the loop is
    run to its end. *)
Definition loses (c : tcls) (mk : list top) (o : top) (x : Z) : Prop :=
  let p := map XCall mk ++ [XCall (TContains (PInt x)); XIter; XNext 0; XCall o] ++ replicate 5 (XNext 0) ++ [XCall (TContains (PInt x))] in
  exists outs e, model_trun c tconf0 p = Some (outs, e) /\
    outs !! length mk = Some (XRes (OBool true)) /\ last outs = Some (XRes (OBool true)) /\
    GStop ∈ tseen 0 p outs /\ GVal (Fin x) ∉ tseen 0 p outs.
Definition put (x : Z) : top := TInsert (PInt x) (Drawn 0).
Definition put_at (x pr : Z) : top := TInsert (PInt x) (Given (PInt pr)).
Theorem C65_updates_refuted :
  loses CAVL [put 1; put 2] (put 3) 2 /\
  loses CRB [put 1; put 2] (put 3) 2 /\
  loses CTreap [put_at 3 5; put_at 1 4] (put_at 2 9) 1 /\
  loses CBST [put 2; put 1; put 3] (TRemove (PInt 2)) 3.
Proof.
  unfold loses. split_and!; (eexists _, _; split; [by vm_compute|]); split_and!;
    try (vm_compute; reflexivity); cbn [tseen map app replicate length put put_at]; rewrite ?Nat.eqb_refl; cbn [Nat.eqb app]; rewrite !elem_of_cons, ?elem_of_nil; naive_solver.
Qed.
Print Assumptions C65_updates_refuted.

(** The hypotheses are met: a loop over an AVL tree of six values with a lookup, a
    nested second iterator and a [clear()] in it ... *)
Definition plain_example : list tstmt :=
  map XCall (map put [50; 20; 80; 10; 30; 90]%Z) ++ XIter :: XNext 0 ::
    [XCall (TContains (PInt 30)); XIter; XNext 1; XNext 0; XNext 1; XCall THeight; XNext 0; XCall TClear; XNext 0; XNext 0; XNext 0; XNext 0].
Example C65_plain_example : exists outs e, model_trun CAVL tconf0 plain_example = Some (outs, e) /\
  tseen 0 plain_example outs = map (fun z => GVal (Fin z)) [50; 20; 80; 10; 30; 90]%Z ++ [GStop].
Proof. eexists _, _. split; by vm_compute. Qed.
Example C65_plain_example_reads : calls_only (leaves_nodes CAVL) (drop 8 plain_example).
Proof.
  intros o Ho. cbn in Ho. repeat (apply elem_of_cons in Ho as [Ho|Ho]; [try done; injection Ho as ->; done|]). by apply elem_of_nil in Ho.
Qed.
(** ... and one over a BST that grows: 70 is met, 5 (below 10, already passed) too,
    and 25 comes too late. *)
Definition growing_example : list tstmt :=
  map XCall (map put [50; 20; 80; 10]%Z) ++ XIter :: XNext 0 ::
    [XCall (put 70); XNext 0; XNext 0; XCall (put 25); XNext 0; XCall (put 5); XNext 0; XNext 0; XNext 0].
Example C65_growing_example : exists outs e, model_trun CBST tconf0 growing_example = Some (outs, e) /\
  tseen 0 growing_example outs = map (fun z => GVal (Fin z)) [50; 20; 80; 10; 70; 5]%Z ++ [GStop].
Proof. eexists _, _. split; by vm_compute. Qed.
Example C65_growing_example_made : made 0 growing_example.
Proof. cbn. repeat split; lia. Qed.
