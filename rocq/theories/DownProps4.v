(** * The nodes visited by searches, insertions and removals in a SplayTree: C86 *)
From iris.proofmode Require Import proofmode.
From Verif Require Import Base TreeModel TreeSpec BstModel BalModel BstSpec BstSep BstRules BstZip BstDel BstPure BstThm AvlThm SplayThm SplayProps SplayCostSpec SplayCostProps.
From Verif Require Import WalkModel WalkSpec WalkThm2 TreeIterThm TreeIterThm3 TreeIterThm4 DepthSpec DepthThm DepthThm6 DownModel DownSpec DownThm DownThm3 DownModel4 DownSpec3 DownThm8.
Local Open Scope py_scope.

(** The programs that count do what the programs of BalModel.v do. *)
Theorem C86_same v : counts (splay_contains_c v) (splay_contains v) /\ counts (splay_insert_c v) (splay_insert v) /\ counts (splay_remove_c v) (splay_remove v).
Proof. split_and!; [apply co_splay_contains|apply co_splay_insert|apply co_splay_remove]. Qed.
Print Assumptions C86_same.

(** The exact number of calls, in every history of a SplayTree in which every removed value is
    replaceable (C31). *)
Theorem C86_exact os rs s t x p : removals_replaceable CSplay os -> history CSplay os = Some (rs, s) -> shape s = Some t ->
  takes s (splay_contains_c (PNum x)) (splay_steps (TContains (PNum x)) (values t))
  /\ takes s (splay_insert_c (PNum x)) (splay_steps (TInsert (PNum x) p) (values t))
  /\ takes s (splay_remove_c (PNum x)) (splay_steps (TRemove (PNum x)) (values t)).
Proof.
  intros H Hh Ht. destruct (splay_history os H) as [_ HH]. destruct (HH rs s t Hh Ht) as (T & HR & -> & Hi & _).
  change (values (bin_map snd T)) with (vals T). destruct (decide (T = Nil)) as [->|HT].
  - split_and!; cbn [vals bin_map splay_steps].
    + unfold splay_contains_c. apply tk_lfb. intros y s' E. injection E as <- <-. eapply tk_bind0; [by apply (tk_search_root x s Nil (rep_held' s Nil HR))|].
      intros i s1 k k' Ei%(co_ok _ _ _ _ _ _ _ (co_search_root x)). exfalso. unfold search_root in Ei.
      assert (get_root s = Ok None s) as Hg. { destruct HR as (h & _ & _ & Hr & _). unfold get_root. by rewrite Hr. }
      by rewrite (bind_ok _ _ _ _ _ Hg) in Ei.
    + unfold splay_insert_c. apply tk_lfb. intros y s' E. injection E as <- <-. apply (tk_lfk _ _ _ _ _ (rep_empty s Nil HR)).
      apply tk_lfb. intros. apply tk_lfb. intros. apply tk_lfb. intros. apply tk_ret.
    + apply (tk_remove_with (PNum x) _ s Nil (fun _ => 0) (rep_held' s Nil HR)). by intros.
  - assert (splay_steps (TContains (PNum x)) (vals T) = path x (vals T) + splay_calls (path x (vals T) - 1)) as -> by (by destruct T).
    assert (splay_steps (TInsert (PNum x) p) (vals T) = path x (vals T) + splay_calls (nodes_above x (vals T))) as -> by (by destruct T).
    split_and!; [by apply tk_splay_contains|by apply tk_splay_insert|]. eapply tk_eq; [by apply tk_splay_remove|]. by destruct T.
Qed.
Print Assumptions C86_exact.

(** A search or an insertion never takes more than twice the nodes on the way to its value. *)
Lemma calls_le d : splay_calls d <= Nat.max 1 d.
Proof. unfold splay_calls. destruct d as [|d]; [cbn; lia|]. assert ((S d + 1) / 2 <= S d) by (apply Nat.div_le_upper_bound; lia). lia. Qed.
Lemma path_visits x t : path x t = visits x t.
Proof. induction t as [|l IHl y r IHr]; [done|]. cbn. destruct (decide _); [done|]. by destruct (num_ltb x y); rewrite ?IHl ?IHr. Qed.
Lemma steps_le o t : finding_steps o t <= 2 * looks o t.
Proof.
  destruct t as [|l y r]; [destruct o; apply Nat.le_0_l|]. assert (forall x, 1 <= path x (Bin l y r)) as HP by (intros x; cbn; lia).
  destruct o as [v ?|v|v| | | | | | | | | | | | ]; try (cbn [finding_steps splay_steps]; lia); destruct v as [|x| | | | ]; cbn [finding_steps splay_steps looks]; try lia; rewrite -path_visits; specialize (HP x).
  all: pose proof (calls_le (path x (Bin l y r) - 1)); pose proof (calls_le (nodes_above x (Bin l y r))).
  all: assert (nodes_above x (Bin l y r) <= path x (Bin l y r)) by (unfold nodes_above; destruct (subtree_at _ _); lia); lia.
Qed.
(** Hence at most twice the number of levels... *)
Theorem C86_levels os rs s t x : removals_replaceable CSplay os -> history CSplay os = Some (rs, s) -> shape s = Some t ->
  WalkSpec.at_most s (splay_contains_c (PNum x)) (2 * nlevels t) /\ WalkSpec.at_most s (splay_insert_c (PNum x)) (2 * nlevels t)
  /\ WalkSpec.at_most s (splay_remove_c (PNum x)) (2 * nlevels t + 2).
Proof.
  intros H Hh Ht. destruct (C86_exact os rs s t x (Drawn 0) H Hh Ht) as ([H1 _] & [H2 _] & [H3 _]).
  pose proof (path_levels x (values t)) as HP. rewrite path_visits in HP. unfold values in HP at 2. rewrite nlevels_map in HP.
  split_and!; [eapply am_le; [exact H1|]; etransitivity; [apply (steps_le (TContains (PNum x)))|]; cbn [looks]; lia
    |eapply am_le; [exact H2|]; etransitivity; [apply (steps_le (TInsert (PNum x) (Drawn 0)))|]; cbn [looks]; lia|].
  eapply am_le; [exact H3|]. rewrite -path_visits in HP.
  pose proof (removal_levels x (values t)) as HR. pose proof (way_back_levels x (values t)) as HW. unfold values in HR at 2. unfold values in HW at 2. rewrite nlevels_map in HR HW.
  assert (1 <= nlevels t \/ t = Nil) as [HN| ->] by (destruct t; cbn; [by right|left; lia]); [|cbn; lia].
  assert (forall d, d <= nlevels t -> removal_steps x (values t) + splay_calls (d - 1) <= 2 * nlevels t + 2) as HB.
  { intros d Hd. pose proof (calls_le (d - 1)). lia. }
  unfold splay_steps. destruct (values t) as [|l y r] eqn:E; [lia|]. destruct (only_value _ _); [lia|]. apply HB. by destruct (subtree_at _ _).
Qed.
Print Assumptions C86_levels.
(** ... and the searches and insertions, on average over the calls of a history, logarithmic in
    the number of elements, whatever the order of the calls.  Removals are not
    (C68_removal_work_refuted). *)
Lemma total_le c f g os : (forall o t, f o t <= 2 * g o t) -> forall s w, total_from c g os s = Some w -> exists w', total_from c f os s = Some w' /\ w' <= 2 * w.
Proof.
  intros Hfg. induction os as [|o os IH]; intros s w; cbn [total_from].
  { intros [= <-]. by exists 0. }
  destruct (shape s) as [t|]; [|done]. destruct (call c o s) as [[r s']|]; [|done]. destruct (total_from c g os s') as [v|] eqn:E; [|done].
  intros [= <-]. destruct (IH s' v E) as (v' & -> & Hv). eexists. split; [done|]. specialize (Hfg o (bin_map p_val t)). lia.
Qed.
Theorem C86_logarithmic n os : removals_replaceable CSplay os -> SplayCostSpec.at_most n CSplay os ->
  exists w, total CSplay finding_steps os = Some w /\ w <= 8 * length os * S (Nat.log2 (n + 1)).
Proof.
  intros H Hn. destruct (C68_finding_is_logarithmic n os H Hn) as (w & E & _ & Hw).
  destruct (total_le CSplay finding_steps looks os steps_le tst0 w E) as (w' & E' & Hw'). exists w'. split; [done|].
  replace (8 * length os * S (Nat.log2 (n + 1))) with (2 * (4 * length os * S (Nat.log2 (n + 1)))) by lia. lia.
Qed.
Print Assumptions C86_logarithmic.

(** With the removals, what is not logarithmic is the moving of values below the replacement,
    [moves] of C68: all the calls of a history together. *)
Lemma leftmost_below {A} (t : bin A) : exchanges (at_leftmost t) <= S (branch (below_leftmost t)).
Proof.
  assert (forall u : bin A, exchanges u = branch u) as HB. { induction u as [|l IHl y r IHr]; [done|]. cbn. rewrite IHl IHr. done. }
  induction t as [|l IHl y r _]; [cbn; lia|]. cbn [at_leftmost below_leftmost]. destruct l; [|done]. cbn. rewrite HB. lia.
Qed.
Lemma rightmost_below {A} (t : bin A) : exchanges (at_rightmost t) <= S (branch (below_rightmost t)).
Proof.
  assert (forall u : bin A, exchanges u = branch u) as HB. { induction u as [|l IHl y r IHr]; [done|]. cbn. rewrite IHl IHr. done. }
  induction t as [|l _ y r IHr]; [cbn; lia|]. cbn [at_rightmost below_rightmost]. destruct r; [|done]. cbn. destruct l; [cbn; lia|]. rewrite HB. lia.
Qed.
Lemma replacement_below {A} (t : bin A) : exchanges (replacement t) <= S (branch (below_replacement t)) /\ replacement_branch t = to_replacement t.
Proof.
  assert (forall u : bin A, left_branch u = left_arm u /\ right_branch u = right_arm u) as HA.
  { induction u as [|l [IHl _] y r [_ IHr]]; [done|]. cbn. by rewrite IHl IHr. }
  destruct t as [|l y r]; [split; [cbn; lia|done]|]. destruct r as [|r1 z r2].
  - split; [apply rightmost_below|apply HA].
  - split; [apply (leftmost_below (Bin r1 z r2))|apply HA].
Qed.
Lemma all_steps_le o t : splay_steps o t <= 2 * looks o t + moves o t + 2.
Proof.
  assert ((exists v, o = TRemove v) \/ splay_steps o t = finding_steps o t) as [[v ->]|E] by (destruct o; eauto).
  2:{ rewrite E. pose proof (steps_le o t). lia. }
  destruct t as [|l y r]; [cbn [splay_steps]; lia|]. destruct v as [|x| | | | ]; cbn [splay_steps]; try lia.
  cbn [looks moves]. rewrite -path_visits. assert (1 <= path x (Bin l y r)) as HP by (cbn; lia). generalize dependent (Bin l y r). intros t HP.
  destruct (only_value x t); [lia|]. unfold removal_steps, way_back, nodes_above.
  destruct (replacement_below (subtree_at x t)) as [H1 H2]. destruct (subtree_at x t) as [|l1 y1 r1].
  - pose proof (calls_le (path x t - 1)). lia.
  - rewrite H2. pose proof (calls_le (path x t - 1 + to_replacement (Bin l1 y1 r1) - 1)). lia.
Qed.
Lemma total_sum c f g h os : (forall o t, f o t <= 2 * g o t + h o t + 2) -> forall s w, total_from c g os s = Some w ->
  exists w' m, total_from c f os s = Some w' /\ total_from c h os s = Some m /\ w' <= 2 * w + m + 2 * length os.
Proof.
  intros Hf. induction os as [|o os IH]; intros s w; cbn [total_from].
  { intros [= <-]. by exists 0, 0. }
  destruct (shape s) as [t|]; [|done]. destruct (call c o s) as [[r s']|]; [|done]. destruct (total_from c g os s') as [v|] eqn:E; [|done].
  intros [= <-]. destruct (IH s' v E) as (v' & m & -> & -> & Hv). eexists _, _. split; [done|]. split; [done|]. specialize (Hf o (bin_map p_val t)). cbn [length]. lia.
Qed.
Theorem C86_all_calls n os : removals_replaceable CSplay os -> SplayCostSpec.at_most n CSplay os ->
  exists w m, total CSplay splay_steps os = Some w /\ total CSplay moves os = Some m /\ w <= 8 * length os * S (Nat.log2 (n + 1)) + 2 * length os + m.
Proof.
  intros H Hn. destruct (C68_finding_is_logarithmic n os H Hn) as (w & E & _ & Hw).
  destruct (total_sum CSplay splay_steps looks moves os all_steps_le tst0 w E) as (w' & m & E' & Em & Hw'). exists w', m. split; [done|]. split; [done|].
  replace (8 * length os * S (Nat.log2 (n + 1))) with (2 * (4 * length os * S (Nat.log2 (n + 1)))) by lia. lia.
Qed.
Print Assumptions C86_all_calls.

(** 1, ..., 8 inserted in order make a single branch: nodes visited by contains(1), contains(0),
    insert(0), insert(1), contains(8), remove(0) and remove(1). *)
Example C86_example : exists rs s t,
  let os := inserts (map Fin [1; 2; 3; 4; 5; 6; 7; 8]%Z) in
  removals_replaceable CSplay os /\ SplayCostSpec.at_most 8 CSplay os /\ history CSplay os = Some (rs, s) /\ shape s = Some t /\ nlevels t = 8
  /\ (exists b p, splay_contains_c (PInt 1) (s, 0) = Ok b p /\ p.2 = 12)
  /\ (exists b p, splay_contains_c (PInt 0) (s, 0) = Ok b p /\ p.2 = 12)
  /\ (exists b p, splay_insert_c (PInt 0) (s, 0) = Ok b p /\ p.2 = 12)
  /\ (exists b p, splay_insert_c (PInt 1) (s, 0) = Ok b p /\ p.2 = 12)
  /\ (exists b p, splay_contains_c (PInt 8) (s, 0) = Ok b p /\ p.2 = 2)
  /\ (exists b p, splay_remove_c (PInt 0) (s, 0) = Ok b p /\ p.2 = 12)
  /\ (exists b p, splay_remove_c (PInt 1) (s, 0) = Ok b p /\ p.2 = 12)
  /\ total CSplay finding_steps (os ++ [TContains (PInt 1); TContains (PInt 1)]) = Some 28.
Proof.
  eexists _, _, _. cbn zeta. split; [apply no_removals_replaceable; repeat constructor|]. split.
  { intros pre post E. assert (pre = take (length pre) (inserts (map Fin [1; 2; 3; 4; 5; 6; 7; 8]%Z))) as Ep by (by rewrite E take_app).
    assert (length pre <= 8) as Hl. { apply (f_equal length) in E. rewrite app_length in E. cbn in E. lia. }
    rewrite Ep. clear Ep E. destruct (length pre) as [|[|[|[|[|[|[|[|[|m]]]]]]]]]; try lia; vm_compute; lia. }
  split; [by vm_compute|]. split; [by vm_compute|]. split; [by vm_compute|].
  do 7 (split; [eexists _, _; split; by vm_compute|]). by vm_compute.
Qed.
Example C86_example_removals :
  removals_replaceable CSplay example_history /\ SplayCostSpec.at_most 3 CSplay example_history
  /\ total CSplay splay_steps example_history = Some 18 /\ total CSplay moves example_history = Some 0
  /\ total CSplay splay_steps (fill_down 10 ++ take_minima 1 10) = Some 99 /\ total CSplay moves (fill_down 10 ++ take_minima 1 10) = Some 36.
Proof. split; [apply C68_example_replaceable|]. split; [apply C68_example_at_most|]. split_and!; by vm_compute. Qed.
