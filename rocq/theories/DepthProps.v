(** * C70: the search trees within Python's recursion limit

    The searches, insertions, removals and traversals of the search trees are recursive, so
    a tree that is too deep for the stack makes them raise RecursionError.  The theorems say
    when that happens, and what is left of the tree. *)
From Verif Require Import Base TreeModel TreeSpec BstModel BalModel BstSpec BstSep BstRules BstPure BstThm BinThm TreeIterThm TreeIterThm3.
From Verif Require Import DepthModel DepthSpec DepthThm DepthThm2 DepthThm3 DepthThm4 DepthThm5 DepthThm6 AvlProps.
Local Open Scope py_scope.

(** A call other than [remove] does what it does without a limit if it [needs] at most the
    [L] activations there is room for; otherwise it raises RecursionError and changes
    nothing. *)
Theorem C70_needs c L o s t : shape s = Some t -> is_removal o = false ->
  call_l c (L, o) s = if decide (needs c o (values t) <= L) then call c o s else Some (ORaise RecursionError, s).
Proof.
  intros Ht Ho. destruct (shape_held s t Ht) as (T & HT & <-). rewrite (call_deep c L o s T HT Ho). change (vmap T) with (values (bin_map snd T)).
  destruct (Nat.leb_spec (needs c o (values (bin_map snd T))) L), (decide (needs c o (values (bin_map snd T)) <= L)); try done; lia.
Qed.
Print Assumptions C70_needs.
(** With room for as many activations as the tree has levels, every call on every class,
    [remove] included, does what it does without a limit. *)
Theorem C70_enough_stack c L o s t : shape s = Some t -> nlevels t <= L -> call_l c (L, o) s = call c o s.
Proof. intros Ht HL. destruct (shape_held s t Ht) as (T & HT & <-). rewrite nlevels_map in HL. by apply (call_fits c L o s T). Qed.
Print Assumptions C70_enough_stack.
(** Calls that run out of stack are as if they had not been made: the other calls of the
    history give the results, and leave the tree, of a history without a limit.  For all
    classes, and whatever the room at each call, when nothing is removed. *)
Theorem C70_failed_calls_are_no_ops c os : no_removals (calls_of os) ->
  exists rs s, history_l c os = Some (rs, s) /\ length rs = length os /\ history c (done_calls os rs) = Some (done_results rs, s) /\
    behaves_as_set c (done_calls os rs).
Proof.
  intros H. destruct (limited_calls c os [] [] tst0 ltac:(constructor) H eq_refl) as (rs & s & E1 & E2 & E3 & E4). exists rs, s. split_and!; try done.
  by apply no_removals_set.
Qed.
Print Assumptions C70_failed_calls_are_no_ops.
(** A BST, with all its calls made from the same depth: the same with removals. *)
Theorem C70_bst_one_depth L os : let los := map (fun o => (L, o)) os in
  exists rs s, history_l CBST los = Some (rs, s) /\ length rs = length os /\ history CBST (done_calls los rs) = Some (done_results rs, s).
Proof. apply (bst_one_depth_calls L os tst0 Nil rep0). cbn. lia. Qed.
Print Assumptions C70_bst_one_depth.

(** An AVL tree that stays balanced (it does while nothing is removed: C26) does not run
    out of stack in a history of [n] calls, if there is always room for [2 log2 (n+1) + 1]
    activations. *)
Theorem C70_avl os : balanced_throughout CAVL (calls_of os) ->
  Forall (fun Lo => 2 * Nat.log2 (length os + 1) + 1 <= fst Lo) os ->
  history_l CAVL os = history CAVL (calls_of os) /\ behaves_as_set CAVL (calls_of os).
Proof.
  intros HB HL. split; [|by apply C28_removal_partial]. by apply (avl_limited os [] [] tst0 (length os)).
Qed.
Print Assumptions C70_avl.
Theorem C70_avl_insertions os : no_removals (calls_of os) -> Forall (fun Lo => 2 * Nat.log2 (length os + 1) + 1 <= fst Lo) os ->
  history_l CAVL os = history CAVL (calls_of os) /\ behaves_as_set CAVL (calls_of os).
Proof.
  intros H. apply C70_avl. intros pre post rs s t E Hp Hh Ht. apply (C26_balanced_after_insertions pre rs s t); [|done|done].
  unfold no_removals in *. rewrite E in H. by apply Forall_app in H as [H _].
Qed.
Print Assumptions C70_avl_insertions.

(** Increasing insertions into a BST: with room for [L] activations the first [L + 1] are
    accepted, and all others are refused. *)
Theorem C70_sorted_insertions_refuted L vs : increasing vs ->
  exists s, history_l CBST (map (fun o => (L, o)) (inserts vs ++ [TLen])) =
    Some (replicate (Nat.min (length vs) (S L)) (OUnit false) ++ replicate (length vs - S L) (ORaise RecursionError) ++
          [OInt (Z.of_nat (Nat.min (length vs) (S L)))], s).
Proof.
  intros H. destruct (sorted_limited L vs tst0 Nil rep0 H eq_refl ltac:(cbn; lia)) as (s & T & E & HR & HI). cbn [bsize ino app] in *. rewrite Nat.sub_0_r in *.
  unfold history_l. rewrite map_app. unfold inserts. rewrite map_map.
  rewrite calls_l_app, E. exists s. cbn [map calls_l].
  assert (call_l CBST (L, TLen) s = Some (OInt (Z.of_nat (Nat.min (length vs) (S L))), s)) as ->; [|by rewrite <- app_assoc].
  destruct HR as (_ & _ & _ & _ & Hn). unfold call_l. cbn [fst snd exec_l exec]. unfold bst_len, get_len, bind, ret.
  rewrite Hn, <- ino_length, HI, take_length. do 4 f_equal. lia.
Qed.
Print Assumptions C70_sorted_insertions_refuted.

(** [remove] on a BST, AVL or SplayTree whose values are in order.  It raises RecursionError
    and changes nothing if it cannot look up the value and its replacement; it does what it
    does without a limit if it can also exchange the values; and if it runs out of stack in
    between, it leaves the same values in the tree, out of order. *)
Theorem C70_removal c os rs s t x L : c = CBST \/ c = CAVL \/ c = CSplay -> no_removals os ->
  history c os = Some (rs, s) -> shape s = Some t -> t <> Nil ->
  (L < removal_looks x (values t) -> call_l c (L, TRemove (PNum x)) s = Some (ORaise RecursionError, s)) /\
  (removal_looks x (values t) <= L -> removal_exchanges x (values t) <= L -> call_l c (L, TRemove (PNum x)) s = call c (TRemove (PNum x)) s) /\
  (removal_looks x (values t) <= L -> L < removal_exchanges x (values t) ->
   exists s' t', call_l c (L, TRemove (PNum x)) s = Some (ORaise RecursionError, s') /\ shape s' = Some t' /\
     inorder (values t') ≡ₚ inorder (values t) /\ ~ increasing (inorder (values t'))).
Proof.
  intros Hc Ho Hh Ht Hn. destruct (no_removals_rep c os rs s Hc Ho Hh) as (T & HR & Hinc).
  pose proof (rep_shape s T HR) as E. rewrite Ht in E. injection E as ->. pose proof (rep_held' s T HR) as HT.
  change (values (bin_map snd T)) with (vmap T). assert (T <> Nil) as HTn by (by intros ->).
  unfold call_l, call. cbn [fst snd exec_l exec]. unfold bind. split_and!.
  - intros H. by rewrite (remove_raises_shared c x s L T Hc HT HTn H).
  - intros H1 H2. by rewrite (remove_fits_shared c x s L T Hc HT H1 H2).
  - intros H1 H2. destruct (remove_stuck c x s L T Hc HT) as (s' & T' & E & HH & _ & HP & HI & _); [by apply (rep_nodup s)| |done|done|].
    { unfold vmap. by rewrite inorder_vals. }
    exists s', (bin_map snd T'). rewrite E. split_and!; try done. unfold shape. destruct HH as [HH HL]. unfold tree_pays, get_root, get_fuel, bind.
    by rewrite (snap_snapshot T' _ _ _ HH HL).
Qed.
Print Assumptions C70_removal.
(** A SplayTree of increasing values, with all calls made from the same depth: whatever the
    room for [L] activations, all insertions are accepted, and the removal of the largest of
    [L + 2] or more values raises RecursionError, with the tree still of the same length but
    out of order.  (The traversal that shows this is given more room.) *)
Theorem C70_splay_removal_refuted L vs v : 0 < L -> L < length vs -> increasing (vs ++ [v]) ->
  exists s l, history_l CSplay (map (fun o => (L, o)) (inserts (vs ++ [v]) ++ [TRemove (PNum v); TLen]) ++ [(S (length vs), TTraverse (PStr s_inorder))]) =
      Some (replicate (S (length vs)) (OUnit false) ++ [ORaise RecursionError; OInt (Z.of_nat (S (length vs))); OVals l], s) /\
    l ≡ₚ vs ++ [v] /\ ~ increasing l.
Proof.
  intros HL0 HL Hinc. destruct (splay_sorted L (vs ++ [v]) HL0 tst0 Nil rep0 Hinc I) as (s & T & E & HR & Hch & HI). cbn [ino app] in HI.
  destruct (splay_remove_last L vs v s T HR Hch HI Hinc HL0 HL) as (s' & T' & E1 & HH & Hn & HP & Hi).
  exists s', (inorder (vmap T')). split; [|done].
  unfold history_l. rewrite map_app. unfold inserts. rewrite map_map, <- app_assoc, calls_l_app, E. cbn [map app calls_l].
  assert (call_l CSplay (L, TRemove (PNum v)) s = Some (ORaise RecursionError, s')) as ->.
  { unfold call_l. cbn [fst snd exec_l]. unfold bind. by rewrite E1. }
  assert (call_l CSplay (L, TLen) s' = Some (OInt (Z.of_nat (S (length vs))), s')) as ->.
  { unfold call_l. cbn [fst snd exec_l exec]. unfold bst_len, get_len, bind, ret. rewrite Hn. destruct HR as (_ & _ & _ & _ & ->).
    rewrite <- ino_length, HI, app_length. cbn [length]. do 4 f_equal. lia. }
  assert (call_l CSplay (S (length vs), TTraverse (PStr s_inorder)) s' = Some (OVals (inorder (vmap T')), s')) as ->.
  { rewrite (call_deep CSplay _ (TTraverse (PStr s_inorder)) s' T' HH eq_refl). rewrite (proj2 (Nat.leb_le _ _)).
    - unfold call. cbn [exec]. rewrite (bind_ok _ _ _ _ _ (held_vals s' T' HH)). rewrite <- traverse_inorder. done.
    - cbn [needs]. change (descends (PStr s_inorder)) with true. cbn iota. etrans; [apply levels_inorder|]. rewrite HP, app_length. cbn. lia. }
  rewrite app_length. cbn [length]. by replace (length vs + 1) with (S (length vs)) by lia.
Qed.
Print Assumptions C70_splay_removal_refuted.

Example C70_example_removal :
  let os := map (fun o => (5, o)) (inserts (map Fin [1; 2; 3; 4; 5]%Z)) in
  (** Room for two activations only when 1 is to be removed. *)
  option_map fst (history_l CBST (os ++ [(2, TRemove (PInt 1)); (5, TLen); (5, TContains (PInt 1)); (5, TTraverse (PStr s_inorder))])) =
    Some [OUnit false; OUnit false; OUnit false; OUnit false; OUnit false; ORaise RecursionError; OInt 5; OBool false; OVals (map Fin [2; 3; 1; 4; 5]%Z)].
Proof. by vm_compute. Qed.
Example C70_example_one_depth :
  option_map fst (history_l CBST (map (fun o => (3, o)) (inserts (map Fin [1; 2; 3; 4; 5]%Z) ++ [TRemove (PInt 4); TRemove (PInt 2); TInsert (PInt 5) (Drawn 0); TTraverse (PStr s_inorder)]))) =
    Some [OUnit false; OUnit false; OUnit false; OUnit false; ORaise RecursionError; ORaise RecursionError; OUnit false; OUnit false; ORaise RecursionError].
Proof. by vm_compute. Qed.
Example C70_example_avl : let os := map (fun o => (7, o)) (inserts (map Fin [1; 2; 3; 4; 5; 6; 7; 8; 9]%Z) ++ [TContains (PInt 9)]) in
  no_removals (calls_of os) /\ Forall (fun Lo => 2 * Nat.log2 (length os + 1) + 1 <= fst Lo) os.
Proof. split; [by repeat constructor|]. repeat (constructor; [vm_compute; lia|]). constructor. Qed.
Example C70_example_splay : let vs := map Fin [1; 2; 3; 4]%Z in 0 < 3 /\ 3 < length vs /\ increasing (vs ++ [Fin 5]).
Proof. split; [lia|]. split; [cbn; lia|]. repeat constructor. Qed.
Example C70_example_removal_cases : exists rs s t, no_removals (inserts (map Fin [4; 2; 3; 5; 6; 7; 8]%Z)) /\
  history CBST (inserts (map Fin [4; 2; 3; 5; 6; 7; 8]%Z)) = Some (rs, s) /\ shape s = Some t /\ t <> Nil /\
  removal_looks (Fin 4) (values t) = 1 /\ removal_exchanges (Fin 4) (values t) = 4 /\
  removal_looks (Fin 2) (values t) = 2 /\ removal_exchanges (Fin 2) (values t) = 1.
Proof. eexists _, _, _. split; [by repeat constructor|]. by vm_compute. Qed.
