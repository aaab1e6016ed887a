(** * C68: what the calls on a SplayTree cost.  Specification: SplayCostSpec.v, BstSpec.v. *)
From Coq Require Import Sorted.
From iris.proofmode Require Import proofmode.
From Verif Require Import Base NumOrd TreeModel TreeSpec BstModel BalModel BstSpec BstSep BstRules BstZip BstDel BinThm BstPure BstThm AvlThm SplayThm SplayProps
  TreeIterThm TreeIterThm3 BuildProps SplayCostSpec SplayCost SplayCostThm.
Local Open Scope nat_scope.

(** ** Finding *)
(** In every history of a SplayTree in which every removed value is replaceable (C31) and
    which never holds more than [n] elements, the calls look at no more than
    4 * log2 (n + 1) nodes on average, whatever the order of the calls. *)
Theorem C68_finding_is_logarithmic : forall n os, removals_replaceable CSplay os -> at_most n CSplay os ->
  exists w, total CSplay looks os = Some w /\
    2 ^ w <= (n + 1) ^ (4 * length os) /\ w <= 4 * length os * S (Nat.log2 (n + 1)).
Proof.
  intros n os Hr Hn. destruct (total_splay n os tst0 Nil rep0) as (w & E & Hw); [constructor|cbn; lia|done|done|].
  exists w. split; [done|]. cbn [pot] in Hw. rewrite Nat.mul_1_l in Hw. split; [done|].
  assert (n + 1 <= 2 ^ S (Nat.log2 (n + 1))) as Hl by (apply Nat.lt_le_incl, Nat.log2_spec; lia).
  apply (Nat.pow_le_mono_l _ _ (4 * length os)) in Hl. rewrite -Nat.pow_mul_r in Hl.
  destruct (Nat.le_gt_cases w (4 * length os * S (Nat.log2 (n + 1)))) as [|Hgt]; [done|exfalso].
  apply (Nat.pow_lt_mono_r 2) in Hgt; [|lia]. rewrite (Nat.mul_comm (S (Nat.log2 (n + 1)))) in Hl. apply (Nat.lt_irrefl (2 ^ w)). eapply Nat.le_lt_trans; [exact Hw|]. by eapply Nat.le_lt_trans; [exact Hl|].
Qed.
Print Assumptions C68_finding_is_logarithmic.

(** What [looks] counts is what the code does: a search from the root calls itself exactly
    once for each node of [visits], in any tree. *)
Lemma search_snap x T : forall m p i f s, snap m p T -> t_nodes s = m -> p = Some i ->
  (visits x (bin_map p_val (bin_map snd T)) <= f -> exists j, search f x i s = Ok j s) /\
  (f < visits x (bin_map p_val (bin_map snd T)) -> search f x i s = Diverge).
Proof.
  induction T as [|l IHl [j y] r IHr]; intros m p i f s Hs Hm Hp; cbn [snap] in Hs; [congruence|].
  destruct Hs as (Hp' & c & Hc & Hy & Hl & Hr). rewrite Hp in Hp'. injection Hp' as ->. cbn [fst snd] in *.
  cbn [bin_map visits snd fst]. destruct f as [|f]; [split; [lia|done]|]. cbn [search].
  assert (get_data j s = Ok (p_val y) s) as Hd by (unfold get_data, bind, rd, ret; by rewrite Hm Hc Hy).
  rewrite (bind_ok _ _ _ _ _ Hd). destruct (decide (x = p_val y)) as [->|Hx].
  { rewrite bool_decide_eq_true_2 //. split; [by eexists|lia]. }
  rewrite bool_decide_eq_false_2 //. destruct (num_ltb x (p_val y)).
  - assert (get_left j s = Ok (c_left c) s) as Hg by (unfold get_left, bind, rd, ret; by rewrite Hm Hc).
    rewrite (bind_ok _ _ _ _ _ Hg). destruct (c_left c) as [k|] eqn:Ec.
    + destruct (IHl m (Some k) k f s Hl Hm eq_refl) as [H1 H2]. split; intros H; [apply H1|apply H2]; lia.
    + destruct l as [|l1 [] l2]; [|cbn [snap] in Hl; destruct Hl; congruence]. cbn [bin_map visits]. split; [by eexists|lia].
  - assert (get_right j s = Ok (c_right c) s) as Hg by (unfold get_right, bind, rd, ret; by rewrite Hm Hc).
    rewrite (bind_ok _ _ _ _ _ Hg). destruct (c_right c) as [k|] eqn:Ec.
    + destruct (IHr m (Some k) k f s Hr Hm eq_refl) as [H1 H2]. split; intros H; [apply H1|apply H2]; lia.
    + destruct r as [|l1 [] l2]; [|cbn [snap] in Hr; destruct Hr; congruence]. cbn [bin_map visits]. split; [by eexists|lia].
Qed.
Theorem C68_search_calls_itself_per_node : forall s t x i f, shape s = Some t -> t_root s = Some i ->
  (visits x (bin_map p_val t) <= f -> exists j, search f x i s = Ok j s) /\
  (f < visits x (bin_map p_val t) -> search f x i s = Diverge).
Proof. intros s t x i f Ht Hi. destruct (shape_snap _ _ Ht) as (T & HT & <-). by eapply search_snap. Qed.
Print Assumptions C68_search_calls_itself_per_node.

(** ** Removing *)
(** A single branch to the right. *)
Definition rchain (l : list num) : bin num := foldr (fun x t => Bin Nil x t) Nil l.
Definition nums (a k : nat) : list num := map (fun i => Fin (Z.of_nat i)) (seq a k).
(** Insert [n], [n - 1], ..., 1 and then remove 1, 2, ..., [n]. *)
Definition fill_down (n : nat) : list top := inserts (rev (nums 1 n)).
Definition take_minima (a k : nat) : list top := map (fun x => TRemove (PNum x)) (nums a k).

Lemma vals_Bin T l x r : vals T = Bin l x r -> exists l' ix r', T = Bin l' ix r' /\ vals l' = l /\ p_val ix.2 = x /\ vals r' = r.
Proof. destruct T as [|l' ix r']; [done|]. unfold vals. cbn. intros [= <- <- <-]. by eexists _, _, _. Qed.
Lemma vals_Nil T : vals T = Nil -> T = Nil.
Proof. by destruct T. Qed.
Lemma ino_vals T : ino T = inorder (vals T).
Proof. induction T as [|l IHl ix r IHr]; [done|]. cbn. rewrite IHl IHr. done. Qed.
Lemma inorder_rchain l : inorder (rchain l) = l.
Proof. induction l as [|x l IH]; [done|]. cbn. by rewrite IH. Qed.
Lemma only_right_rchain l : only_right (rchain l).
Proof. by induction l. Qed.
Lemma branch_rchain l : branch (rchain l) = length l.
Proof. induction l as [|x l IH]; [done|]. cbn. by rewrite IH. Qed.
Lemma vals_chain l : forall T x, vals T = rchain (x :: l) -> vals (chain CSplay T) = rchain l.
Proof.
  induction l as [|y l IH]; intros T x H; apply vals_Bin in H as (l' & ix & r' & -> & Hl%vals_Nil & Hx & Hr); subst l'.
  - apply vals_Nil in Hr as ->. done.
  - pose proof Hr as Hr'. apply vals_Bin in Hr as (l2 & jy & r2 & -> & Hl2%vals_Nil & Hy & Hr2). subst l2. specialize (IH _ _ Hr').
    rewrite chain_u. destruct (leafb _); unfold node, vals in *; cbn [bin_map snd fst refresh] in *; rewrite IH; cbn; by rewrite Hy.
Qed.
Lemma insert_below s T x y l : rep s T -> vals T = rchain (y :: l) -> increasing (x :: y :: l) ->
  exists r s' T', call CSplay (TInsert (PNum x) (Drawn 0)) s = Some (r, s') /\ rep s' T' /\ vals T' = rchain (x :: y :: l).
Proof.
  intros H HV Hi. assert (increasing (ino T)) as Hinc by (rewrite ino_vals HV inorder_rchain; by apply StronglySorted_inv in Hi as [? _]).
  destruct (splay_insert_exact s T x (Drawn 0) H Hinc) as (w & s' & T' & a & jy & u & E & HR & -> & HC).
  eexists _, s', _. split_and!; [apply call_ok; cbn [exec]; by rewrite (bind_ok _ _ _ _ _ E)|exact HR|].
  apply vals_Bin in HV as (l' & ix & r' & -> & Hl%vals_Nil & Hx & Hr); subst l'.
  assert (num_ltb x (p_val ix.2) = true) as Hlt.
  { rewrite Hx. apply StronglySorted_inv in Hi as [_ Hi]. by apply Forall_cons in Hi as [Hi _]. }
  assert (x <> p_val ix.2) as Hne. { intros ->. destruct (p_val ix.2); cbn in Hlt; try done. lia. }
  cbn [zfind] in HC |- *. rewrite bool_decide_eq_false_2 // Hlt in HC |- *. cbn [fst snd app] in *.
  destruct HC as [(_ & -> & -> & HC)|HC]; [|done]. unfold atroot, vals in *. cbn. by rewrite HC Hx Hr.
Qed.
Lemma insert_first x : exists r s' T', call CSplay (TInsert (PNum x) (Drawn 0)) tst0 = Some (r, s') /\ rep s' T' /\ vals T' = rchain [x].
Proof.
  destruct (splay_insert_exact tst0 Nil x (Drawn 0) rep0) as (w & s' & T' & a & jy & u & E & HR & -> & HC); [constructor|].
  eexists _, s', _. split_and!; [apply call_ok; cbn [exec]; by rewrite (bind_ok _ _ _ _ _ E)|exact HR|].
  destruct HC as [(_ & -> & -> & HC)|HC]; [|done]. unfold atroot, vals. cbn. by rewrite HC.
Qed.
Lemma remove_first s T x l : rep s T -> vals T = rchain (x :: l) -> increasing (x :: l) ->
  exists r s' T', call CSplay (TRemove (PNum x)) s = Some (r, s') /\ rep s' T' /\ vals T' = rchain l.
Proof.
  intros H HV Hi. assert (increasing (ino T)) as Hinc by (by rewrite ino_vals HV inorder_rchain).
  pose proof HV as HV'. apply vals_Bin in HV as (l' & ix & r' & -> & Hl%vals_Nil & Hx & Hr); subst l'.
  assert (zfind x (Bin Nil ix r') = ([], Bin Nil ix r')) as EZ by (cbn [zfind]; by rewrite bool_decide_eq_true_2).
  destruct (splay_remove_exact s _ x H Hinc) as (w & s' & T' & E & HR & HC).
  { rewrite EZ -(replaceable_map snd) -(replaceable_map p_val). change (bin_map p_val (bin_map snd (snd ([] : ctx, Bin Nil ix r')))) with (vals (Bin Nil ix r')). rewrite HV'.
    destruct l as [|y l]; [done|]. apply only_right_rchain. }
  exists (OUnit w), s', T'. split_and!; [apply call_ok; cbn [exec]; by rewrite (bind_ok _ _ _ _ _ E)|exact HR|].
  rewrite EZ in HC. cbn [fst snd] in HC. destruct HC as [[? _]|[(ix' & [= -> ->] & _ & ->)|(zl & jy & zu & Ez & -> & _ & HL)]]; [done| |].
  { destruct l; done. }
  destruct l as [|y l]; [apply vals_Nil in Hr as ->; exfalso; by apply HL|].
  pose proof Hr as Hr'. apply vals_Bin in Hr as (l2 & ky & r2 & -> & Hl2%vals_Nil & Hy & Hr2). subst l2.
  unfold zremove, zrep in *. cbn [zmin fst snd app] in *.
  assert (vals (Bin zl jy zu) = rchain (y :: l)) as HG.
  { rewrite -Ez. unfold putdel. destruct (leafb (Bin Nil ky r2)) eqn:El.
    - assert (l = []) as ->. { destruct l; [done|]. apply vals_Bin in Hr2 as (? & ? & ? & -> & _). done. }
      unfold vals, fillc, node. cbn. by rewrite Hy.
    - unfold vals. cbn [fill bin_map snd fst]. apply vals_chain in Hr'. unfold vals in Hr'. rewrite Hr'. cbn. by rewrite Hy. }
  exact HG.
Qed.
Lemma nums_inc a k : increasing (nums a k).
Proof.
  revert a. induction k as [|k IH]; intros a; [constructor|]. unfold nums in *. cbn [List.seq List.map]. constructor; [apply IH|].
  apply Forall_map, Forall_forall. intros i Hi%elem_of_seq. unfold num_lt. cbn. lia.
Qed.
Lemma total_app c cost os1 : forall s os2 rs s1 w1, calls c os1 s = Some (rs, s1) -> total_from c cost os1 s = Some w1 ->
  total_from c cost (os1 ++ os2) s = option_map (Nat.add w1) (total_from c cost os2 s1).
Proof.
  induction os1 as [|o os1 IH]; intros s os2 rs s1 w1 Hc Ht.
  - cbn in *. injection Hc as <- <-. injection Ht as <-. by destruct (total_from c cost os2 s).
  - cbn [total_from calls app] in *. destruct (shape s) as [t|]; [|done]. destruct (call c o s) as [[r s']|]; [|done].
    destruct (calls c os1 s') as [[rs' s'']|] eqn:E1; [|done]. injection Hc as <- <-. destruct (total_from c cost os1 s') as [w|] eqn:E2; [|done]. cbn in Ht. injection Ht as <-.
    rewrite (IH s' os2 rs' s'' w E1 E2). destruct (total_from c cost os2 s''); [|done]. cbn. f_equal. lia.
Qed.
(** Building. *)
Lemma fill_down_run n : exists rs s T, calls CSplay (fill_down n) tst0 = Some (rs, s) /\ rep s T /\ vals T = rchain (nums 1 n) /\
  total_from CSplay moves (fill_down n) tst0 = Some 0.
Proof.
  enough (forall k a, exists rs s T, calls CSplay (inserts (rev (nums a k))) tst0 = Some (rs, s) /\ rep s T /\ vals T = rchain (nums a k) /\
    total_from CSplay moves (inserts (rev (nums a k))) tst0 = Some 0) as H by apply H.
  induction k as [|k IH]; intros a; [exists [], tst0, Nil; split_and!; try done; apply rep0|].
  destruct (IH (S a)) as (rs & s & T & Hc & HR & HV & HM).
  assert (inserts (rev (nums a (S k))) = inserts (rev (nums (S a) k)) ++ [TInsert (PNum (Fin (Z.of_nat a))) (Drawn 0)]) as ->.
  { unfold nums, inserts. cbn [List.seq List.map List.rev]. by rewrite map_app. }
  assert (exists r s' T', call CSplay (TInsert (PNum (Fin (Z.of_nat a))) (Drawn 0)) s = Some (r, s') /\ rep s' T' /\ vals T' = rchain (nums a (S k))) as (r & s' & T' & E & HR' & HV').
  { destruct k as [|k].
    - cbn in Hc. injection Hc as <- <-. apply insert_first.
    - eapply insert_below; [done|exact HV|]. apply (nums_inc a (S (S k))). }
  exists (rs ++ [r]), s', T'. split_and!; [|done|done|].
  - rewrite calls_app Hc. cbn [calls]. by rewrite E.
  - rewrite (total_app _ _ _ _ _ _ _ _ Hc HM). cbn [total_from]. by rewrite (rep_shape _ _ HR) E.
Qed.
Lemma take_minima_run k : forall a s T, rep s T -> vals T = rchain (nums a k) ->
  exists w, total_from CSplay moves (take_minima a k) s = Some w /\ 2 * w = (k - 1) * (k - 2).
Proof.
  induction k as [|k IH]; intros a s T HR HV; [by exists 0|].
  destruct (remove_first s T (Fin (Z.of_nat a)) (nums (S a) k) HR HV) as (r & s' & T' & E & HR' & HV'); [apply (nums_inc a (S k))|].
  destruct (IH (S a) s' T' HR' HV') as (w & Hw & H2).
  assert (moves (TRemove (PNum (Fin (Z.of_nat a)))) (vals T) = k - 1) as Hmv.
  { rewrite HV. cbn [moves nums List.seq List.map rchain foldr subtree_at]. rewrite decide_True //. unfold below_replacement.
    destruct k as [|k]; [done|]. cbn [List.seq List.map foldr below_leftmost]. fold (rchain (nums (S (S a)) k)). change (map (λ i : nat, Fin (Z.of_nat i)) (seq (S (S a)) k)) with (nums (S (S a)) k).
    rewrite branch_rchain. unfold nums. rewrite map_length seq_length. lia. }
  exists ((k - 1) + w). change (take_minima a (S k)) with (TRemove (PNum (Fin (Z.of_nat a))) :: take_minima (S a) k). cbn [total_from].
  rewrite (rep_shape _ _ HR) E Hw. change (bin_map p_val (bin_map snd T)) with (vals T). rewrite Hmv. split; [done|].
  destruct k as [|[|k]]; cbn in *; nia.
Qed.
(** Removing the minimum again and again from the tree made by inserting [n], ..., 1 moves
    (n - 1) * (n - 2) / 2 values: about n / 2 per removal. *)
Theorem C68_removing_minima_is_quadratic : forall n,
  exists w, total CSplay moves (fill_down n ++ take_minima 1 n) = Some w /\ 2 * w = (n - 1) * (n - 2).
Proof.
  intros n. destruct (fill_down_run n) as (rs & s & T & Hc & HR & HV & HM). destruct (take_minima_run n 1 s T HR HV) as (w & Hw & H2).
  exists w. split; [|done]. unfold total. by rewrite (total_app _ _ _ _ _ _ _ _ Hc HM) Hw.
Qed.
Print Assumptions C68_removing_minima_is_quadratic.
(** So the removals of a SplayTree are not logarithmic on average. *)
Theorem C68_removal_work_refuted : ~ exists c, forall n os, at_most n CSplay os ->
  exists w, total CSplay moves os = Some w /\ w <= c * length os * S (Nat.log2 (n + 1)).
Proof.
  intros [c H]. set (k := 16 * c + 16). set (n := 2 ^ k - 1). assert (k * k < 2 ^ k) as Hk.
  { assert (forall j, 5 <= j -> j * j < 2 ^ j) as Hj.
    { intros j Hj. induction j as [|j IH]; [lia|]. destruct (decide (j = 4)) as [->|]; [vm_compute; lia|]. specialize (IH ltac:(lia)). cbn [Nat.pow]. nia. }
    apply Hj. lia. }
  destruct (C68_removing_minima_is_quadratic n) as (w & Hw & H2).
  destruct (H n (fill_down n ++ take_minima 1 n)) as (w' & Hw' & Hle).
  - assert (forall os l, length (set_after CSplay os l) <= length l + length (filter (fun o => match o with TInsert _ _ => true | _ => false end = true) os)) as Hlen.
    { induction os as [|o os IH]; intros l; [cbn; lia|]. cbn [set_after]. etrans; [apply IH|]. rewrite filter_cons.
      assert (forall v l, length (set_add v l) <= S (length l)) as Hadd.
      { intros v l'. induction l' as [|y l' IHl]; cbn; [lia|]. repeat case_match; cbn; lia. }
      destruct o as [v p|v|v| | | | | | | | | | | |]; cbn [next]; try (case_decide; [done|lia]).
      - case_decide; [|done]. cbn [length]. destruct v as [|x| | | |]; try lia. destruct (prio_ok CSplay p); [|lia]. specialize (Hadd x l). lia.
      - case_decide; [done|]. destruct v as [|x| | | |]; try lia. unfold set_del. pose proof (filter_length (fun y => y <> x) l). lia.
      - case_decide; [done|]. cbn. lia. }
    intros pre post E. etrans; [apply Hlen|]. cbn [length Nat.add].
    transitivity (length (filter (fun o => match o with TInsert _ _ => true | _ => false end = true) (fill_down n ++ take_minima 1 n))).
    { rewrite E filter_app app_length. lia. }
    rewrite filter_app app_length. assert (filter (fun o => match o with TInsert _ _ => true | _ => false end = true) (take_minima 1 n) = []) as ->.
    { unfold take_minima. induction (nums 1 n) as [|y l IHl]; [done|]. cbn [List.map]. rewrite filter_cons. case_decide; [done|exact IHl]. }
    cbn [length]. rewrite Nat.add_0_r. etrans; [apply filter_length|]. unfold fill_down, inserts, nums. by rewrite map_length rev_length map_length seq_length.
  - rewrite Hw in Hw'. injection Hw' as <-.
    assert (length (fill_down n ++ take_minima 1 n) = 2 * n) as El.
    { unfold fill_down, take_minima, inserts, nums. rewrite app_length !map_length rev_length !map_length !seq_length. lia. }
    rewrite El in Hle. assert (n + 1 = 2 ^ k) as En by lia. rewrite En Nat.log2_pow2 in Hle; [|lia].
    assert (16 * c * k + 16 * k < n + 1) as HK by (rewrite En; etrans; [|exact Hk]; unfold k; nia).
    assert (n * (n - 3) <= (n - 1) * (n - 2)) as H3 by nia.
    assert (2 * w <= n * (4 * c * S k)) as H4 by lia.
    assert (n - 3 <= 4 * c * S k) as H5.
    { destruct (Nat.le_gt_cases (n - 3) (4 * c * S k)) as [|Hgt]; [done|exfalso].
      assert (n * (4 * c * S k) < n * (n - 3)) by (apply Nat.mul_lt_mono_pos_l; lia). lia. }
    assert (1 <= k) by lia. nia.
Qed.
Print Assumptions C68_removal_work_refuted.

(** A history with a removal that meets the hypotheses. *)
Definition example_history : list top :=
  inserts (map Fin [3; 2; 1]%Z) ++ [TContains (PInt 3); TRemove (PInt 1); TContains (PInt 1); TInsert (PInt 5) (Drawn 0)].
Lemma example_prefix pre post : example_history = pre ++ post -> pre = take (length pre) example_history /\ length pre <= 7.
Proof. intros E. split; [by rewrite E take_app|]. apply (f_equal length) in E. rewrite app_length in E. cbn in E. lia. Qed.
Example C68_example_replaceable : removals_replaceable CSplay example_history.
Proof.
  intros pre x post rs s t E Hh Ht. pose proof (f_equal (fun l => l !! length pre) E) as El. cbn beta in El. rewrite list_lookup_middle // in El.
  destruct (example_prefix _ _ E) as [Ep Hl]. rewrite Ep in Hh. clear Ep E.
  destruct (length pre) as [|[|[|[|[|[|[|[|m]]]]]]]]; cbn in El; try congruence; try lia.
  injection El as <-. vm_compute in Hh. injection Hh as <- <-. vm_compute in Ht. injection Ht as <-. vm_compute. exact I.
Qed.
Example C68_example_at_most : at_most 3 CSplay example_history.
Proof.
  intros pre post E. destruct (example_prefix _ _ E) as [-> Hl]. clear E.
  destruct (length pre) as [|[|[|[|[|[|[|[|m]]]]]]]]; try lia; vm_compute; lia.
Qed.
Example C68_example_totals :
  total CSplay looks example_history = Some 11 /\ total CSplay moves (fill_down 10 ++ take_minima 1 10) = Some 36.
Proof. split; vm_compute; reflexivity. Qed.
