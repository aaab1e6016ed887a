(** * Insertion and removal under a recursion limit *)
From Verif Require Import Base TreeModel TreeSpec BstModel BalModel BstSpec TreeIterThm TreeIterThm3 DepthModel DepthSpec DepthThm.
Local Open Scope py_scope.

Lemma deep_bind {A B} (m m' : M tst A) (k : A -> M tst B) n L s :
  m' s = deep n L m s -> bind m' k s = deep n L (bind m k) s.
Proof. unfold bind, deep. intros ->. by destruct (Nat.leb n L). Qed.
Lemma deep_0 {A} L (m : M tst A) s : deep 0 L m s = m s.
Proof. done. Qed.
Lemma held_root s T : held s T -> t_root s = None <-> T = Nil.
Proof. intros [H _]. destruct T as [|l ix r]; [by cbn in H|]. destruct H as [-> _]. done. Qed.
Lemma vmap_nil T : T = Nil -> vmap T = Nil.
Proof. by intros ->. Qed.

(** ** Insertion *)
Lemma insert_eq c x p s L T : held s T ->
  insert_l L c (PNum x) p s = deep (if prio_ok c p then path x (vmap T) else 0) L (tree_insert c (PNum x) p) s.
Proof.
  intros H. pose proof (proj1 (held_root s T H)) as Hr. pose proof (fun pr => insert_value_l_eq c x pr s L T H) as E.
  destruct s as [m [i|] n]; cbn [t_root] in Hr.
  - destruct c; cbn [prio_ok].
    + exact (deep_bind _ _ _ _ _ _ (E (Fin 0))).
    + exact (deep_bind _ _ _ _ _ _ (E (Fin 0))).
    + exact (deep_bind _ _ _ _ _ _ (E (Fin 0))).
    + destruct p as [d|v]; [exact (deep_bind _ _ _ _ _ _ (E (Fin d)))|].
      destruct v as [|y| | | |]; [exact (deep_bind _ _ _ _ _ _ (E (Fin 0)))|exact (deep_bind _ _ _ _ _ _ (E y))|done..].
    + exact (deep_bind _ _ _ _ _ _ (E (Fin 0))).
  - rewrite (Hr eq_refl). replace (if prio_ok c p then path x (vmap Nil) else 0) with 0 by (by destruct (prio_ok c p)).
    destruct c; try done. destruct p as [d|v]; [done|]. by destruct v.
Qed.
Lemma insert_other c v p s L : (forall x, v <> PNum x) -> insert_l L c v p s = tree_insert c v p s.
Proof. intros H. destruct v as [|y| | | |]; [by destruct c|by edestruct H|by destruct c..]. Qed.
Lemma contains_other c v s L : (forall x, v <> PNum x) -> contains_l L c v s = tree_contains c v s.
Proof.
  intros H. destruct v as [|y| | | |]; try (by edestruct H); destruct c; try done;
    unfold contains_l, tree_contains, bst_contains, bst_is_empty, get_root, ret, bind; by destruct (t_root s).
Qed.

(** ** Removal: following the nodes *)
Lemma search_found v T : forall i s f, snap (t_nodes s) (Some i) T -> nlevels T <= f ->
  exists j, search f v i s = Ok j s /\ exists l x r, snap (t_nodes s) (Some j) (Bin l (j, x) r) /\ nlevels (Bin l (j, x) r) <= nlevels T /\
    (v = p_val x -> vmap (Bin l (j, x) r) = subtree_at v (vmap T)) /\ (v <> p_val x -> subtree_at v (vmap T) = Nil).
Proof.
  induction T as [|l IHl [k x] r IHr]; intros i s f H Hf; [done|].
  pose proof H as ([= ->] & c & Hc & Hx & Hl & Hr). cbn [fst snd] in *. cbn [nlevels] in Hf. destruct f as [|f]; [lia|]. cbn [search].
  assert (forall A (q : num -> M tst A), bind (get_data k) q s = q (p_val x) s) as E2.
  { intros. unfold get_data, rd, ret, bind. by rewrite Hc, Hx. }
  assert (forall A (q : option nat -> M tst A), bind (get_left k) q s = q (c_left c) s) as E3.
  { intros. unfold get_left, rd, ret, bind. by rewrite Hc. }
  assert (forall A (q : option nat -> M tst A), bind (get_right k) q s = q (c_right c) s) as E4.
  { intros. unfold get_right, rd, ret, bind. by rewrite Hc. }
  rewrite E2. change (vmap (Bin l (k, x) r)) with (Bin (vmap l) (p_val x) (vmap r)). cbn [subtree_at].
  destruct (decide (v = p_val x)) as [->|Hne].
  - rewrite bool_decide_eq_true_2 by done. exists k. split; [done|]. exists l, x, r. by split_and!.
  - rewrite bool_decide_eq_false_2 by done. destruct (num_ltb v (p_val x)) eqn:Hlt.
    + rewrite E3. destruct (c_left c) as [q|].
      * destruct (IHl q s f Hl ltac:(lia)) as (j & E & l' & x' & r' & H1 & H2 & H3). exists j. split; [done|]. exists l', x', r'. split_and!; [done|cbn [nlevels] in *; lia|apply H3..].
      * exists k. split; [done|]. exists l, x, r. destruct l; [|by destruct Hl]. by split_and!.
    + rewrite E4. destruct (c_right c) as [q|].
      * destruct (IHr q s f Hr ltac:(lia)) as (j & E & l' & x' & r' & H1 & H2 & H3). exists j. split; [done|]. exists l', x', r'. split_and!; [done|cbn [nlevels] in *; lia|apply H3..].
      * exists k. split; [done|]. exists l, x, r. destruct r; [|by destruct Hr]. by split_and!.
Qed.
Lemma min_found T : forall i s f j s', snap (t_nodes s) (Some i) T -> get_min_node f i s = Ok j s' ->
  s' = s /\ snap (t_nodes s) (Some j) (at_leftmost T).
Proof.
  induction T as [|l IHl [k x] r IHr]; intros i s f j s' H E; [done|].
  pose proof H as ([= ->] & c & Hc & Hx & Hl & Hr). cbn [fst snd] in *. destruct f as [|f]; [done|]. cbn [get_min_node] in E.
  assert (forall A (q : option nat -> M tst A), bind (get_left k) q s = q (c_left c) s) as E3.
  { intros. unfold get_left, rd, ret, bind. by rewrite Hc. }
  rewrite E3 in E. destruct (c_left c) as [q|] eqn:El.
  - destruct (IHl q s f j s' Hl E) as [-> H1]. split; [done|]. destruct l; [done|exact H1].
  - injection E as <- <-. split; [done|]. destruct l; [exact H|by destruct Hl].
Qed.
Lemma max_found T : forall i s f j s', snap (t_nodes s) (Some i) T -> get_max_node f i s = Ok j s' ->
  s' = s /\ snap (t_nodes s) (Some j) (at_rightmost T).
Proof.
  induction T as [|l IHl [k x] r IHr]; intros i s f j s' H E; [done|].
  pose proof H as ([= ->] & c & Hc & Hx & Hl & Hr). cbn [fst snd] in *. destruct f as [|f]; [done|]. cbn [get_max_node] in E.
  assert (forall A (q : option nat -> M tst A), bind (get_right k) q s = q (c_right c) s) as E3.
  { intros. unfold get_right, rd, ret, bind. by rewrite Hc. }
  rewrite E3 in E. destruct (c_right c) as [q|] eqn:El.
  - destruct (IHr q s f j s' Hr E) as [-> H1]. split; [done|]. destruct r; [done|exact H1].
  - injection E as <- <-. split; [done|]. destruct r; [exact H|by destruct Hr].
Qed.
Lemma leftmost_levels {A} (t : bin A) : nlevels (at_leftmost t) <= nlevels t.
Proof. induction t as [|l IHl x r IHr]; [done|]. destruct l; [done|]. change (at_leftmost (Bin ?a x r)) with (at_leftmost a). cbn [nlevels] in *. lia. Qed.
Lemma rightmost_levels {A} (t : bin A) : nlevels (at_rightmost t) <= nlevels t.
Proof. induction t as [|l IHl x r IHr]; [done|]. destruct r; [done|]. change (at_rightmost (Bin l x ?a)) with (at_rightmost a). cbn [nlevels] in *. lia. Qed.
Lemma replacement_levels {A} (t : bin A) : nlevels (replacement t) < S (nlevels t).
Proof.
  destruct t as [|l x r]; [cbn; lia|]. destruct r as [|rl rx rr].
  - destruct l as [|ll lx lr]; [cbn; lia|]. pose proof (rightmost_levels (Bin ll lx lr)).
    change (nlevels (at_rightmost (Bin ll lx lr)) < S (S (Nat.max (nlevels (Bin ll lx lr)) 0))). lia.
  - pose proof (leftmost_levels (Bin rl rx rr)).
    change (nlevels (at_leftmost (Bin rl rx rr)) < S (S (Nat.max (nlevels l) (nlevels (Bin rl rx rr))))). lia.
Qed.
Lemma branch_levels {A} (t : bin A) : replacement_branch t <= nlevels t.
Proof.
  destruct t as [|l x r]; [done|]. destruct r as [|rl rx rr].
  - destruct l as [|ll lx lr]; [cbn; lia|]. pose proof (right_levels (Bin ll lx lr)).
    change (right_branch (Bin ll lx lr) <= S (Nat.max (nlevels (Bin ll lx lr)) 0)). lia.
  - pose proof (left_levels (Bin rl rx rr)).
    change (left_branch (Bin rl rx rr) <= S (Nat.max (nlevels l) (nlevels (Bin rl rx rr)))). lia.
Qed.
Lemma exchanges_levels {A} (t : bin A) : exchanges t <= nlevels t.
Proof. induction t as [|l IHl x r IHr]; [done|]. destruct l as [|ll lx lr].
  - change (exchanges (Bin Nil x r)) with (S (exchanges r)). cbn [nlevels]. lia.
  - change (exchanges (Bin (Bin ll lx lr) x r)) with (S (exchanges (Bin ll lx lr))).
    change (nlevels (Bin (Bin ll lx lr) x r)) with (S (Nat.max (nlevels (Bin ll lx lr)) (nlevels r))). lia.
Qed.

Lemma replacement_eq T i s L : snap (t_nodes s) (Some i) T -> nlevels T <= S (length (t_nodes s)) ->
  find_replacement_l L i s = deep (replacement_branch T) L (find_replacement i) s.
Proof.
  intros H Hf. destruct T as [|l [k x] r]; [done|]. destruct H as ([= ->] & c & Hc & Hx & Hl & Hr). cbn [fst snd] in *.
  unfold find_replacement_l, find_replacement.
  assert (forall A (q : option nat -> M tst A), bind (get_left k) q s = q (c_left c) s) as E3.
  { intros. unfold get_left, rd, ret, bind. by rewrite Hc. }
  assert (forall A (q : option nat -> M tst A), bind (get_right k) q s = q (c_right c) s) as E4.
  { intros. unfold get_right, rd, ret, bind. by rewrite Hc. }
  cbn [nlevels] in Hf. unfold deep. rewrite !E4. destruct (c_right c) as [j|] eqn:Er.
  - destruct r as [|rl rx rr]; [done|]. cbn [replacement_branch].
    apply (deep_bind _ _ _ _ _ _ (min_l_eq _ j s L (S (length (t_nodes s))) Hr ltac:(lia))).
  - destruct r as [|rl rx rr]; [|by destruct Hr]. rewrite !E3. destruct (c_left c) as [j|] eqn:El.
    + destruct l as [|ll lx lr]; [done|]. cbn [replacement_branch].
      apply (deep_bind _ _ _ _ _ _ (max_l_eq _ j s L (S (length (t_nodes s))) Hl ltac:(lia))).
    + by destruct l as [|ll lx lr]; [|by destruct Hl].
Qed.
Lemma replacement_found T i s p s' : snap (t_nodes s) (Some i) T -> find_replacement i s = Ok p s' ->
  s' = s /\ snap (t_nodes s) p (replacement T).
Proof.
  intros H E. destruct T as [|l [k x] r]; [done|]. destruct H as ([= ->] & c & Hc & Hx & Hl & Hr). cbn [fst snd] in *.
  unfold find_replacement in E.
  assert (forall A (q : option nat -> M tst A), bind (get_left k) q s = q (c_left c) s) as E3.
  { intros. unfold get_left, rd, ret, bind. by rewrite Hc. }
  assert (forall A (q : option nat -> M tst A), bind (get_right k) q s = q (c_right c) s) as E4.
  { intros. unfold get_right, rd, ret, bind. by rewrite Hc. }
  rewrite E4 in E. destruct (c_right c) as [j|] eqn:Er.
  - destruct r as [|rl rx rr]; [done|]. unfold get_fuel, bind, ret in E.
    destruct (get_min_node _ j s) as [q s1|e s1|] eqn:Em; [|done|done]. injection E as <- <-.
    by apply (min_found _ _ _ _ _ _ Hr) in Em.
  - destruct r as [|rl rx rr]; [|by destruct Hr]. rewrite E3 in E. destruct (c_left c) as [j|] eqn:El.
    + destruct l as [|ll lx lr]; [done|]. unfold get_fuel, bind, ret in E.
      destruct (get_max_node _ j s) as [q s1|e s1|] eqn:Em; [|done|done]. injection E as <- <-.
      by apply (max_found _ _ _ _ _ _ Hl) in Em.
    + destruct l as [|ll lx lr]; [|by destruct Hl]. by injection E as <- <-.
Qed.

(** ** Removal: the links, which the exchanges of values do not touch *)
Fixpoint lk {A} (m : list cell) (p : option nat) (t : bin (nat * A)) : Prop :=
  match t with
  | Nil => p = None
  | Bin l ix r => p = Some ix.1 /\ exists c, m !! ix.1 = Some c /\ lk m (c_left c) l /\ lk m (c_right c) r
  end.
Definition same_links (m m' : list cell) : Prop :=
  forall i c, m !! i = Some c -> exists c', m' !! i = Some c' /\ c_left c' = c_left c /\ c_right c' = c_right c /\ c_parent c' = c_parent c.
Lemma snap_lk m t : forall p, snap m p t -> lk m p t.
Proof. induction t as [|l IHl ix r IHr]; intros p H; [done|]. destruct H as (-> & c & Hc & _ & Hl & Hr). split; [done|]. exists c. auto. Qed.
Lemma lk_same {A} m m' (t : bin (nat * A)) : same_links m m' -> forall p, lk m p t -> lk m' p t.
Proof.
  intros Hm. induction t as [|l IHl ix r IHr]; intros p H; [done|]. destruct H as (-> & c & Hc & Hl & Hr). split; [done|].
  destruct (Hm _ _ Hc) as (c' & Hc' & E1 & E2 & _). exists c'. rewrite E1, E2. auto.
Qed.
Lemma same_refl m : same_links m m.
Proof. intros i c H. by exists c. Qed.
Lemma same_trans m1 m2 m3 : same_links m1 m2 -> same_links m2 m3 -> same_links m1 m3.
Proof.
  intros H1 H2 i c Hc. destruct (H1 _ _ Hc) as (c1 & Hc1 & A1 & A2 & A3). destruct (H2 _ _ Hc1) as (c2 & Hc2 & B1 & B2 & B3).
  exists c2. split_and!; congruence.
Qed.
(** A computation that only changes what the nodes store. *)
Definition quiet {A} (m : M tst A) : Prop := forall s,
  match m s with
  | Ok _ s' | Exc _ s' => same_links (t_nodes s) (t_nodes s') /\ t_root s' = t_root s /\ t_len s' = t_len s
  | Diverge => True
  end.
Lemma quiet_bind {A B} (m : M tst A) (k : A -> M tst B) : quiet m -> (forall a, quiet (k a)) -> quiet (bind m k).
Proof.
  intros Hm Hk s. unfold bind. specialize (Hm s). destruct (m s) as [a s1|e s1|]; [|done|done].
  specialize (Hk a s1). destruct (k a s1) as [b s2|e s2|]; [| |done]; destruct Hm as (H1 & H2 & H3), Hk as (K1 & K2 & K3);
    (split_and!; [by eapply same_trans|congruence|congruence]).
Qed.
Lemma quiet_rd i : quiet (rd i).
Proof. intros s. unfold rd. destruct (t_nodes s !! i); by split; [apply same_refl|]. Qed.
Lemma quiet_ret {A} (a : A) : quiet (ret a).
Proof. intros s. by split; [apply same_refl|]. Qed.
Lemma quiet_wr i f : (forall c, c_left (f c) = c_left c /\ c_right (f c) = c_right c /\ c_parent (f c) = c_parent c) -> quiet (wr i f).
Proof.
  intros Hf s. unfold wr. destruct (t_nodes s !! i) as [ci|] eqn:E; [|by split; [apply same_refl|]]. cbn [t_nodes t_root t_len].
  split; [|done]. intros j c Hc. destruct (decide (j = i)) as [->|Hne].
  - exists (f ci). rewrite Hc in E. injection E as ->. rewrite list_lookup_insert by (by eapply lookup_lt_Some). by split.
  - exists c. by rewrite list_lookup_insert_ne.
Qed.
Lemma quiet_swap c i j : quiet (swap c i j).
Proof.
  unfold swap. repeat first [apply quiet_rd|apply quiet_ret|apply quiet_wr; by intros|apply quiet_bind; [|intros ?]|progress cbv zeta].
  destruct c; repeat first [apply quiet_ret|apply quiet_wr; by intros|apply quiet_bind; [|intros ?]].
Qed.
Lemma quiet_color i k : quiet (set_color i k).
Proof. apply quiet_wr. by intros. Qed.

Lemma transplant_eq {A} c (R : bin (nat * A)) : forall node p s L f, lk (t_nodes s) p R -> exchanges R <= L -> exchanges R < f ->
  transplant_l L c node p s = transplant f c node p s.
Proof.
  induction R as [|l IHl [k x] r IHr]; intros node p s L f H HL Hf.
  { cbn in H. subst p. destruct f; [lia|]. by destruct L. }
  destruct H as (-> & ce & Hc & Hl & Hr). cbn [fst] in *.
  destruct L as [|L]; [destruct l; cbn in HL; lia|]. destruct f as [|f]; [lia|]. cbn [transplant_l transplant].
  assert (forall B (q : bool -> M tst B), bind (node_is_leaf k) q s = q (match c_left ce, c_right ce with None, None => true | _, _ => false end) s) as E1.
  { intros. unfold node_is_leaf, get_left, get_right, rd, ret, bind. repeat (rewrite Hc; cbv beta iota). done. }
  assert (forall B (q : option nat -> M tst B), bind (get_left k) q s = q (c_left ce) s) as E3.
  { intros. unfold get_left, rd, ret, bind. by rewrite Hc. }
  assert (get_right k s = Ok (c_right ce) s) as E4.
  { intros. unfold get_right, rd, ret, bind. by rewrite Hc. }
  rewrite !E1.
  set (nr := match c_left ce with Some _ => c_left ce | None => c_right ce end).
  assert (forall B (q : option nat -> M tst B),
    bind (if (match c_left ce, c_right ce with None, None => true | _, _ => false end) then ret None
          else let! l0 := get_left k in match l0 with Some _ => ret l0 | None => get_right k end) q s = q nr s) as E5.
  { intros. unfold nr. unfold bind at 1. destruct (c_left ce), (c_right ce); try done; rewrite E3; cbn; try rewrite E4; done. }
  rewrite !E5. unfold bind at 1 2. pose proof (quiet_swap c node k s) as Hq.
  destruct (swap c node k s) as [u s1|e s1|]; [|done|done]. destruct Hq as (Hq & _ & _).
  unfold nr. destruct l as [|ll lx lr].
  - cbn in Hl. rewrite Hl. cbn [exchanges] in HL, Hf. apply IHr; [by eapply lk_same|lia|lia].
  - pose proof Hl as [El _]. rewrite El. rewrite <- El. change (exchanges (Bin (Bin ll lx lr) (k, x) r)) with (S (exchanges (Bin ll lx lr))) in HL, Hf.
    apply IHl; [by eapply lk_same|lia|lia].
Qed.
