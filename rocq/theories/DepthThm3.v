(** * Removal under a recursion limit, and whole histories *)
From Verif Require Import Base TreeModel TreeSpec BstModel BalModel BstSpec TreeIterThm TreeIterThm3 DepthModel DepthSpec DepthThm DepthThm2.
Local Open Scope py_scope.

Lemma leftmost_map {A B} (f : A -> B) t : at_leftmost (bin_map f t) = bin_map f (at_leftmost t).
Proof. induction t as [|l IHl x r IHr]; [done|]. destruct l; [done|exact IHl]. Qed.
Lemma rightmost_map {A B} (f : A -> B) t : at_rightmost (bin_map f t) = bin_map f (at_rightmost t).
Proof. induction t as [|l IHl x r IHr]; [done|]. destruct r; [done|exact IHr]. Qed.
Lemma replacement_map {A B} (f : A -> B) t : replacement (bin_map f t) = bin_map f (replacement t).
Proof. destruct t as [|l x r]; [done|]. destruct r; [apply (rightmost_map f l)|apply (leftmost_map f (Bin _ _ _))]. Qed.
Lemma left_map {A B} (f : A -> B) t : left_branch (bin_map f t) = left_branch t.
Proof. induction t as [|l IHl x r IHr]; [done|]. cbn. by rewrite IHl. Qed.
Lemma right_map {A B} (f : A -> B) t : right_branch (bin_map f t) = right_branch t.
Proof. induction t as [|l IHl x r IHr]; [done|]. cbn. by rewrite IHr. Qed.
Lemma branch_map {A B} (f : A -> B) t : replacement_branch (bin_map f t) = replacement_branch t.
Proof. destruct t as [|l x r]; [done|]. destruct r; [apply (right_map f l)|apply (left_map f (Bin _ _ _))]. Qed.
Lemma exchanges_map {A B} (f : A -> B) t : exchanges (bin_map f t) = exchanges t.
Proof. induction t as [|l IHl x r IHr]; [done|]. destruct l; cbn [bin_map exchanges]; f_equal; [done|exact IHl]. Qed.
Lemma subtree_levels v t : nlevels (subtree_at v t) <= nlevels t.
Proof. induction t as [|l IHl x r IHr]; [done|]. cbn. case_decide; [done|]. destruct (num_ltb v x); lia. Qed.
(** The node a search ends at. *)
Definition landed (x : num) (s : tst) (T : ltree) (j : nat) : Prop :=
  exists l y r, snap (t_nodes s) (Some j) (Bin l (j, y) r) /\ nlevels (Bin l (j, y) r) <= S (length (t_nodes s)) /\
    nlevels (Bin l (j, y) r) <= nlevels T /\ (x = p_val y -> vmap (Bin l (j, y) r) = subtree_at x (vmap T)) /\
    (x <> p_val y -> subtree_at x (vmap T) = Nil).
Lemma search_root_lands x s T : held s T -> T <> Nil -> exists j, search_root x s = Ok j s /\ landed x s T j.
Proof.
  intros [H Hf] HT. unfold search_root, get_root, get_fuel, bind. destruct (t_root s) as [i|]; [|by destruct T; [|by destruct H]].
  destruct (search_found x T i s _ H Hf) as (j & E & l & y & r & H1 & H2 & H3). exists j. split; [done|]. exists l, y, r. split_and!; [done|lia|done|apply H3..].
Qed.
Lemma search_root_empty x s : held s Nil -> search_root x s = Exc AssertionError s.
Proof. intros [H _]. cbn in H. unfold search_root, get_root, bind. by rewrite H. Qed.

Lemma remove_value_fits c x s L T : held s T -> path x (vmap T) <= L -> replacement_branch (subtree_at x (vmap T)) <= L ->
  exchanges (replacement (subtree_at x (vmap T))) <= L -> remove_value_l L c x s = remove_value c x s.
Proof.
  intros H H1 H2 H3. unfold remove_value_l, remove_value. unfold bind at 1. rewrite (search_root_l_eq x s L T H). unfold deep.
  rewrite (proj2 (Nat.leb_le _ _) H1). symmetry. unfold bind at 1.
  destruct (decide (t_root s = None)) as [Er|Er]; [rewrite (proj1 (held_root _ _ H) Er) in H; by rewrite (search_root_empty x s H)|].
  destruct (search_root_lands x s T H) as (j & E & l & y & r & Hs & Hf & _ & Hv & _); [by rewrite <- (held_root _ _ H)|].
  rewrite E. symmetry.
  assert (forall A (q : num -> M tst A), bind (get_data j) q s = q (p_val y) s) as E2.
  { intros. destruct Hs as (_ & c0 & Hc & Hx & _ & _). cbn [fst snd] in *. unfold get_data, rd, ret, bind. by rewrite Hc, Hx. }
  rewrite !E2. destruct (bool_decide_reflect (p_val y = x)) as [Ey|Hne]; [|done]. cbn [negb]. specialize (Hv (eq_sym Ey)).
  rewrite <- Hv in H2, H3. unfold vmap in H2, H3. rewrite !branch_map in H2. rewrite !replacement_map, !exchanges_map in H3.
  unfold bind at 1. rewrite (replacement_eq _ j s L Hs Hf). unfold deep. rewrite (proj2 (Nat.leb_le _ _) H2). symmetry. unfold bind at 1.
  destruct (find_replacement j s) as [p s2|e s2|] eqn:Ef; [|done|done]. symmetry.
  destruct (replacement_found _ _ _ _ _ Hs Ef) as [-> Hp].
  assert (forall A (k : option nat -> M tst A) (k' : option nat -> M tst A), (forall q, k q s = k' q s) ->
    bind (match p with None => get_parent j | Some r0 => get_parent r0 end) k s = bind (match p with None => get_parent j | Some r0 => get_parent r0 end) k' s) as Hb.
  { intros A k k' Hk. unfold bind. destruct p; unfold get_parent, rd, bind, ret; by destruct (t_nodes s !! _). }
  apply Hb. intros q. unfold bind at 1. unfold get_fuel. unfold bind at 2. symmetry. unfold bind at 1.
  rewrite (transplant_eq c (replacement (Bin l (j, y) r)) j p s L (S (S (length (t_nodes s))))); [done|by apply snap_lk|done|].
  pose proof (exchanges_levels (replacement (Bin l (j, y) r))). pose proof (replacement_levels (Bin l (j, y) r)). lia.
Qed.
Lemma remove_value_raises c x s L T : held s T -> T <> Nil -> L < Nat.max (path x (vmap T)) (replacement_branch (subtree_at x (vmap T))) ->
  remove_value_l L c x s = Exc RecursionError s.
Proof.
  intros H HT HL. unfold remove_value_l. unfold bind at 1. rewrite (search_root_l_eq x s L T H). unfold deep.
  destruct (Nat.leb_spec (path x (vmap T)) L) as [H1|H1]; [|done].
  destruct (search_root_lands x s T H HT) as (j & E & l & y & r & Hs & Hf & _ & Hv & Hn). rewrite E.
  destruct (decide (x = p_val y)) as [Ey|Hne]; [|rewrite (Hn Hne) in HL; cbn in HL; lia].
  assert (forall A (q : num -> M tst A), bind (get_data j) q s = q (p_val y) s) as E2.
  { intros. destruct Hs as (_ & c0 & Hc & Hx & _ & _). cbn [fst snd] in *. unfold get_data, rd, ret, bind. by rewrite Hc, Hx. }
  rewrite E2. rewrite bool_decide_eq_true_2 by done. cbn [negb]. rewrite <- (Hv Ey) in HL. unfold vmap in HL. rewrite !branch_map in HL.
  unfold bind at 1. rewrite (replacement_eq _ j s L Hs Hf). unfold deep. fold (vmap T) in HL. by rewrite (proj2 (Nat.leb_gt _ _)) by lia.
Qed.

(** ** The guards of [remove] *)
Lemma leaf_data s T : held s T -> forall l i y r, T = Bin l (i, y) r ->
  t_root s = Some i /\ node_is_leaf i s = Ok (match l, r with Nil, Nil => true | _, _ => false end) s /\ get_data i s = Ok (p_val y) s.
Proof.
  intros [H _] l i y r ->. destruct H as (Hr & c & Hc & Hx & Hl & Hu). cbn [fst snd] in *. split; [done|].
  unfold node_is_leaf, get_data, get_left, get_right, rd, ret, bind. repeat (rewrite Hc; cbv beta iota). rewrite Hx. split; [|done].
  f_equal. destruct l as [|? [] ?]; cbn in Hl; [rewrite Hl|destruct Hl as [-> _]; done].
  destruct r as [|? [] ?]; cbn in Hu; [by rewrite Hu|by destruct Hu as [-> _]].
Qed.
Lemma remove_with_num x s T (rest : num -> M tst bool) : held s T ->
  remove_with (PNum x) rest s =
    match T with
    | Nil => Ok true s
    | _ => if only_value x (vmap T) then (set_root None ;; add_len (-1) ;; ret false) s else rest x s
    end.
Proof.
  intros H. unfold remove_with. unfold bind at 1. unfold get_root. destruct T as [|l [i y] r].
  - destruct H as [H _]. cbn in H. by rewrite H.
  - destruct (leaf_data s _ H l i y r eq_refl) as (-> & El & Ed).
    unfold bind at 1. rewrite El. unfold bind at 1. rewrite Ed.
    assert (only_value x (vmap (Bin l (i, y) r)) = (match l, r with Nil, Nil => true | _, _ => false end) && bool_decide (x = p_val y)) as ->; [|by destruct (_ && _)].
    by destruct l, r.
Qed.
Lemma remove_other c v s L : (forall x, v <> PNum x) -> remove_l L c v s = tree_remove c v s.
Proof.
  intros H. destruct v as [|y| | | |]; try (by edestruct H); destruct c; cbn [remove_l tree_remove];
    unfold bst_remove, avl_remove, splay_remove, treap_remove, rb_remove, remove_with, get_root, bind, ret; by destruct (t_root s).
Qed.

(** ** The classes that share [_remove] *)
Definition shares_removal (c : tcls) : Prop := c = CBST \/ c = CAVL \/ c = CSplay.
Lemma remove_fits_shared c x s L T : shares_removal c -> held s T -> removal_looks x (vmap T) <= L -> removal_exchanges x (vmap T) <= L ->
  remove_l L c (PNum x) s = tree_remove c (PNum x) s.
Proof.
  unfold removal_looks, removal_exchanges. intros Hc H H1 H2.
  destruct Hc as [->|[->| ->]]; cbn [remove_l tree_remove]; unfold bst_remove, avl_remove, splay_remove;
    rewrite !(remove_with_num x s T _ H); (destruct T as [|l iy r]; [done|]); destruct (only_value x (vmap (Bin l iy r))); try done.
  - unfold bind. by rewrite (remove_value_fits CBST x s L _ H) by (cbn in *; lia).
  - unfold bind at 1 2. unfold bind at 1. unfold get_len at 1. unfold bind at 1. rewrite (remove_value_fits CAVL x s L _ H) by (cbn in *; lia). done.
  - unfold bind. by rewrite (remove_value_fits CSplay x s L _ H) by (cbn in *; lia).
Qed.
Lemma remove_raises_shared c x s L T : shares_removal c -> held s T -> T <> Nil -> L < removal_looks x (vmap T) ->
  remove_l L c (PNum x) s = Exc RecursionError s.
Proof.
  unfold removal_looks. intros Hc H HT H1. pose proof (fun c' => remove_value_raises c' x s L T H HT) as HR.
  destruct Hc as [->|[->| ->]]; cbn [remove_l];
    rewrite !(remove_with_num x s T _ H); (destruct T as [|l iy r]; [done|]); destruct (only_value x (vmap (Bin l iy r))); try lia.
  - unfold bind. by rewrite HR.
  - unfold bind, get_len. by rewrite HR.
  - unfold bind. by rewrite HR.
Qed.

(** ** Treap and RedBlackTree *)
Lemma min_total T : forall i s f, snap (t_nodes s) (Some i) T -> nlevels T <= f -> exists j, get_min_node f i s = Ok j s.
Proof.
  induction T as [|l IHl [k x] r IHr]; intros i s f H Hf; [done|].
  destruct H as ([= ->] & c & Hc & Hx & Hl & Hr). cbn [fst snd] in *. cbn [nlevels] in Hf. destruct f as [|f]; [lia|]. cbn [get_min_node].
  unfold bind at 1. unfold get_left, rd, ret, bind. rewrite Hc. destruct (c_left c) as [q|]; [|by eexists]. apply IHl; [done|lia].
Qed.
Lemma max_total T : forall i s f, snap (t_nodes s) (Some i) T -> nlevels T <= f -> exists j, get_max_node f i s = Ok j s.
Proof.
  induction T as [|l IHl [k x] r IHr]; intros i s f H Hf; [done|].
  destruct H as ([= ->] & c & Hc & Hx & Hl & Hr). cbn [fst snd] in *. cbn [nlevels] in Hf. destruct f as [|f]; [lia|]. cbn [get_max_node].
  unfold bind at 1. unfold get_right, rd, ret, bind. rewrite Hc. destruct (c_right c) as [q|]; [|by eexists]. apply IHr; [done|lia].
Qed.
Lemma color_total p s (R : ltree) : snap (t_nodes s) p R -> exists k, color_of p s = Ok k s.
Proof.
  destruct R as [|l [k x] r]; [intros ->; by eexists|]. intros (-> & c & Hc & _). unfold color_of, get_color, rd, ret, bind. rewrite Hc. by eexists.
Qed.
Lemma treap_remove_eq x s L T : held s T -> 
  remove_l L CTreap (PNum x) s = deep (if only_value x (vmap T) then 0 else path x (vmap T)) L (tree_remove CTreap (PNum x)) s.
Proof.
  intros H. unfold deep. cbn [remove_l tree_remove]. unfold treap_remove. rewrite !(remove_with_num x s T _ H).
  destruct T as [|l iy r]; [done|]. destruct (only_value x (vmap (Bin l iy r))); [done|].
  apply (deep_bind _ _ _ _ _ _ (search_root_l_eq x s L _ H)).
Qed.
Lemma rb_replacement_fits T i s L : snap (t_nodes s) (Some i) T -> nlevels T <= S (length (t_nodes s)) -> nlevels T <= L ->
  rb_find_replacement_l L i s = rb_find_replacement i s /\
  forall p s', rb_find_replacement i s = Ok p s' -> s' = s /\ exists R : ltree, snap (t_nodes s) p R /\ nlevels R <= nlevels T.
Proof.
  intros H Hf HL. destruct T as [|l [k x] r]; [done|]. destruct H as ([= ->] & c & Hc & Hx & Hl & Hr). cbn [fst snd] in *.
  unfold rb_find_replacement_l, rb_find_replacement. cbn [nlevels] in Hf, HL.
  assert (forall A (q : bool -> M tst A), bind (node_is_leaf k) q s = q (match c_left c, c_right c with None, None => true | _, _ => false end) s) as E1.
  { intros. unfold node_is_leaf, get_left, get_right, rd, ret, bind. repeat (rewrite Hc; cbv beta iota). done. }
  assert (forall A (q : option nat -> M tst A), bind (get_left k) q s = q (c_left c) s) as E3.
  { intros. unfold get_left, rd, ret, bind. by rewrite Hc. }
  assert (forall A (q : option nat -> M tst A), bind (get_right k) q s = q (c_right c) s) as E4.
  { intros. unfold get_right, rd, ret, bind. by rewrite Hc. }
  rewrite !E1. destruct (match c_left c, c_right c with None, None => true | _, _ => false end).
  { split; [done|]. intros p s' [= <- <-]. split; [done|]. exists Nil. split; [done|cbn; lia]. }
  rewrite !E4.
  set (A1 := match c_right c with Some j => let! k0 := get_min_node_l L j in ret (Some k0) | None => ret None end).
  set (A2 := match c_right c with Some j => let! n := get_fuel in let! k0 := get_min_node n j in ret (Some k0) | None => ret None end).
  set (B1 := fun l0 : option nat => match l0 with Some j => let! k0 := get_max_node_l L j in ret (Some k0) | None => ret None end).
  set (B2 := fun l0 : option nat => match l0 with Some j => let! n := get_fuel in let! k0 := get_max_node n j in ret (Some k0) | None => ret None end).
  assert (exists p, A1 s = Ok p s /\ A2 s = Ok p s /\ exists R : ltree, snap (t_nodes s) p R /\ nlevels R <= nlevels r) as (p1 & HA1 & HA2 & R1 & HR1 & HN1).
  { unfold A1, A2. destruct (c_right c) as [j|]; [|exists None; split_and!; try done; exists Nil; split; [done|cbn; lia]].
    destruct (min_total r j s (S (length (t_nodes s))) Hr ltac:(lia)) as [q Eq]. exists (Some q).
    unfold get_fuel, bind. rewrite (min_l_eq r j s L (S (length (t_nodes s))) Hr ltac:(lia)). unfold deep.
    rewrite (proj2 (Nat.leb_le _ _)) by (pose proof (left_levels r); lia). rewrite Eq. split_and!; [done..|].
    exists (at_leftmost r). split; [by apply (min_found r _ _ _ _ _ Hr Eq)|apply leftmost_levels]. }
  assert (exists p, B1 (c_left c) s = Ok p s /\ B2 (c_left c) s = Ok p s /\ exists R : ltree, snap (t_nodes s) p R /\ nlevels R <= nlevels l) as (p2 & HB1 & HB2 & R2 & HR2 & HN2).
  { unfold B1, B2. destruct (c_left c) as [j|]; [|exists None; split_and!; try done; exists Nil; split; [done|cbn; lia]].
    destruct (max_total l j s (S (length (t_nodes s))) Hl ltac:(lia)) as [q Eq]. exists (Some q).
    unfold get_fuel, bind. rewrite (max_l_eq l j s L (S (length (t_nodes s))) Hl ltac:(lia)). unfold deep.
    rewrite (proj2 (Nat.leb_le _ _)) by (pose proof (right_levels l); lia). rewrite Eq. split_and!; [done..|].
    exists (at_rightmost l). split; [by apply (max_found l _ _ _ _ _ Hl Eq)|apply rightmost_levels]. }
  rewrite (bind_ok A1 _ s p1 s HA1), (bind_ok A2 _ s p1 s HA2). rewrite !E3.
  rewrite (bind_ok (B1 (c_left c)) _ s p2 s HB1), (bind_ok (B2 (c_left c)) _ s p2 s HB2). split; [done|].
  intros p s' E. destruct (color_total p1 s R1 HR1) as [k1 K1]. destruct (color_total p2 s R2 HR2) as [k2 K2].
  rewrite (bind_ok _ _ s k1 s K1), (bind_ok _ _ s k2 s K2) in E. injection E as <- <-. split; [done|].
  destruct (is_red k1); [exists R1; split; [done|cbn; lia]|]. destruct (is_red k2); [exists R2; split; [done|cbn; lia]|].
  destruct p1; [exists R1|exists R2]; (split; [done|cbn; lia]).
Qed.
Lemma rb_remove_fits x s L T : held s T -> nlevels T <= L -> remove_l L CRB (PNum x) s = tree_remove CRB (PNum x) s.
Proof.
  intros H HL. cbn [remove_l tree_remove]. unfold rb_remove. rewrite !(remove_with_num x s T _ H).
  destruct T as [|l0 iy0 r0] eqn:ET; [done|]. rewrite <- ET in *. assert (T <> Nil) as HT by (by rewrite ET). clear ET.
  destruct (only_value x (vmap T)); [done|].
  unfold bind at 1. rewrite (search_root_l_eq x s L T H). unfold deep. pose proof (path_levels x (vmap T)) as HP.
  unfold vmap in HP at 2. rewrite !nlevels_map in HP. rewrite (proj2 (Nat.leb_le _ _)) by lia.
  destruct (search_root_lands x s T H HT) as (j & E & l & y & r & Hs & Hf & Hlv & _). rewrite E. rewrite (bind_ok _ _ s j s E).
  assert (forall A (q : num -> M tst A), bind (get_data j) q s = q (p_val y) s) as E2.
  { intros. destruct Hs as (_ & c0 & Hc & Hx & _ & _). cbn [fst snd] in *. unfold get_data, rd, ret, bind. by rewrite Hc, Hx. }
  rewrite !E2. destruct (negb (bool_decide (p_val y = x))); [done|].
  destruct (rb_replacement_fits _ j s L Hs Hf ltac:(lia)) as [Er Hrep].
  unfold bind at 1. rewrite Er. symmetry. unfold bind at 1.
  destruct (rb_find_replacement j s) as [p s1|e s1|]; [|done|done]. symmetry.
  destruct (Hrep p s1 eq_refl) as (-> & R & HR & HRn).
  assert (exists k, get_color j s = Ok k s) as [ci Hci] by (exact (color_total (Some j) s _ Hs)).
  destruct (color_total p s R HR) as [cr Hcr].
  rewrite (bind_ok _ _ s ci s Hci). rewrite (bind_ok _ _ s cr s Hcr). symmetry. rewrite (bind_ok _ _ s ci s Hci). rewrite (bind_ok _ _ s cr s Hcr).
  rewrite (bind_ok get_fuel _ s _ s eq_refl). symmetry.
  pose proof (exchanges_levels R) as Hex.
  assert (forall s2, same_links (t_nodes s) (t_nodes s2) -> transplant_l L CRB j p s2 = transplant (S (S (length (t_nodes s)))) CRB j p s2) as Htr.
  { intros s2 Hs2. apply (transplant_eq CRB R); [|lia|lia]. eapply lk_same; [exact Hs2|]. by apply snap_lk. }
  assert (transplant_l L CRB j None = transplant (S (S (length (t_nodes s)))) CRB j None) as Htn by (by destruct L).
  assert (forall A B (m m' : M tst A) (k : A -> M tst B), m s = m' s -> bind m k s = bind m' k s) as Hb by (intros A B m m' k Em; unfold bind; by rewrite Em).
  apply Hb. destruct ci, p as [q|]; [destruct cr| |destruct cr|].
  - unfold bind at 1. symmetry. unfold bind at 1. symmetry. destruct (get_parent q s) as [pp s2|e s2|] eqn:Ep; [|done|done].
    assert (s2 = s) as -> by (unfold get_parent, rd, bind, ret in Ep; destruct (t_nodes s !! q); [by injection Ep|done]).
    apply Hb, Htr, same_refl.
  - unfold bind at 1. symmetry. unfold bind at 1. pose proof (quiet_color q Black s) as Hq. destruct (set_color q Black s) as [u s2|e s2|]; [|done|done].
    by rewrite (Htr s2 (proj1 Hq)).
  - by rewrite Htn.
  - done.
  - by apply Htr, same_refl.
  - by rewrite Htn.
Qed.

(** ** Calls *)
Lemma remove_fits c x s L T : held s T -> nlevels T <= L -> remove_l L c (PNum x) s = tree_remove c (PNum x) s.
Proof.
  intros H HL. assert (nlevels (vmap T) <= L) as HV by (unfold vmap; by rewrite !nlevels_map).
  pose proof (path_levels x (vmap T)). pose proof (subtree_levels x (vmap T)). pose proof (branch_levels (subtree_at x (vmap T))).
  pose proof (replacement_levels (subtree_at x (vmap T))). pose proof (exchanges_levels (replacement (subtree_at x (vmap T)))).
  destruct c.
  1-3: apply (remove_fits_shared _ x s L T); [by (left + (right; left) + (right; right))|done|unfold removal_looks; destruct (only_value _ _); lia|unfold removal_exchanges; lia].
  - rewrite (treap_remove_eq x s L T H). unfold deep. rewrite (proj2 (Nat.leb_le _ _)); [done|]. destruct (only_value _ _); lia.
  - by apply (rb_remove_fits x s L T).
Qed.
Lemma snap_snapshot T : forall p s n, snap (t_nodes s) p T -> nlevels T <= n -> snapshot n p s = Ok (bin_map snd T) s.
Proof.
  induction T as [|l IHl [k x] r IHr]; intros p s n H Hn; [cbn in H; subst p; by destruct n|].
  destruct H as (-> & c & Hc & Hx & Hl & Hr). cbn [fst snd] in *. cbn [nlevels] in Hn. destruct n as [|n]; [lia|]. cbn [snapshot].
  unfold bind at 1. unfold rd. rewrite Hc. rewrite (bind_ok _ _ _ _ _ (IHl _ _ n Hl ltac:(lia))), (bind_ok _ _ _ _ _ (IHr _ _ n Hr ltac:(lia))).
  by rewrite Hx.
Qed.
Lemma held_vals s T : held s T -> tree_vals s = Ok (vmap T) s.
Proof.
  intros [H Hf]. unfold tree_vals, tree_pays, get_root, get_fuel, bind, ret. by rewrite (snap_snapshot T _ _ _ H Hf).
Qed.
Definition is_num_dec' (v : pyval) : {x | v = PNum x} + {forall x, v <> PNum x}.
Proof. destruct v; try (by right); by left; eexists. Defined.
Lemma call_deep c L o s T : held s T -> is_removal o = false ->
  call_l c (L, o) s = if Nat.leb (needs c o (vmap T)) L then call c o s else Some (ORaise RecursionError, s).
Proof.
  intros H Ho. unfold call_l, call. cbn [fst snd]. destruct o as [v p|v|v| | | | |m| | | | | | |]; try done; cbn [exec_l exec needs].
  - destruct (is_num_dec' v) as [[x ->]|Hv].
    + rewrite (deep_bind _ _ _ _ _ _ (insert_eq c x p s L T H)). unfold deep. by destruct (Nat.leb _ L).
    + unfold bind. rewrite (insert_other c v p s L Hv). by destruct v; try (by edestruct Hv).
  - destruct (is_num_dec' v) as [[x ->]|Hv].
    + rewrite (deep_bind _ _ _ _ _ _ (contains_eq c x s L T H)). unfold deep. by destruct (Nat.leb _ L).
    + unfold bind. rewrite (contains_other c v s L Hv). by destruct v; try (by edestruct Hv).
  - rewrite (deep_bind _ _ _ _ _ _ (min_eq s L T H)). unfold vmap. rewrite !left_map. unfold deep. by destruct (Nat.leb _ L).
  - rewrite (deep_bind _ _ _ _ _ _ (max_eq s L T H)). unfold vmap. rewrite !right_map. unfold deep. by destruct (Nat.leb _ L).
  - rewrite !(bind_ok _ _ _ _ _ (held_vals s T H)), traverse_l_eq. by destruct (Nat.leb _ L).
Qed.
Lemma call_fits c L o s T : held s T -> nlevels T <= L -> call_l c (L, o) s = call c o s.
Proof.
  intros H HL. assert (nlevels (vmap T) <= L) as HV by (unfold vmap; by rewrite !nlevels_map).
  destruct (is_removal o) eqn:Ho.
  - destruct o as [v p|v|v| | | | |m| | | | | | |]; try done. unfold call_l, call. cbn [fst snd exec_l exec]. unfold bind.
    destruct (is_num_dec' v) as [[x ->]|Hv]; [by rewrite (remove_fits c x s L T H HL)|by rewrite (remove_other c v s L Hv)].
  - rewrite (call_deep c L o s T H Ho). rewrite (proj2 (Nat.leb_le _ _)); [done|].
    pose proof (left_levels (vmap T)). pose proof (right_levels (vmap T)).
    destruct o as [[|x| | | |] p| |[|x| | | |]| | | | |m| | | | | | |]; cbn [needs]; try lia.
    + pose proof (path_levels x (vmap T)). destruct (prio_ok c p); lia.
    + pose proof (path_levels x (vmap T)). lia.
    + destruct (descends m); lia.
Qed.
Lemma norec_call_deep c L o s T : held s T -> is_removal o = false -> needs c o (vmap T) <= L -> call_l c (L, o) s = call c o s.
Proof. intros H Ho Hn. rewrite (call_deep c L o s T H Ho). by rewrite (proj2 (Nat.leb_le _ _) Hn). Qed.

Lemma traverse_inorder {A} (t : bin A) : inorder_traverse t = inorder t.
Proof. induction t as [|l IHl x r IHr]; [done|]. cbn. by rewrite IHl, IHr. Qed.
Lemma levels_inorder {A} (t : bin A) : nlevels t <= length (inorder t).
Proof. induction t as [|l IHl x r IHr]; [done|]. cbn [nlevels inorder]. rewrite app_length. cbn [length]. lia. Qed.
