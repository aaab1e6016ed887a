(** * The nodes on one branch of a search tree (C83): proofs for BST *)
From Verif Require Import Base TreeModel TreeSpec BstModel BalModel BstSpec TreeIterThm TreeIterThm3 DepthModel DepthSpec DepthThm DepthThm2 DepthThm3.
From Verif Require Import WalkModel WalkSpec WalkThm WalkThm2 DownModel DownSpec.
Local Open Scope py_scope.

(** ** The counter changes nothing *)
Lemma co_max : forall f i, counts (get_max_node_c f i) (get_max_node f i).
Proof. induction f; intros; cbn [get_max_node_c get_max_node]; cog. Qed.
Lemma co_min : forall f i, counts (get_min_node_c f i) (get_min_node f i).
Proof. induction f; intros; cbn [get_min_node_c get_min_node]; cog. Qed.
#[local] Hint Resolve co_max co_min : co.
Lemma co_get_max : counts bst_get_max_c bst_get_max.
Proof. unfold bst_get_max_c, bst_get_max. cog. Qed.
Lemma co_get_min : counts bst_get_min_c bst_get_min.
Proof. unfold bst_get_min_c, bst_get_min. cog. Qed.
Lemma co_search : forall f v i, counts (search_c f v i) (search f v i).
Proof. induction f; intros; cbn [search_c search]; cog. Qed.
#[local] Hint Resolve co_search : co.
Lemma co_search_root v : counts (search_root_c v) (search_root v).
Proof. unfold search_root_c, search_root. cog. Qed.
#[local] Hint Resolve co_search_root : co.
Lemma co_contains v : counts (bst_contains_c v) (bst_contains v).
Proof. unfold bst_contains_c, bst_contains. cog. Qed.
Lemma co_insert_node : forall f c i n, counts (insert_node_c f c i n) (insert_node f c i n).
Proof. induction f; intros; cbn [insert_node_c insert_node]; cog. Qed.
#[local] Hint Resolve co_insert_node : co.
Lemma co_insert_value c v p : counts (insert_value_c c v p) (insert_value c v p).
Proof. unfold insert_value_c, insert_value. cog. Qed.
#[local] Hint Resolve co_insert_value : co.
Lemma co_bst_insert v : counts (bst_insert_c v) (bst_insert v).
Proof. unfold bst_insert_c, bst_insert. cog. Qed.
Lemma co_find_replacement i : counts (find_replacement_c i) (find_replacement i).
Proof. unfold find_replacement_c, find_replacement. cog. Qed.
Lemma co_transplant : forall f c i p, counts (transplant_c f c i p) (transplant f c i p).
Proof. induction f; intros; cbn [transplant_c transplant]; cog. Qed.
#[local] Hint Resolve co_find_replacement co_transplant : co.
Lemma co_remove_value c v : counts (remove_value_c c v) (remove_value c v).
Proof. unfold remove_value_c, remove_value. cog. Qed.
#[local] Hint Resolve co_remove_value : co.
Lemma co_remove_with v f g : (forall x, counts (f x) (g x)) -> counts (remove_with_c v f) (remove_with v g).
Proof. intros. unfold remove_with_c, remove_with. cog. Qed.
Lemma co_bst_remove v : counts (bst_remove_c v) (bst_remove v).
Proof. apply co_remove_with. intros. cog. Qed.
Lemma co_avl_up : forall f p, counts (avl_up_c f p) (avl_up f p).
Proof. induction f; intros []; cbn [avl_up_c avl_up]; cog. Qed.
#[local] Hint Resolve co_avl_up : co.
Lemma co_avl_insert v : counts (avl_insert_c v) (avl_insert v).
Proof. unfold avl_insert_c, avl_insert. cog. Qed.
Lemma co_avl_remove v : counts (avl_remove_c v) (avl_remove v).
Proof. apply co_remove_with. intros. cog. Qed.

(** ** Reading *)
Lemma tk_lfk {S A B} (m : M S A) (f : A -> M (S * nat) B) s x n : m s = Ok x s -> takes s (f x) n -> takes s (let! y := lf m in f y) n.
Proof. intros E H. apply tk_lfb. rewrite E. by intros ? ? [= <- <-]. Qed.
Lemma tk_diverge {S A} (s : S) n : takes s (A := A) diverge n.
Proof. split; by intros k. Qed.
Lemma gd s i c : t_nodes s !! i = Some c -> get_data i s = Ok (p_val (c_pay c)) s.
Proof. intros H. unfold get_data, rd, bind. by rewrite H. Qed.
Lemma gl s i c : t_nodes s !! i = Some c -> get_left i s = Ok (c_left c) s.
Proof. intros H. unfold get_left, rd, bind. by rewrite H. Qed.
Lemma gr s i c : t_nodes s !! i = Some c -> get_right i s = Ok (c_right c) s.
Proof. intros H. unfold get_right, rd, bind. by rewrite H. Qed.
Lemma tk_max T : forall i s f, snap (t_nodes s) (Some i) T -> takes s (get_max_node_c f i) (right_branch T).
Proof.
  induction T as [|l IHl [j x] r IHr]; intros i s f H; [done|]. destruct f as [|f]; [apply tk_diverge|].
  destruct H as ([= ->] & c & Hc & _ & _ & Hr). cbn [fst snd] in *. cbn [get_max_node_c right_branch].
  apply tk_tick, (tk_lfk _ _ _ _ _ (gr _ _ _ Hc)). destruct (c_right c) as [k|] eqn:E; [by apply IHr|]. destruct r; [apply tk_ret|by destruct Hr].
Qed.
Lemma tk_min T : forall i s f, snap (t_nodes s) (Some i) T -> takes s (get_min_node_c f i) (left_branch T).
Proof.
  induction T as [|l IHl [j x] r IHr]; intros i s f H; [done|]. destruct f as [|f]; [apply tk_diverge|].
  destruct H as ([= ->] & c & Hc & _ & Hl & _). cbn [fst snd] in *. cbn [get_min_node_c left_branch].
  apply tk_tick, (tk_lfk _ _ _ _ _ (gl _ _ _ Hc)). destruct (c_left c) as [k|] eqn:E; [by apply IHl|]. destruct l; [apply tk_ret|by destruct Hl].
Qed.
Lemma tk_get_max s T : held s T -> takes s bst_get_max_c (right_branch T).
Proof.
  intros [H _]. unfold bst_get_max_c. apply (tk_lfk _ _ _ (t_root s)); [done|]. destruct (t_root s) as [i|]; [|apply tk_raise].
  apply tk_lfb. intros n s' [= <- <-]. apply tk_bind0; [by apply tk_max|]. intros. apply tk_lf.
Qed.
Lemma tk_get_min s T : held s T -> takes s bst_get_min_c (left_branch T).
Proof.
  intros [H _]. unfold bst_get_min_c. apply (tk_lfk _ _ _ (t_root s)); [done|]. destruct (t_root s) as [i|]; [|apply tk_raise].
  apply tk_lfb. intros n s' [= <- <-]. apply tk_bind0; [by apply tk_min|]. intros. apply tk_lf.
Qed.
Lemma tk_search v T : forall i s f, snap (t_nodes s) (Some i) T -> takes s (search_c f v i) (path v (vmap T)).
Proof.
  induction T as [|l IHl [j x] r IHr]; intros i s f H; [done|]. destruct f as [|f]; [apply tk_diverge|].
  destruct H as ([= ->] & c & Hc & Hx & Hl & Hr). cbn [fst snd] in *. cbn [search_c vmap bin_map path snd].
  apply tk_tick, (tk_lfk _ _ _ _ _ (gd _ _ _ Hc)). rewrite Hx.
  destruct (decide (v = p_val x)) as [->|Hne]; [rewrite bool_decide_eq_true_2 by done; apply tk_ret|]. rewrite bool_decide_eq_false_2 by done.
  destruct (num_ltb v (p_val x)).
  - apply (tk_lfk _ _ _ _ _ (gl _ _ _ Hc)). destruct (c_left c) as [k|] eqn:E; [by apply IHl|]. destruct l; [apply tk_ret|by destruct Hl].
  - apply (tk_lfk _ _ _ _ _ (gr _ _ _ Hc)). destruct (c_right c) as [k|] eqn:E; [by apply IHr|]. destruct r; [apply tk_ret|by destruct Hr].
Qed.
Lemma tk_search_root v s T : held s T -> takes s (search_root_c v) (path v (vmap T)).
Proof.
  intros [H _]. unfold search_root_c. apply (tk_lfk _ _ _ (t_root s)); [done|]. destruct (t_root s) as [i|]; [|apply tk_raise].
  apply tk_lfb. intros n s' [= <- <-]. by apply tk_search.
Qed.
Lemma tk_contains v s T : held s T -> takes s (bst_contains_c v) (match v with PNum x => path x (vmap T) | _ => 0 end).
Proof.
  intros H. unfold bst_contains_c. apply tk_lfb. intros e s0 He. unfold bst_is_empty in He. cbn in He. injection He as <- <-. destruct (t_root s) as [i|] eqn:E.
  - destruct v; try apply tk_ret. apply tk_bind0; [by apply tk_search_root|]. intros. apply tk_lfb. intros. apply tk_ret.
  - destruct H as [H _]. rewrite E in H. destruct T; [|by destruct H]. destruct v; apply tk_ret.
Qed.

(** ** Inserting *)
Lemma tk_insert_node c v new T : forall i s f, snap (t_nodes s) (Some i) T -> (exists y, t_nodes s !! new = Some y /\ p_val (c_pay y) = v) ->
  takes s (insert_node_c f c i new) (path v (vmap T)).
Proof.
  induction T as [|l IHl [j x] r IHr]; intros i s f H Hn; [done|]. destruct f as [|f]; [apply tk_diverge|].
  destruct H as ([= ->] & ce & Hc & Hx & Hl & Hr). cbn [fst snd] in *. cbn [insert_node_c vmap bin_map path snd].
  pose proof Hn as (y & Hy & Hv). apply tk_tick, (tk_lfk _ _ _ _ _ (gd _ _ _ Hy)), (tk_lfk _ _ _ _ _ (gd _ _ _ Hc)). rewrite Hx, Hv.
  destruct (decide (v = p_val x)) as [Hex|Hne]; [rewrite bool_decide_eq_true_2 by done; apply tk_ret|]. rewrite bool_decide_eq_false_2 by done.
  destruct (num_ltb v (p_val x)).
  - apply (tk_lfk _ _ _ _ _ (gl _ _ _ Hc)). destruct (c_left ce) as [k|] eqn:E; [by apply IHl|]. destruct l; [|by destruct Hl].
    do 2 (apply tk_lfb; intros). apply tk_ret.
  - apply (tk_lfk _ _ _ _ _ (gr _ _ _ Hc)). destruct (c_right ce) as [k|] eqn:E; [by apply IHr|]. destruct r; [|by destruct Hr].
    do 2 (apply tk_lfb; intros). apply tk_ret.
Qed.
Lemma tk_insert_value c x pr s T : held s T -> takes s (insert_value_c c x pr) (path x (vmap T)).
Proof.
  intros [H _]. unfold insert_value_c. apply tk_lfb. intros new s1 E. unfold new_node, alloc in E. injection E as <- <-.
  apply tk_lfb. intros r s2 [= <- <-]. cbn [t_root]. destruct (t_root s) as [i|] eqn:Er; [|apply tk_lfb; by intros].
  apply tk_lfb. intros r s2 [= <- <-]. apply tk_lfb. intros r s2 [= <- <-]. apply tk_insert_node.
  - eapply snap_kept; [|exact H]. intros k z Hk. by apply lookup_app_l_Some.
  - eexists. split; [by apply list_lookup_middle|done].
Qed.
Lemma tk_bst_insert v s T : held s T -> takes s (bst_insert_c v) (match v with PNum x => path x (vmap T) | _ => 0 end).
Proof.
  intros H. unfold bst_insert_c. apply tk_lfb. intros x s' Hx.
  assert (s' = s /\ v = PNum x) as [-> ->]. { by destruct v; inversion Hx. }
  apply tk_lfb. intros e s0 He. unfold bst_is_empty in He. cbn in He. injection He as <- <-. destruct (t_root s) as [i|] eqn:E.
  - apply tk_bind0; [by apply tk_insert_value|]. intros. apply tk_ret.
  - destruct H as [H _]. rewrite E in H. destruct T; [|by destruct H]. do 3 (apply tk_lfb; intros). apply tk_ret.
Qed.

(** ** Removing *)
Lemma tk_find_replacement T i s : snap (t_nodes s) (Some i) T -> takes s (find_replacement_c i) (replacement_branch T).
Proof.
  intros H. destruct T as [|l [k x] r]; [done|]. destruct H as ([= ->] & c & Hc & Hx & Hl & Hr). cbn [fst snd] in *.
  unfold find_replacement_c. apply (tk_lfk _ _ _ _ _ (gr _ _ _ Hc)). destruct (c_right c) as [j|] eqn:E.
  - destruct r as [|rl rx rr]; [done|]. apply tk_lfb; intros ? ? [= <- <-]. apply tk_bind0; [by apply tk_min|]. intros. apply tk_ret.
  - destruct r as [|rl rx rr]; [|by destruct Hr]. apply (tk_lfk _ _ _ _ _ (gl _ _ _ Hc)). destruct (c_left c) as [j|] eqn:El.
    + apply tk_lfb; intros ? ? [= <- <-]. apply tk_bind0; [by apply tk_max|]. intros. apply tk_ret.
    + destruct l as [|ll lx lr]; [apply tk_ret|by destruct Hl].
Qed.
Lemma tk_transplant {A} c (R : bin (nat * A)) : forall node p s f, lk (t_nodes s) p R -> takes s (transplant_c f c node p) (S (exchanges R)).
Proof.
  induction R as [|l IHl [k x] r IHr]; intros node p s f H; (destruct f as [|f]; [apply tk_diverge|]); cbn [transplant_c]; apply tk_tick.
  { cbn in H. subst p. apply tk_lf. }
  destruct H as (-> & ce & Hc & Hl & Hr). cbn [fst] in *.
  assert (node_is_leaf k s = Ok (match c_left ce, c_right ce with None, None => true | _, _ => false end) s) as E1.
  { intros. unfold node_is_leaf, get_left, get_right, rd, ret, bind. repeat (rewrite Hc; cbv beta iota). done. }
  apply (tk_lfk _ _ _ _ _ E1).
  set (nr := match c_left ce with Some _ => c_left ce | None => c_right ce end).
  apply (tk_lfk _ _ _ nr).
  { unfold nr. destruct (c_left ce) eqn:El, (c_right ce) eqn:Er; try done; rewrite (bind_ok _ _ _ _ _ (gl _ _ _ Hc)), El; [done|done|]. by rewrite (gr _ _ _ Hc), Er. }
  apply tk_lfb. intros u s1 Es. pose proof (quiet_swap c node k s) as Hq. rewrite Es in Hq. destruct Hq as (Hq & _ & _).
  unfold nr. destruct l as [|ll lx lr].
  - cbn in Hl. rewrite Hl. cbn [exchanges]. apply IHr. by eapply lk_same.
  - pose proof Hl as [El _]. rewrite El. rewrite <- El. apply IHl. by eapply lk_same.
Qed.
Lemma tk_remove_value c x s T : held s T -> takes s (remove_value_c c x) (removal_steps x (vmap T)).
Proof.
  intros H. unfold remove_value_c, removal_steps. eapply tk_bind; [by apply tk_search_root|].
  intros j s' k k' Hj. pose proof (co_search_root x s k) as Hco. rewrite Hj in Hco. cbn [fst] in Hco.
  assert (T = Nil \/ T <> Nil) as [->|HT] by (destruct T; [by left|by right]); [by rewrite (search_root_empty _ _ H) in Hco|].
  destruct (search_root_lands x s T H HT) as (j' & E & l & y & r & Hs & _ & _ & Hv & Hnv).
  rewrite E in Hco. injection Hco as -> <-.
  pose proof Hs as (_ & ce & Hc & Hx & _ & _). cbn [fst snd] in *.
  apply (tk_lfk _ _ _ _ _ (gd _ _ _ Hc)). rewrite Hx. destruct (bool_decide_reflect (p_val y = x)) as [Ey|Hne].
  2:{ rewrite Hnv by congruence. cbn [negb]. apply tk_ret. }
  rewrite <- (Hv (eq_sym Ey)). cbn [negb].
  match goal with |- takes _ _ ?n => change n with
    (replacement_branch (vmap (Bin l (j, y) r)) + S (exchanges (replacement (vmap (Bin l (j, y) r))))) end.
  unfold vmap. rewrite !branch_map, !replacement_map, !exchanges_map. eapply tk_bind; [by apply tk_find_replacement|].
  intros p s2 k2 k3 Hp. pose proof (co_find_replacement j s k2) as Hco. rewrite Hp in Hco. cbn [fst] in Hco.
  destruct (replacement_found _ _ _ _ _ Hs Hco) as [-> Hrp].
  apply tk_lfb. intros q s3 Hq. assert (s3 = s) as ->.
  { destruct p as [p|]; unfold get_parent, rd, bind in Hq; [destruct (t_nodes s !! p)|destruct (t_nodes s !! j)]; unfold ret in Hq; congruence. }
  apply tk_lfb; intros ? ? [= <- <-]. apply tk_bind0; [|intros; apply tk_lfb; intros; apply tk_ret].
  apply (tk_transplant c (replacement (Bin l (j, y) r))). by apply snap_lk.
Qed.
Lemma tk_remove_with v rest s T n : held s T -> (forall x, v = PNum x -> T <> Nil -> only_value x (vmap T) = false -> takes s (rest x) (n x)) ->
  takes s (remove_with_c v rest) (match v with PNum x => if only_value x (vmap T) then 0 else match T with Nil => 0 | _ => n x end | _ => 0 end).
Proof.
  intros H Hr. unfold remove_with_c. apply tk_lfb; intros ? ? [= <- <-]. destruct (t_root s) as [i|] eqn:E.
  2:{ rewrite (proj1 (held_root _ _ H) E). destruct v; apply tk_ret. }
  assert (T <> Nil) as HT by (rewrite <- (held_root _ _ H); congruence).
  destruct v as [|x| | | |]; try apply tk_ret.
  destruct H as [H _]. rewrite E in H. destruct T as [|l [j y] r]; [done|]. destruct H as ([= ->] & ce & Hc & Hy & Hl & Hr'). cbn [fst snd] in *.
  assert (node_is_leaf j s = Ok (match c_left ce, c_right ce with None, None => true | _, _ => false end) s) as E1.
  { intros. unfold node_is_leaf, get_left, get_right, rd, ret, bind. repeat (rewrite Hc; cbv beta iota). done. }
  apply (tk_lfk _ _ _ _ _ E1), (tk_lfk _ _ _ _ _ (gd _ _ _ Hc)). rewrite Hy.
  assert ((match c_left ce, c_right ce with None, None => true | _, _ => false end) && bool_decide (x = p_val y) = only_value x (vmap (Bin l (j, y) r))) as ->.
  { assert (forall p U, snap (t_nodes s) p U -> match p with None => true | _ => false end = match U with Nil => true | _ => false end) as Hz.
    { intros p [|? ? ?]; cbn; [by intros ->|by intros [-> _]]. }
    pose proof (Hz _ _ Hl) as Z1. pose proof (Hz _ _ Hr') as Z2. destruct (c_left ce), (c_right ce), l, r; done. }
  destruct (only_value _ _) eqn:Eo; [do 2 (apply tk_lfb; intros); apply tk_ret|]. by apply Hr.
Qed.
Lemma tk_bst_remove v s T : held s T -> takes s (bst_remove_c v)
  (match v with PNum x => if only_value x (vmap T) then 0 else removal_steps x (vmap T) | _ => 0 end).
Proof.
  intros H. unfold bst_remove_c. eapply tk_eq; [apply (tk_remove_with _ _ _ T (fun x => removal_steps x (vmap T))); [done|]|].
  - intros x -> _ _. apply tk_bind0; [by apply tk_remove_value|]. intros. apply tk_ret.
  - destruct v; try done. by destruct T.
Qed.

(** ** Bounds *)
Lemma path_subtree x t : subtree_at x t <> Nil -> path x t + nlevels (subtree_at x t) <= S (nlevels t).
Proof.
  induction t as [|l IHl y r IHr]; [done|]. cbn [subtree_at path nlevels]. intros H.
  repeat (case_decide || case_bool_decide || destruct (num_ltb _ _)); cbn [nlevels] in *; try done; try lia; [specialize (IHl H)|specialize (IHr H)]; lia.
Qed.
Lemma leftmost_exchanges {A} (t : bin A) : t <> Nil -> left_branch t + exchanges (at_leftmost t) <= S (nlevels t).
Proof.
  assert (forall u : bin A, exchanges u <= nlevels u) as HX. { intros u. apply exchanges_levels. }
  induction t as [|l IHl y r IHr]; [done|]. intros _. destruct l as [|a b c].
  - cbn. pose proof (HX r). lia.
  - specialize (IHl ltac:(done)). change (left_branch (Bin (Bin a b c) y r)) with (S (left_branch (Bin a b c))).
    change (at_leftmost (Bin (Bin a b c) y r)) with (at_leftmost (Bin a b c)). cbn [nlevels] in *. lia.
Qed.
Lemma rightmost_exchanges {A} (t : bin A) : t <> Nil -> right_branch t + exchanges (at_rightmost t) <= S (nlevels t).
Proof.
  assert (forall u : bin A, exchanges u <= nlevels u) as HX. { intros u. apply exchanges_levels. }
  induction t as [|l IHl y r IHr]; [done|]. intros _. destruct r as [|a b c].
  - cbn [right_branch at_rightmost]. pose proof (HX (Bin l y Nil)). lia.
  - specialize (IHr ltac:(done)). change (right_branch (Bin l y (Bin a b c))) with (S (right_branch (Bin a b c))).
    change (at_rightmost (Bin l y (Bin a b c))) with (at_rightmost (Bin a b c)). cbn [nlevels] in *. lia.
Qed.
Lemma removal_levels x t : removal_steps x t <= nlevels t + 2.
Proof.
  unfold removal_steps. pose proof (path_levels x t) as HP. pose proof (path_subtree x t) as HS. destruct (subtree_at x t) as [|l y r]; [lia|].
  specialize (HS ltac:(done)). cbn [nlevels] in HS. destruct r as [|a b c].
  - cbn [replacement replacement_branch]. destruct l as [|d e f]; [cbn in *; lia|].
    pose proof (rightmost_exchanges (Bin d e f) ltac:(done)). cbn [nlevels] in *. lia.
  - cbn [replacement replacement_branch]. pose proof (leftmost_exchanges (Bin a b c) ltac:(done)). cbn [nlevels] in *. lia.
Qed.
