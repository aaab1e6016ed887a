(** * Calls under a recursion limit: equal to the unlimited ones, or refused without effect *)
From Verif Require Import Base TreeModel TreeSpec BstModel BalModel BstSpec TreeIterThm TreeIterThm3 DepthModel DepthSpec.
Local Open Scope py_scope.

Definition vmap (T : ltree) : bin num := bin_map p_val (bin_map snd T).
Definition deep {A} (n L : nat) (m : M tst A) : M tst A := fun s => if Nat.leb n L then m s else Exc RecursionError s.

Lemma nlevels_map {A B} (f : A -> B) t : nlevels (bin_map f t) = nlevels t.
Proof. induction t as [|l IHl x r IHr]; [done|]. cbn. by rewrite IHl, IHr. Qed.
Lemma path_levels x t : path x t <= nlevels t.
Proof. induction t as [|l IHl y r IHr]; [done|]. cbn. case_decide; [lia|]. destruct (num_ltb x y); lia. Qed.
Lemma left_levels {A} (t : bin A) : left_branch t <= nlevels t.
Proof. induction t as [|l IHl y r IHr]; [done|]. cbn. lia. Qed.
Lemma right_levels {A} (t : bin A) : right_branch t <= nlevels t.
Proof. induction t as [|l IHl y r IHr]; [done|]. cbn. lia. Qed.

Lemma search_l_eq v T : forall i s L f, snap (t_nodes s) (Some i) T -> nlevels T <= f ->
  search_l L v i s = deep (path v (vmap T)) L (search f v i) s.
Proof.
  induction T as [|l IHl [j x] r IHr]; intros i s L f H Hf; [done|].
  destruct H as ([= ->] & c & Hc & Hx & Hl & Hr). cbn [fst snd] in *. cbn [nlevels] in Hf. destruct f as [|f]; [lia|].
  unfold deep. cbn [vmap bin_map path snd]. destruct L as [|L]; [done|]. cbn [search_l search Nat.leb].
  assert (forall A (k : num -> M tst A), bind (get_data j) k s = k (p_val x) s) as E2.
  { intros. unfold get_data, rd, ret, bind. by rewrite Hc, Hx. }
  assert (forall A (k : option nat -> M tst A), bind (get_left j) k s = k (c_left c) s) as E3.
  { intros. unfold get_left, rd, ret, bind. by rewrite Hc. }
  assert (forall A (k : option nat -> M tst A), bind (get_right j) k s = k (c_right c) s) as E4.
  { intros. unfold get_right, rd, ret, bind. by rewrite Hc. }
  rewrite !E2. clear E2.
  destruct (decide (v = p_val x)) as [->|Hne]; [by rewrite bool_decide_eq_true_2|]. rewrite bool_decide_eq_false_2 by done.
  destruct (num_ltb v (p_val x)); cbn [Nat.leb]; rewrite ?E3, ?E4.
  - destruct (c_left c) as [k|] eqn:El.
    + rewrite (IHl k s L f Hl ltac:(lia)). done.
    + destruct l; [done|by destruct Hl].
  - destruct (c_right c) as [k|] eqn:El.
    + rewrite (IHr k s L f Hr ltac:(lia)). done.
    + destruct r; [done|by destruct Hr].
Qed.
Lemma insert_node_l_eq c v new T : forall i s L f, snap (t_nodes s) (Some i) T -> nlevels T <= f ->
  (exists y, t_nodes s !! new = Some y /\ p_val (c_pay y) = v) ->
  insert_node_l L c i new s = deep (path v (vmap T)) L (insert_node f c i new) s.
Proof.
  induction T as [|l IHl [j x] r IHr]; intros i s L f H Hf Hn; [done|].
  destruct H as ([= ->] & ce & Hc & Hx & Hl & Hr). cbn [fst snd] in *. cbn [nlevels] in Hf. destruct f as [|f]; [lia|].
  unfold deep. cbn [vmap bin_map path snd]. destruct L as [|L]; [done|]. cbn [insert_node_l insert_node Nat.leb].
  destruct Hn as (y & Hy & Hv).
  assert (forall A (k : num -> M tst A), bind (get_data new) k s = k v s) as E1.
  { intros. unfold get_data, rd, ret, bind. by rewrite Hy, Hv. }
  assert (forall A (k : num -> M tst A), bind (get_data j) k s = k (p_val x) s) as E2.
  { intros. unfold get_data, rd, ret, bind. by rewrite Hc, Hx. }
  assert (forall A (k : option nat -> M tst A), bind (get_left j) k s = k (c_left ce) s) as E3.
  { intros. unfold get_left, rd, ret, bind. by rewrite Hc. }
  assert (forall A (k : option nat -> M tst A), bind (get_right j) k s = k (c_right ce) s) as E4.
  { intros. unfold get_right, rd, ret, bind. by rewrite Hc. }
  rewrite !E1, !E2. clear E1 E2.
  destruct (decide (v = p_val x)) as [->|Hne]; [by rewrite bool_decide_eq_true_2|]. rewrite bool_decide_eq_false_2 by done.
  destruct (num_ltb v (p_val x)); cbn [Nat.leb]; rewrite ?E3, ?E4.
  - destruct (c_left ce) as [k|] eqn:El.
    + rewrite (IHl k s L f Hl ltac:(lia)); [done|by exists y].
    + destruct l; [done|by destruct Hl].
  - destruct (c_right ce) as [k|] eqn:El.
    + rewrite (IHr k s L f Hr ltac:(lia)); [done|by exists y].
    + destruct r; [done|by destruct Hr].
Qed.
Lemma min_l_eq T : forall i s L f, snap (t_nodes s) (Some i) T -> nlevels T <= f ->
  get_min_node_l L i s = deep (left_branch T) L (get_min_node f i) s.
Proof.
  induction T as [|l IHl [j x] r IHr]; intros i s L f H Hf; [done|].
  destruct H as ([= ->] & c & Hc & Hx & Hl & Hr). cbn [fst snd] in *. cbn [nlevels] in Hf. destruct f as [|f]; [lia|].
  unfold deep. destruct L as [|L]; [done|]. cbn [get_min_node_l get_min_node left_branch Nat.leb].
  assert (forall A (k : option nat -> M tst A), bind (get_left j) k s = k (c_left c) s) as E3.
  { intros. unfold get_left, rd, ret, bind. by rewrite Hc. }
  rewrite !E3. destruct (c_left c) as [k|] eqn:El.
  - by rewrite (IHl k s L f Hl ltac:(lia)).
  - destruct l; [done|by destruct Hl].
Qed.
Lemma max_l_eq T : forall i s L f, snap (t_nodes s) (Some i) T -> nlevels T <= f ->
  get_max_node_l L i s = deep (right_branch T) L (get_max_node f i) s.
Proof.
  induction T as [|l IHl [j x] r IHr]; intros i s L f H Hf; [done|].
  destruct H as ([= ->] & c & Hc & Hx & Hl & Hr). cbn [fst snd] in *. cbn [nlevels] in Hf. destruct f as [|f]; [lia|].
  unfold deep. destruct L as [|L]; [done|]. cbn [get_max_node_l get_max_node right_branch Nat.leb].
  assert (forall A (k : option nat -> M tst A), bind (get_right j) k s = k (c_right c) s) as E3.
  { intros. unfold get_right, rd, ret, bind. by rewrite Hc. }
  rewrite !E3. destruct (c_right c) as [k|] eqn:El.
  - by rewrite (IHr k s L f Hr ltac:(lia)).
  - destruct r; [done|by destruct Hr].
Qed.

(** The unlimited insertion does not raise RecursionError. *)
Definition norec {A} (m : M tst A) : Prop := forall s s', m s <> Exc RecursionError s'.
Lemma norec_bind {A B} (m : M tst A) (k : A -> M tst B) : norec m -> (forall a, norec (k a)) -> norec (bind m k).
Proof.
  intros Hm Hk s s'. unfold bind. destruct (m s) as [a s1|e s1|] eqn:E; [apply Hk| |done].
  intros [= -> ->]. by eapply Hm.
Qed.
Lemma norec_rd i : norec (rd i).
Proof. intros s s'. unfold rd. by destruct (t_nodes s !! i). Qed.
Lemma norec_wr i f : norec (wr i f).
Proof. intros s s'. unfold wr. by destruct (t_nodes s !! i). Qed.
Lemma norec_ret {A} (a : A) : norec (ret a).
Proof. done. Qed.
Lemma norec_add n : norec (add_len n).
Proof. done. Qed.
Ltac norec := repeat first
  [ apply norec_rd | apply norec_wr | apply norec_ret | apply norec_add
  | apply norec_bind; [|intros ?]
  | progress unfold get_data, get_left, get_right, set_left, set_right, set_parent, fix_height, set_height, get_children_heights, height_of, get_height
  | match goal with |- norec (match ?x with _ => _ end) => destruct x end
  | match goal with |- norec (if ?x then _ else _) => destruct x end ].
Lemma norec_insert f c : forall i new, norec (insert_node f c i new).
Proof. induction f as [|f IH]; intros i new; [done|]. cbn [insert_node]. norec; apply IH. Qed.

(** ** Traversals *)
Lemma traverse_l_eq {A} L (t : bin A) m :
  traverse_l L t m = if Nat.leb (if descends m then nlevels t else 0) L then traverse t m else inl RecursionError.
Proof.
  assert (preorder_l L t = if Nat.leb (nlevels t) L then Some (preorder_traverse t) else None) as E1.
  { revert L. induction t as [|l IHl x r IHr]; intros [|L]; try done. cbn [preorder_l preorder_traverse nlevels Nat.leb].
    rewrite IHl, IHr. destruct (Nat.leb_spec (nlevels l) L), (Nat.leb_spec (nlevels r) L), (Nat.leb_spec (Nat.max (nlevels l) (nlevels r)) L); try done; lia. }
  assert (postorder_l L t = if Nat.leb (nlevels t) L then Some (postorder_traverse t) else None) as E2.
  { clear E1. revert L. induction t as [|l IHl x r IHr]; intros [|L]; try done. cbn [postorder_l postorder_traverse nlevels Nat.leb].
    rewrite IHl, IHr. destruct (Nat.leb_spec (nlevels l) L), (Nat.leb_spec (nlevels r) L), (Nat.leb_spec (Nat.max (nlevels l) (nlevels r)) L); try done; lia. }
  assert (inorder_l L t = if Nat.leb (nlevels t) L then Some (inorder_traverse t) else None) as E3.
  { clear E1 E2. revert L. induction t as [|l IHl x r IHr]; intros [|L]; try done. cbn [inorder_l inorder_traverse nlevels Nat.leb].
    rewrite IHl, IHr. destruct (Nat.leb_spec (nlevels l) L), (Nat.leb_spec (nlevels r) L), (Nat.leb_spec (Nat.max (nlevels l) (nlevels r)) L); try done; lia. }
  destruct m as [| | w | | |]; try done. unfold traverse_l, traverse, descends. cbv zeta. rewrite E1, E2, E3.
  set (b := bool_decide (lower w ∈ _)).
  destruct (bool_decide_reflect (lower w = s_inorder)) as [E|N1];
    [assert (b = true) as -> by (subst b; apply bool_decide_eq_true_2; rewrite E; repeat (apply elem_of_list_here || apply elem_of_list_further));
     by destruct (Nat.leb (nlevels t) L)|].
  destruct (bool_decide_reflect (lower w = s_postorder)) as [E|N2];
    [assert (b = true) as -> by (subst b; apply bool_decide_eq_true_2; rewrite E; repeat (apply elem_of_list_here || apply elem_of_list_further));
     by destruct (Nat.leb (nlevels t) L)|].
  destruct (bool_decide_reflect (lower w = s_preorder)) as [E|N3];
    [assert (b = true) as -> by (subst b; apply bool_decide_eq_true_2; rewrite E; repeat (apply elem_of_list_here || apply elem_of_list_further));
     by destruct (Nat.leb (nlevels t) L)|].
  destruct (bool_decide_reflect (lower w = s_depth_first)) as [E|N4];
    [assert (b = true) as -> by (subst b; apply bool_decide_eq_true_2; rewrite E; repeat (apply elem_of_list_here || apply elem_of_list_further));
     by destruct (Nat.leb (nlevels t) L)|].
  assert (b = false) as ->; [|done].
  subst b. apply bool_decide_eq_false_2. rewrite !elem_of_cons, elem_of_nil. tauto.
Qed.

(** ** A state with a tree *)
Lemma snapshot_levels n : forall p s t s', snapshot n p s = Ok t s' -> nlevels t <= n.
Proof.
  induction n as [|n IH]; intros [i|] s t s' H; cbn [snapshot] in H; try (by injection H as <- <-; cbn; lia); [done|].
  unfold rd, bind, ret in H. destruct (t_nodes s !! i) as [c|]; [|done].
  destruct (snapshot n (c_left c) s) as [l s1|e s1|] eqn:E1; [|done|done].
  destruct (snapshot n (c_right c) s1) as [r s2|e s2|] eqn:E2; [|done|done].
  injection H as <- <-. apply IH in E1, E2. cbn. lia.
Qed.
Definition held (s : tst) (T : ltree) : Prop := snap (t_nodes s) (t_root s) T /\ nlevels T <= S (length (t_nodes s)).
Lemma shape_held s t : shape s = Some t -> exists T, held s T /\ bin_map snd T = t.
Proof.
  intros H. destruct (shape_snap s t H) as (T & HT & <-). exists T. split; [|done]. split; [done|].
  unfold shape, tree_pays, get_root, get_fuel, bind in H. destruct (snapshot _ _ s) as [t' s'|e s'|] eqn:E; [|done|done].
  injection H as ->. apply snapshot_levels in E. by rewrite nlevels_map in E.
Qed.

Lemma search_root_l_eq v s L T : held s T -> search_root_l L v s = deep (path v (vmap T)) L (search_root v) s.
Proof.
  intros [H Hf]. unfold search_root_l, search_root, get_root, get_fuel, bind, deep. destruct (t_root s) as [i|] eqn:Er.
  - by rewrite (search_l_eq v T i s L (S (length (t_nodes s))) H Hf).
  - destruct T; [done|by destruct H].
Qed.
Lemma min_eq s L T : held s T -> get_min_l L s = deep (left_branch T) L bst_get_min s.
Proof.
  intros [H Hf]. unfold get_min_l, bst_get_min, get_root, get_fuel, bind, deep. destruct (t_root s) as [i|] eqn:Er.
  - rewrite (min_l_eq T i s L _ H Hf). unfold deep. by destruct (Nat.leb _ L).
  - destruct T; [done|by destruct H].
Qed.
Lemma max_eq s L T : held s T -> get_max_l L s = deep (right_branch T) L bst_get_max s.
Proof.
  intros [H Hf]. unfold get_max_l, bst_get_max, get_root, get_fuel, bind, deep. destruct (t_root s) as [i|] eqn:Er.
  - rewrite (max_l_eq T i s L _ H Hf). unfold deep. by destruct (Nat.leb _ L).
  - destruct T; [done|by destruct H].
Qed.
Lemma contains_eq c x s L T : held s T -> contains_l L c (PNum x) s = deep (path x (vmap T)) L (tree_contains c (PNum x)) s.
Proof.
  intros H. pose proof (search_root_l_eq x s L T H) as E.
  assert (contains_l L CBST (PNum x) s = deep (path x (vmap T)) L (bst_contains (PNum x)) s) as E1.
  { unfold contains_l, bst_contains, bst_is_empty, get_root, bind, ret, deep in *. destruct (t_root s) as [i|] eqn:Er; cbv beta iota.
    - rewrite E. by destruct (Nat.leb _ L).
    - destruct H as [H _]. destruct T as [|l [j y] r]; [done|]. destruct H as [H _]. by rewrite Er in H. }
  destruct c; try exact E1.
  unfold contains_l, tree_contains, splay_contains, check_number, bind, ret, deep in *. rewrite E. by destruct (Nat.leb _ L).
Qed.
Lemma insert_value_l_eq c x pr s L T : held s T ->
  insert_value_l L c x pr s = deep (path x (vmap T)) L (insert_value c x pr) s.
Proof.
  intros [H Hf]. unfold insert_value_l, insert_value, new_node, alloc, get_root, get_fuel, bind, deep. cbn [t_root t_nodes t_len].
  set (ce := Cell _ _ _ _). set (s1 := TSt (t_nodes s ++ [ce]) (t_root s) (t_len s)).
  destruct (t_root s) as [i|] eqn:Er; [|destruct T; [done|by destruct H]].
  cbn [deref]. unfold ret, or_drop.
  assert (snap (t_nodes s1) (Some i) T) as Hs1 by (eapply snap_kept; [|exact H]; intros k z Hk; by apply lookup_app_l_Some).
  rewrite (insert_node_l_eq c x (length (t_nodes s)) T i s1 L (S (length (t_nodes s1))) Hs1).
  - unfold deep. destruct (Nat.leb_spec (path x (vmap T)) L) as [Hp|Hp].
    + pose proof (norec_insert (S (length (t_nodes s1))) c i (length (t_nodes s)) s1) as Hn.
      destruct (insert_node _ c i _ s1) as [a s2|e s2|]; try done. specialize (Hn s2). by destruct e.
    + unfold s1. cbn [t_nodes t_root t_len]. rewrite take_app. destruct s; cbn in *. by subst.
  - unfold s1. cbn [t_nodes]. rewrite app_length. cbn. lia.
  - exists ce. split; [|done]. unfold s1. cbn [t_nodes]. apply list_lookup_middle. done.
Qed.
