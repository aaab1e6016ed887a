(** * Proofs for C80 *)
From Verif Require Import Base TreeModel TreeSpec TreeThm BinThm LookModel LookSpec.

Lemma fold_pair {A} (f : tree A -> nat * nat) (g : nat -> nat -> nat) cs : forall a k,
  fold_left (fun '(x, k) c => let '(n, k') := f c in (g x n, k + k')) cs (a, k)
  = (fold_left (fun x c => g x (f c).1) cs a, k + sum (map (fun c => (f c).2) cs)).
Proof.
  induction cs as [|c cs IH]; intros a k; cbn [fold_left map sum]; [by rewrite Nat.add_0_r|].
  destruct (f c) as [n k'] eqn:E. cbn [fst snd]. rewrite IH. f_equal. lia.
Qed.
Lemma fold_left_ext {A B} (f g : B -> A -> B) cs : Forall (fun c => forall b, f b c = g b c) cs -> forall b, fold_left f cs b = fold_left g cs b.
Proof. induction 1 as [|c cs H _ IH]; intros b; [done|]. cbn. by rewrite H, IH. Qed.

Lemma count_nodes_same {A} (t : tree A) : count_nodes_c t = (count_nodes t, length (subtrees t)).
Proof.
  induction t as [d cs IH] using tree_ind'. cbn [count_nodes_c count_nodes subtrees length].
  rewrite (fold_pair count_nodes_c Nat.add). f_equal.
  - apply fold_left_ext. eapply Forall_impl; [exact IH|]. intros c Hc b. by rewrite Hc.
  - rewrite flat_map_length. cbn. f_equal. apply sum_map_ext. eapply Forall_impl; [exact IH|]. intros c Hc. cbn beta. by rewrite Hc.
Qed.
Lemma node_height_same {A} (t : tree A) : node_height_c t = (node_height t, length (subtrees t)).
Proof.
  induction t as [d cs IH] using tree_ind'. cbn [node_height_c node_height subtrees length].
  rewrite (fold_pair node_height_c (fun h n => Nat.max h (1 + n))). f_equal.
  - apply fold_left_ext. eapply Forall_impl; [exact IH|]. intros c Hc b. by rewrite Hc.
  - rewrite flat_map_length. cbn. f_equal. apply sum_map_ext. eapply Forall_impl; [exact IH|]. intros c Hc. cbn beta. by rewrite Hc.
Qed.
Lemma count_leaves_same {A} (t : tree A) : count_leaves_c t = (count_leaves t, length (subtrees t)).
Proof.
  induction t as [d cs IH] using tree_ind'. destruct cs as [|c0 cs]; [done|]. set (l := c0 :: cs) in *. cbn [subtrees length].
  change (count_leaves_c (TNode d l)) with (fold_left (fun '(x, k) c => let '(n, k') := count_leaves_c c in (x + n, k + k')) l (0, 1)).
  change (count_leaves (TNode d l)) with (fold_left (fun x c => x + count_leaves c) l 0).
  rewrite (fold_pair count_leaves_c Nat.add). f_equal.
  - apply fold_left_ext. eapply Forall_impl; [exact IH|]. intros c Hc b. by rewrite Hc.
  - rewrite flat_map_length. cbn [Nat.add]. f_equal. apply sum_map_ext. eapply Forall_impl; [exact IH|]. intros c Hc. cbn beta. by rewrite Hc.
Qed.
Lemma depth_same {A} (a b : tree A) : node_depth_c a b = (node_depth a b, length (subtrees a) + length (subtrees b)).
Proof. unfold node_depth_c. by rewrite !node_height_same. Qed.

Lemma search_same v fuel : forall queue, search_loop fuel queue v = option_map fst (search_loop_c fuel queue v).
Proof.
  induction fuel as [|fuel IH]; intros queue; [done|]. cbn [search_loop search_loop_c]. destruct queue as [|c q]; [done|].
  destruct (py_eq (get_data c) v); [done|]. rewrite IH. by destruct (search_loop_c fuel _ v) as [[]|].
Qed.
Lemma queue_size {A} (c : tree A) q : length (flat_map subtrees (c :: q)) = S (length (flat_map subtrees (rev (get_children c) ++ q))).
Proof.
  assert (forall l1 l2, sum (l1 ++ l2) = sum l1 + sum l2) as Hs by (induction l1; intros; cbn; [done|rewrite IHl1; lia]).
  assert (forall (f : tree A -> nat) cs, sum (map f (rev cs)) = sum (map f cs)) as Hrev.
  { intros f cs. induction cs as [|x cs IH]; [done|]. cbn [rev map sum]. rewrite map_app, Hs, IH. cbn. lia. }
  destruct c as [d cs]. cbn [flat_map get_children]. rewrite app_length, flat_map_app, app_length, !flat_map_length, Hrev.
  cbn [subtrees length]. rewrite flat_map_length. lia.
Qed.
Lemma search_visits v fuel : forall queue r n, search_loop_c fuel queue v = Some (r, n) ->
  n <= length (flat_map subtrees queue) /\ (r = None -> n = length (flat_map subtrees queue)) /\ (queue <> [] -> 1 <= n).
Proof.
  induction fuel as [|fuel IH]; intros queue r n H; [done|]. cbn [search_loop_c] in H. destruct queue as [|c q]; [by injection H as <- <-|].
  rewrite (queue_size c q). destruct (py_eq (get_data c) v); [injection H as <- <-; split_and!; [lia|done|lia]|].
  destruct (search_loop_c fuel _ v) as [[r' m]|] eqn:E; [|done]. injection H as <- <-. destruct (IH _ _ _ E) as (H1 & H2 & _).
  split_and!; [lia| |lia]. intros Hr. by rewrite H2.
Qed.
Lemma contains_same t v : tree_contains t v = option_map fst (tree_contains_c t v).
Proof.
  destruct t as [r|]; [|done]. cbn [tree_contains tree_contains_c]. rewrite search_same. by destruct (search_loop_c _ _ v) as [[[] ]|].
Qed.

Lemma strict_same {A} (t : bin A) : (subtree_strict_c t).1 = subtree_strict t.
Proof.
  induction t as [|l IHl d r IHr]; [done|]. destruct l as [|l1 d1 r1], r as [|l2 d2 r2]; try done. set (l := Bin l1 d1 r1) in *. set (r := Bin l2 d2 r2) in *.
  change (subtree_strict_c (Bin l d r)) with (let '(a, k) := subtree_strict_c l in
      if a then let '(b, k') := subtree_strict_c r in (b, 1 + k + k') else (false, 1 + k)).
  change (subtree_strict (Bin l d r)) with (subtree_strict l && subtree_strict r). rewrite <- IHl, <- IHr.
  destruct (subtree_strict_c l) as [[] k]; [|done]. by destruct (subtree_strict_c r).
Qed.
Lemma strict_visits {A} (t : bin A) : t <> Nil -> (subtree_strict_c t).2 <= length (bin_nodes t) /\ (subtree_strict t = true -> (subtree_strict_c t).2 = length (bin_nodes t)).
Proof.
  induction t as [|l IHl d r IHr]; intros Hn; [done|].
  assert (length (bin_nodes (Bin l d r)) = 1 + length (bin_nodes l) + length (bin_nodes r)) as -> by (cbn; rewrite app_length; lia).
  destruct l as [|l1 d1 r1], r as [|l2 d2 r2]; try (cbn; split; [lia|done]).
  set (l := Bin l1 d1 r1) in *. set (r := Bin l2 d2 r2) in *.
  change (subtree_strict_c (Bin l d r)) with (let '(a, k) := subtree_strict_c l in
      if a then let '(b, k') := subtree_strict_c r in (b, 1 + k + k') else (false, 1 + k)).
  change (subtree_strict (Bin l d r)) with (subtree_strict l && subtree_strict r).
  destruct (IHl ltac:(done)) as [Hl Hl']. destruct (IHr ltac:(done)) as [Hr Hr']. pose proof (strict_same l) as Sl. pose proof (strict_same r) as Sr.
  destruct (subtree_strict_c l) as [a k]. destruct (subtree_strict_c r) as [b k']. cbn [fst snd] in *. subst a b.
  destruct (subtree_strict l); cbn [snd andb]; [|split; [lia|done]]. specialize (Hl' eq_refl). split; [lia|]. intros H. rewrite Hr' by done. lia.
Qed.
Lemma invert_same {A} (t : bin A) : invert_c t = (invert t, 2 * length (bin_nodes t) + 1).
Proof.
  induction t as [|l IHl d r IHr]; [done|]. cbn [invert_c invert bin_nodes length]. rewrite IHl, IHr, app_length. f_equal. lia.
Qed.

Lemma distances_length {A} (t : bin A) : forall k, length (distances k t) = length (bin_nodes t).
Proof. induction t as [|l IHl d r IHr]; intros k; [done|]. cbn [distances length bin_nodes]. by rewrite !app_length, IHl, IHr. Qed.
Lemma distances_S {A} (t : bin A) : forall k, sum (distances (S k) t) = sum (distances k t) + length (distances k t).
Proof.
  assert (forall l1 l2, sum (l1 ++ l2) = sum l1 + sum l2) as Hs by (induction l1; intros; cbn; [done|rewrite IHl1; lia]).
  induction t as [|l IHl d r IHr]; intros k; [done|]. cbn [distances sum length]. rewrite !Hs, !app_length, (IHl (S k)), (IHr (S k)). lia.
Qed.
Definition textbook3 {A} (o : order3) (t : bin A) : list A :=
  match o with OPre => preorder_traverse t | OIn => inorder_traverse t | OPost => postorder_traverse t end.
Lemma textbook3_length {A} o (t : bin A) : length (textbook3 o t) = length (bin_nodes t).
Proof.
  induction t as [|l IHl d r IHr]; [by destruct o|]. destruct o; cbn in *; rewrite ?app_length in *; cbn; rewrite ?app_length; cbn; lia.
Qed.
Lemma traverse_same {A} o (t : bin A) : traverse_c o t = (textbook3 o t, (length (bin_nodes t), length (bin_nodes t) + sum (distances 0 t))).
Proof.
  assert (forall l1 l2, sum (l1 ++ l2) = sum l1 + sum l2) as Hs by (induction l1; intros; cbn; [done|rewrite IHl1; lia]).
  induction t as [|l IHl d r IHr]; [by destruct o|]. cbn [traverse_c]. rewrite IHl, IHr, !textbook3_length. cbn [bin_nodes distances length sum].
  rewrite app_length, Hs, !distances_S, !distances_length. f_equal; [by destruct o|]. f_equal; lia.
Qed.
Lemma chain_size n : length (bin_nodes (right_chain n)) = n.
Proof. induction n as [|n IH]; [done|]. cbn. by rewrite IH. Qed.
Lemma chain_distances n : 2 * sum (distances 0 (right_chain n)) = n * (n - 1).
Proof. induction n as [|n IH]; [done|]. cbn [right_chain distances app sum]. rewrite distances_S, distances_length, chain_size. nia. Qed.
Lemma balanced_same {A} (t : bin A) : (bin_is_balanced_c t).1 = bin_is_balanced t.
Proof.
  destruct t as [|l d r]; [done|]. unfold bin_is_balanced_c, bin_is_balanced, bin_node_height.
  destruct (view (Bin l d r)) as [t|] eqn:E; [|done]. rewrite node_height_same.
  destruct l as [|l1 d1 r1]; cbn [is_nil].
  - destruct r as [|l2 d2 r2]; cbn [is_nil]; [done|]. destruct (view (Bin l2 d2 r2)) as [y|] eqn:E2; [|done]. by rewrite node_height_same.
  - destruct (view (Bin l1 d1 r1)) as [x|] eqn:E1; [|done]. rewrite node_height_same.
    destruct r as [|l2 d2 r2]; cbn [is_nil]; [done|]. destruct (view (Bin l2 d2 r2)) as [y|] eqn:E2; [|done]. by rewrite node_height_same.
Qed.
Lemma view_nodes {A} (t : bin A) n : view t = Some n -> length (subtrees n) = length (bin_nodes t).
Proof. intros H. pose proof (view_count t) as Hc. rewrite H in Hc. cbn in Hc. by rewrite app_nil_r in Hc. Qed.
Lemma balanced_visits {A} (t : bin A) : (bin_is_balanced_c t).2 <= 3 * length (bin_nodes t).
Proof.
  destruct t as [|l d r]; [done|]. unfold bin_is_balanced_c.
  destruct (view (Bin l d r)) as [t|] eqn:E; [|done]. rewrite node_height_same, (view_nodes _ _ E). cbn [bin_nodes length]. rewrite app_length.
  destruct l as [|l1 d1 r1]; cbn [is_nil].
  - destruct r as [|l2 d2 r2]; cbn [is_nil]; [cbn; lia|]. destruct (view (Bin l2 d2 r2)) as [y|] eqn:E2; [|done]. rewrite node_height_same, (view_nodes _ _ E2). cbn [snd]. lia.
  - destruct (view (Bin l1 d1 r1)) as [x|] eqn:E1; [|done]. rewrite node_height_same, (view_nodes _ _ E1).
    destruct r as [|l2 d2 r2]; cbn [is_nil]; [cbn [snd]; lia|]. destruct (view (Bin l2 d2 r2)) as [y|] eqn:E2; [|done]. rewrite node_height_same, (view_nodes _ _ E2). cbn [snd]. lia.
Qed.
Lemma beyond_log a b : exists m, a * m + b < 2 ^ m.
Proof.
  set (c := 2 * (a + b + 1)). exists (2 * c). assert (c < 2 ^ c) as H by (apply Nat.pow_gt_lin_r; lia).
  replace (2 ^ (2 * c)) with (2 ^ c * 2 ^ c) by (rewrite <- Nat.pow_add_r; f_equal; lia). assert ((c + 1) * (c + 1) <= 2 ^ c * 2 ^ c) by (apply Nat.mul_le_mono; lia). nia.
Qed.
