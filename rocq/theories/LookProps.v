(** * C80: the work of looking at a whole tree

    Specification: TreeSpec.v ([subtrees], [bin_nodes]), LookSpec.v.  Model: LookModel.v.
    Proofs: LookThm.v. *)
From Verif Require Import Base TreeModel TreeSpec TreeThm BinThm LookModel LookSpec LookThm.

(** The counted functions are those of the model. *)
Theorem C80_same {A} (t : option (tree A)) (b : bin A) (u : option (tree pyval)) v :
  (tree_len_c t).1 = tree_len t /\ (tree_height_c t).1 = tree_height t /\ (tree_depth_c t).1 = tree_depth t
  /\ (tree_leaves_c t).1 = tree_leaves t /\ option_map fst (tree_contains_c u v) = tree_contains u v
  /\ (bin_is_balanced_c b).1 = bin_is_balanced b /\ (subtree_strict_c b).1 = subtree_strict b /\ (invert_c b).1 = invert b
  /\ (traverse_c OPre b).1 = preorder_traverse b /\ (traverse_c OIn b).1 = inorder_traverse b /\ (traverse_c OPost b).1 = postorder_traverse b.
Proof.
  split_and!.
  - destruct t; [cbn; by rewrite count_nodes_same|done].
  - destruct t; [cbn; by rewrite node_height_same|done].
  - destruct t; [cbn; by rewrite depth_same|done].
  - destruct t; [cbn; by rewrite count_leaves_same|done].
  - symmetry. apply contains_same.
  - apply balanced_same.
  - apply strict_same.
  - by rewrite invert_same.
  - by rewrite traverse_same.
  - by rewrite traverse_same.
  - by rewrite traverse_same.
Qed.
Print Assumptions C80_same.

(** A tree with [n] nodes: len, get_height and count_leaf_nodes visit each node once, get_depth
    twice; [in] visits no node twice, and all when the value is missing. *)
Theorem C80_tree {A} (t : tree A) (u : tree pyval) v : let n := length (subtrees t) in
  (tree_len_c (Some t)).2 = n /\ (tree_height_c (Some t)).2 = n /\ (tree_leaves_c (Some t)).2 = n /\ (tree_depth_c (Some t)).2 = 2 * n
  /\ exists r k, tree_contains_c (Some u) v = Some (r, k) /\ 1 <= k <= length (subtrees u) /\ (r = inr false -> k = length (subtrees u)).
Proof.
  intros n. cbn [tree_len_c tree_height_c tree_leaves_c tree_depth_c]. rewrite count_nodes_same, node_height_same, count_leaves_same, depth_same.
  split_and!; try done; [cbn; unfold n; lia|].
  destruct (contains_spec u v) as (b & Hc & _). rewrite contains_same in Hc. cbn [tree_contains_c] in *.
  destruct (search_loop_c (S (count_nodes u)) [u] v) as [[r k]|] eqn:E; [|done]. destruct (search_visits _ _ _ _ _ E) as (H1 & H2 & H3).
  cbn [flat_map] in *. rewrite app_nil_r in *. specialize (H3 ltac:(done)).
  destruct r as [x|]; eexists _, k; (split; [done|]); split; [lia|done|lia|]. intros _. by apply H2.
Qed.
Print Assumptions C80_tree.

(** A binary tree with [n] nodes: is_balanced visits at most 3 n nodes, is_strict at most n, and all
    when the answer is True; invert makes 2 n + 1 calls; each recursive traversal visits n nodes and writes
    as many items into lists as the distances from the root, plus one each, add up to. *)
Theorem C80_binary {A} (t : bin A) o : t <> Nil -> let n := length (bin_nodes t) in
  (bin_is_balanced_c t).2 <= 3 * n /\ (subtree_strict_c t).2 <= n /\ (subtree_strict t = true -> (subtree_strict_c t).2 = n)
  /\ (invert_c t).2 = 2 * n + 1 /\ (traverse_c o t).2 = (n, n + sum (distances 0 t)).
Proof.
  intros Hn n. destruct (strict_visits t Hn). split_and!; [apply balanced_visits|done|done|by rewrite invert_same|by rewrite traverse_same].
Qed.
Print Assumptions C80_binary.

(** get_depth is documented as O(1). *)
Theorem C80_depth_refuted b : exists t : bin nat, t <> Nil /\ tree_depth (view t) = 0%Z /\ b < (tree_depth_c (view t)).2.
Proof.
  exists (right_chain (S b)). split; [done|]. split.
  - destruct (view (right_chain (S b))); [cbn; unfold node_depth; lia|done].
  - destruct (view (right_chain (S b))) as [n|] eqn:E; [|done]. cbn [tree_depth_c]. rewrite depth_same. cbn [snd]. rewrite (view_nodes _ _ E), chain_size. lia.
Qed.
Print Assumptions C80_depth_refuted.
(** invert is documented as O(log(n)). *)
Theorem C80_invert_refuted a b : exists t : bin nat, a * Nat.log2 (length (bin_nodes t)) + b < (invert_c t).2.
Proof.
  destruct (beyond_log a b) as (m & Hm). exists (right_chain (2 ^ m)). rewrite invert_same, chain_size, Nat.log2_pow2 by lia. cbn [snd]. lia.
Qed.
Print Assumptions C80_invert_refuted.
(** The traversals are documented as O(n): they copy the lists of the subtrees at every node. *)
Theorem C80_traversal_refuted o a b : exists t : bin nat, a * length (bin_nodes t) + b < (traverse_c o t).2.2.
Proof.
  set (n := 2 * (a + b + 1)). exists (right_chain n). rewrite traverse_same, chain_size. cbn [snd].
  pose proof (chain_distances n) as H. destruct n as [|n'] eqn:E; [unfold n in E; lia|]. rewrite <- E in *.
  assert (n - 1 = 2 * (a + b) + 1) as En by lia. rewrite En in H. nia.
Qed.
Print Assumptions C80_traversal_refuted.

(** The tree 1, 2 (1's left child), 3 (1's right child), 4 (3's right child): calls of get_depth, is_balanced,
    is_strict, invert; items written by a traversal. *)
Example C80_example : let t := Bin (Bin Nil 2 Nil) 1 (Bin Nil 3 (Bin Nil 4 Nil)) in
  ((tree_depth_c (view t)).2, (bin_is_balanced_c t).2, (subtree_strict_c t).2, (invert_c t).2, (traverse_c OIn t)) = (8, 11, 3, 9, ([2; 1; 3; 4], (4, 8))).
Proof. by vm_compute. Qed.
