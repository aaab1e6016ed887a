(** * Tree and BinaryTree properties: C19-C23, C46.  Vocabulary: TreeSpec.v. *)
From Verif Require Import Base TreeModel TreeSpec TreeThm BinThm.

(** ** C19 *)
(** Every non-empty tree. *)
Theorem C19_tree_measures_partial : forall (A : Type) (t : tree A),
  let items := concat (map (fun k => level k t) (seq 0 (tree_height (Some t) + 1))) in
  tree_to_list (Some t) = Some items /\
  items ≡ₚ map get_data (subtrees t) /\
  tree_len (Some t) = length items /\
  (exists s, tree_levels (Some t) = Ok (map (fun k => level k t) (seq 0 (tree_height (Some t) + 1))) s) /\
  (forall k, level k t = [] <-> tree_height (Some t) < k) /\
  tree_leaves (Some t) = length (filter childless (subtrees t)) /\
  tree_depth (Some t) = 0%Z.
Proof.
  intros A t. cbn [tree_height]. rewrite Nat.add_1_r. change (map _ (seq 0 (S _))) with (levels t). cbv zeta.
  split; [apply to_list_spec|]. split; [apply levels_perm|]. split.
  { rewrite levels_perm, map_length. apply count_nodes_subtrees. }
  split; [exists (levels t); apply levels_spec|]. split; [apply level_empty|]. split; [apply count_leaves_subtrees|].
  unfold tree_depth, node_depth. lia.
Qed.
Print Assumptions C19_tree_measures_partial.
Theorem C19_membership_partial : forall (t : tree pyval) (v : pyval), exists b items,
  tree_contains (Some t) v = Some (inr b) /\ tree_to_list (Some t) = Some items /\
  (b = true <-> exists x, x ∈ items /\ py_eq x v = true).
Proof.
  intros t v. destruct (contains_spec t v) as (b & H1 & H2). exists b, (concat (levels t)).
  split; [done|]. split; [apply to_list_spec|done].
Qed.
Print Assumptions C19_membership_partial.
(** The same for binary trees, whose levels read left to right. *)
Theorem C19_binary_measures_partial : forall (A : Type) (t : bin A), t <> Nil ->
  let levels := map (fun k => bin_level k t) (seq 0 (tree_height (view t) + 1)) in
  tree_to_list (view t) = Some (concat levels) /\
  tree_len (view t) = length (concat levels) /\ tree_len (view t) = length (bin_nodes t) /\
  (exists s, tree_levels (view t) = Ok levels s) /\
  (forall k, bin_level k t = [] <-> tree_height (view t) < k) /\
  tree_leaves (view t) = length (List.filter bin_leaf (bin_nodes t)) /\
  tree_depth (view t) = 0%Z.
Proof.
  intros A t Hn. assert (E : tree_height (view t) + 1 = nlevels t).
  { rewrite bin_height_spec. destruct t; [done|]. cbn. lia. }
  rewrite E. change (map _ (seq 0 (nlevels t))) with (blevels t). cbv zeta. split; [apply bin_to_list_spec|].
  split. { rewrite bin_len_spec, <- preorder_nodes. by rewrite (proj2 (proj2 (traversals_perm t))). }
  split; [apply bin_len_spec|]. split; [exists (blevels t); apply bin_levels_spec|].
  split. { intros k. rewrite bin_level_empty. lia. } split; [apply bin_leaves_spec|].
  destruct (view t); [unfold tree_depth, node_depth; lia|done].
Qed.
Print Assumptions C19_binary_measures_partial.
(** The empty tree: no item, no level, but height 0 and membership raises. *)
Theorem C19_empty_tree_refuted : exists t : option (tree pyval),
  tree_levels t = Ok [] [] /\ tree_height t = 0 /\ tree_to_list t = Some [] /\
  forall v, tree_contains t v = Some (inl AttributeError).
Proof. exists None. done. Qed.
Print Assumptions C19_empty_tree_refuted.
Definition ex_tree : tree pyval :=
  TNode (PInt 10) [TNode (PInt 100) [TNode (PInt 1) []; TNode (PInt 2) []]; TNode (PInt 200) []].
Example C19_example : tree_len (Some ex_tree) = 5 /\ tree_height (Some ex_tree) = 2 /\ tree_leaves (Some ex_tree) = 3 /\
  tree_to_list (Some ex_tree) = Some [PInt 10; PInt 100; PInt 200; PInt 1; PInt 2] /\
  tree_contains (Some ex_tree) (PInt 2) = Some (inr true) /\ tree_contains (Some ex_tree) (PInt 3) = Some (inr false).
Proof. vm_compute. done. Qed.

(** ** C20 *)
Theorem C20_traversals_list_in_order : forall (A : Type) (t : bin A),
  lists_in_order (before Pre) t (preorder_traverse t) /\
  lists_in_order (before In) t (inorder_traverse t) /\
  lists_in_order (before Post) t (postorder_traverse t) /\
  exists l, breadth_first_traverse t = Some l /\ lists_in_order before_bfs t l.
Proof.
  intros A t. split; [apply (textbook_order Pre)|]. split; [apply (textbook_order In)|]. split; [apply (textbook_order Post)|].
  exists (concat (blevels t)). split; [apply bin_to_list_spec|apply bfs_order].
Qed.
Print Assumptions C20_traversals_list_in_order.
(** These descriptions leave no choice. *)
Theorem C20_orders_are_unique : forall (A : Type) (t : bin A) (l1 l2 : list A),
  (forall o, lists_in_order (before o) t l1 -> lists_in_order (before o) t l2 -> l1 = l2) /\
  (lists_in_order before_bfs t l1 -> lists_in_order before_bfs t l2 -> l1 = l2).
Proof.
  intros A t l1 l2. split.
  - intros o. apply lists_unique; [apply before_irrefl|apply before_asym].
  - apply lists_unique; [apply before_bfs_irrefl|apply before_bfs_asym].
Qed.
Print Assumptions C20_orders_are_unique.
Theorem C20_traversals_are_permutations : forall (A : Type) (t : bin A), exists l, breadth_first_traverse t = Some l /\
  inorder_traverse t ≡ₚ preorder_traverse t /\ postorder_traverse t ≡ₚ preorder_traverse t /\ l ≡ₚ preorder_traverse t /\
  length l = tree_len (view t).
Proof.
  intros A t. exists (concat (blevels t)). destruct (traversals_perm t) as (H1 & H2 & H3).
  split; [apply bin_to_list_spec|]. split; [done|]. split; [done|]. split; [done|]. by rewrite H3, bin_len_spec, preorder_nodes.
Qed.
Print Assumptions C20_traversals_are_permutations.
(** Distinct items: preorder and inorder determine the tree. *)
Theorem C20_preorder_inorder_determine : forall (A : Type) (t1 t2 : bin A), NoDup (inorder_traverse t1) ->
  preorder_traverse t1 = preorder_traverse t2 -> inorder_traverse t1 = inorder_traverse t2 -> t1 = t2.
Proof. intros A t1 t2. apply pre_in_determine. Qed.
Print Assumptions C20_preorder_inorder_determine.
(** [traverse(method)]. *)
Theorem C20_traverse_dispatch : forall (A : Type) (t : bin A) (m : pyval),
  traverse t m = match m with
    | PStr s =>
        if decide (lower s = s_inorder) then inr (Some (inorder_traverse t))
        else if decide (lower s = s_postorder) then inr (Some (postorder_traverse t))
        else if decide (lower s ∈ [s_preorder; s_depth_first]) then inr (Some (preorder_traverse t))
        else if decide (lower s = s_breadth_first) then inr (tree_to_list (view t))
        else inl ValueError
    | _ => inl TypeError
    end.
Proof.
  intros A t [| |s| | |]; try done. unfold traverse.
  repeat case_bool_decide; repeat case_decide; try congruence; try done;
    set_unfold; rewrite ?orb_true_r; try naive_solver.
Qed.
Print Assumptions C20_traverse_dispatch.
Definition ex_bin : bin Z := (Bin (Bin (Bin Nil 4 Nil) 2 (Bin (Bin Nil 8 Nil) 5 Nil)) 1 (Bin (Bin Nil 7 Nil) 3 Nil))%Z.
Example C20_example : NoDup (inorder_traverse ex_bin) /\
  traverse ex_bin (PStr [80; 111; 83; 84; 79; 82; 68; 69; 82]%N) = inr (Some [4; 8; 5; 2; 7; 3; 1]%Z) /\
  traverse ex_bin (PStr s_breadth_first) = inr (Some [1; 2; 3; 4; 5; 7; 8]%Z).
Proof.
  split; [|split; vm_compute; reflexivity]. apply (bool_decide_unpack _). vm_compute. done.
Qed.

(** ** C21 *)
Theorem C21_is_perfect : forall (A : Type) (t : bin A), t <> Nil ->
  exists b, bin_is_perfect t = Some (false, b) /\ (b = true <-> exists n, filled n t).
Proof. intros A. apply is_perfect_spec. Qed.
Print Assumptions C21_is_perfect.
Theorem C21_is_strict : forall (A : Type) (t : bin A), t <> Nil ->
  exists b, bin_is_strict t = (false, b) /\ (b = true <-> Forall zero_or_two (bin_nodes t)).
Proof. intros A t Hn. destruct (is_strict_spec t Hn) as [H1 H2]. eexists. by split. Qed.
Print Assumptions C21_is_strict.
(** is_balanced is wrong in both directions: a root with one leaf is reported
    unbalanced, and leaves two levels apart are accepted when they hang below one child. *)
Theorem C21_is_balanced_refuted : exists (t1 t2 : bin Z),
  balanced_doc t1 /\ bin_is_balanced t1 = (false, false) /\
  ~ balanced_doc t2 /\ bin_is_balanced t2 = (false, true).
Proof.
  set (deep := (Bin (Bin Nil 3 Nil) 2 (Bin (Bin (Bin Nil 6 Nil) 5 Nil) 4 Nil))%Z).
  exists (Bin (Bin Nil 2 Nil) 1 Nil)%Z, (Bin deep 1 deep)%Z. split; [|split; [done|split; [|done]]].
  - intros i j Hi Hj.
    assert (H : forall k, leaf_at (Bin (Bin Nil 2 Nil) 1 Nil)%Z k -> k = 1).
    { intros k Hk. inversion Hk as [|? ? ? ? H|? ? ? ? H]; subst; [|by inversion H].
      inversion H as [|? ? ? ? H1|? ? ? ? H1]; subst; [done|by inversion H1..]. }
    rewrite (H i Hi), (H j Hj). lia.
  - intros H. specialize (H 4 2). cut (4 <= 2 + 1); [lia|]. apply H.
    + apply la_left. apply la_right. apply la_left. apply la_left. constructor.
    + apply la_left. apply la_left. constructor.
Qed.
Print Assumptions C21_is_balanced_refuted.
(** What it computes, and that it accepts every documented-balanced tree whose root
    does not have exactly one child. *)
Theorem C21_is_balanced_partial : forall (A : Type) (l r : bin A) (d : A),
  exists b, bin_is_balanced (Bin l d r) = (false, b) /\
  (b = true <-> (l = Nil /\ r = Nil) \/
                (l <> Nil /\ r <> Nil /\ nlevels l <= nlevels r + 1 /\ nlevels r <= nlevels l + 1)) /\
  (balanced_doc (Bin l d r) -> (l = Nil <-> r = Nil) -> b = true).
Proof.
  intros A l r d. destruct (is_balanced_spec l r d) as (b & H1 & H2). exists b. split; [done|]. split; [done|].
  intros Hb Hlr. apply H2. destruct (decide (is_nil l = true)) as [E|E].
  - left. destruct l; [|done]. split; [done|]. by apply Hlr.
  - right. assert (l <> Nil) by (by intros ->). assert (r <> Nil) by (intros ->; apply E; by rewrite (proj2 Hlr)).
    split; [done|]. split; [done|]. by eapply balanced_doc_heights.
Qed.
Print Assumptions C21_is_balanced_partial.
Definition ex_perfect : bin Z := (Bin (Bin Nil 2 Nil) 1 (Bin Nil 3 Nil))%Z.
Example C21_example : filled 2 ex_perfect /\ bin_is_perfect ex_bin = Some (false, false) /\
  bin_is_strict ex_perfect = (false, true) /\ bin_is_strict ex_bin = (false, false).
Proof. vm_compute. done. Qed.

(** ** C22 *)
Theorem C22_side_views : forall (A : Type) (t : bin A), exists levels s left right,
  tree_levels (view t) = Ok levels s /\
  leftside_view t = Some left /\ map Some left = map head levels /\
  rightside_view t = Some right /\ map Some right = map last levels.
Proof.
  intros A t. destruct (left_view_spec t) as (lv & H1 & H2). destruct (right_view_spec t) as (rv & H3 & H4).
  exists (blevels t), (blevels t), lv, rv. split; [apply bin_levels_spec|]. done.
Qed.
Print Assumptions C22_side_views.
Example C22_example : leftside_view ex_bin = Some [1; 2; 4; 8]%Z /\ rightside_view ex_bin = Some [1; 3; 7; 8]%Z.
Proof. vm_compute. done. Qed.

(** ** C23 *)
Theorem C23_invert : forall (A : Type) (t : bin A),
  invert (invert t) = t /\
  inorder_traverse (invert t) = rev (inorder_traverse t) /\
  preorder_traverse (invert t) = rev (postorder_traverse t) /\
  tree_len (view (invert t)) = tree_len (view t) /\
  tree_height (view (invert t)) = tree_height (view t) /\
  tree_leaves (view (invert t)) = tree_leaves (view t) /\
  leftside_view (invert t) = rightside_view t /\ rightside_view (invert t) = leftside_view t /\
  exists levels s, tree_levels (view t) = Ok levels s /\ exists s', tree_levels (view (invert t)) = Ok (map (@rev A) levels) s'.
Proof.
  intros A t. split; [apply invert_invert|]. split; [apply invert_inorder|]. split; [apply invert_preorder|].
  split; [by rewrite !bin_len_spec, invert_nodes|]. split; [by rewrite !bin_height_spec, invert_nlevels|].
  split; [by rewrite !bin_leaves_spec, invert_leaves|]. split; [exact (side_view_mirror false t)|].
  split; [exact (side_view_mirror true t)|]. exists (blevels t), (blevels t). split; [apply bin_levels_spec|].
  exists (blevels (invert t)). rewrite bin_levels_spec. by rewrite invert_blevels.
Qed.
Print Assumptions C23_invert.
(** invert is the mirror image: the node on path [p] goes to the path with every turn flipped. *)
Theorem C23_invert_paths : forall (A : Type) (t : bin A) (p : list bool), at_path (invert t) p = at_path t (map negb p).
Proof. intros A t. induction t as [|l IHl d r IHr]; intros p; [by destruct p|]. destruct p as [|[] p]; cbn; auto. Qed.
Print Assumptions C23_invert_paths.
Example C23_example : invert ex_bin <> ex_bin /\ inorder_traverse (invert ex_bin) = [3; 7; 1; 5; 8; 2; 4]%Z.
Proof. split; [discriminate|vm_compute; done]. Qed.

(** ** C46: parse *)
Theorem C46_parse : forall (x : lit) (t : bin lit),
  parse x = inr t <-> (exists l, x = PSeq l) /\ describes x t.
Proof.
  intros [a|l] t; cbn [parse].
  - split; [done|]. intros [[? ?] _]. done.
  - rewrite create_subtree_spec. split; [intros H; split; eauto|by intros [_ H]].
Qed.
Print Assumptions C46_parse.
Theorem C46_parse_errors : forall (x : lit) e, parse x = inl e -> e = TypeError \/ e = ValueError.
Proof. intros [a|l] e; cbn [parse]; [intros [= <-]; by left|apply create_subtree_err]. Qed.
Print Assumptions C46_parse_errors.
(** Every tree in which no node has only a right child is the parse of some literal. *)
Theorem C46_parse_round_trip : forall (t : bin lit), t <> Nil ->
  Forall (fun n => ~ right_only n) (bin_nodes t) -> Forall (fun d => datum d d) (preorder_traverse t) ->
  parse (unparse t) = inr t.
Proof. exact parse_unparse. Qed.
Print Assumptions C46_parse_round_trip.
Definition ex_lit (z : Z) : lit := PAtom (PInt z).
Example C46_example :
  parse (PSeq [ex_lit 1; PSeq [ex_lit 2; ex_lit 4; ex_lit 5]; PSeq [ex_lit 3]]) =
    inr (Bin (Bin (Bin Nil (ex_lit 4) Nil) (ex_lit 2) (Bin Nil (ex_lit 5) Nil)) (ex_lit 1) (Bin Nil (ex_lit 3) Nil)) /\
  parse (PSeq []) = inl ValueError /\ parse (PSeq [ex_lit 1; PAtom PNone]) = inl ValueError.
Proof. vm_compute. done. Qed.
Example C46_round_trip_example :
  let t := Bin (Bin Nil (ex_lit 2) Nil) (ex_lit 1) Nil in
  t <> Nil /\ Forall (fun n => ~ right_only n) (bin_nodes t) /\ Forall (fun d => datum d d) (preorder_traverse t).
Proof. split; [discriminate|]. split; repeat constructor; cbn; tauto. Qed.
