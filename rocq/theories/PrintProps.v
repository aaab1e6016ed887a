(** * C54: the printed form of a Tree.  Vocabulary: PrintSpec.v. *)
From Coq Require Import Sorted ssreflect.
From Verif Require Import Base TreeModel TreeSpec TreeThm PrintModel PrintSpec PrintThm.

(** The printed form of a non-empty tree consists of the lines of its nodes, each once, in
    preorder, separated by newlines. *)
Theorem C54_lines_in_preorder (A : Type) (show : A -> pystr) (t : tree A) :
  exists l, tree_repr show (Some t) = join s_newline l /\ lines_in_preorder show t l /\ length l = tree_len (Some t).
Proof.
  exists (map (line_of show t) (paths t)). rewrite repr_lines lines_paths. split; [done|]. split.
  - exists (paths t). split; [done|]. split; [apply paths_sorted|apply paths_complete].
  - by rewrite map_length paths_length.
Qed.
Print Assumptions C54_lines_in_preorder.
(** When no text contains a newline, cutting the printed form at the newlines gives exactly
    these lines. *)
Theorem C54_one_line_per_node (A : Type) (show : A -> pystr) (t : tree A) : texts_one_line show t ->
  lines_in_preorder show t (split_lines (tree_repr show (Some t))) /\
  length (split_lines (tree_repr show (Some t))) = tree_len (Some t).
Proof.
  intros H. rewrite repr_lines lines_paths split_join.
  - by destruct t.
  - apply Forall_forall. intros x Hx. apply elem_of_list_fmap in Hx as (p & -> & _). by apply line_one_line.
  - split; [|by rewrite map_length paths_length]. exists (paths t). split; [done|]. split; [apply paths_sorted|apply paths_complete].
Qed.
Print Assumptions C54_one_line_per_node.
(** Two non-empty trees that print alike have the same shape and the same texts. *)
Theorem C54_print_determines_partial (A : Type) (show : A -> pystr) (t1 t2 : tree A) : texts_one_line show t1 -> texts_one_line show t2 ->
  tree_repr show (Some t1) = tree_repr show (Some t2) -> tree_map show t1 = tree_map show t2.
Proof.
  intros H1 H2 E. apply (f_equal split_lines) in E. rewrite !repr_lines !lines_paths in E.
  assert (forall t, texts_one_line show t -> split_lines (join s_newline (map (line_of show t) (paths t))) = map (line_of show t) (paths t)) as HS.
  { intros t Ht. apply split_join; [by destruct t|]. apply Forall_forall. intros x Hx. apply elem_of_list_fmap in Hx as (p & -> & _). by apply line_one_line. }
  rewrite (HS t1 H1) (HS t2 H2) -!lines_paths in E. destruct t1 as [d1 cs1], t2 as [d2 cs2]. cbn [get_data get_children] in E. injection E as E1 E2.
  cbn [tree_map]. rewrite E1. f_equal. by eapply forest_inj.
Qed.
Print Assumptions C54_print_determines_partial.
(** For trees of strings, which TreeNode() stores with every newline replaced, the printed
    form determines the tree, except that the empty tree prints like a single node "--". *)
Theorem C54_string_trees_partial (t1 t2 : option (tree pystr)) :
  tree_repr node_text t1 = tree_repr node_text t2 ->
  option_map (tree_map node_text) t1 = option_map (tree_map node_text) t2 \/
  exists o, (t1 = None /\ t2 = Some o \/ t2 = None /\ t1 = Some o) /\ tree_map node_text o = TNode s_dashes [].
Proof.
  assert (forall t, texts_one_line node_text t) as HO by (intros t p n _; apply node_text_one_line).
  assert (forall t, tree_repr node_text (Some t) = s_dashes -> tree_map node_text t = TNode s_dashes []) as HD.
  { intros t E. destruct (C54_lines_in_preorder _ node_text t) as (l & _ & _ & Hl). destruct (C54_one_line_per_node _ node_text t (HO t)) as [_ HL].
    rewrite E in HL. change (split_lines s_dashes) with [s_dashes] in HL. destruct t as [d [|c cs]]; [cbn in E |- *; by rewrite E|]. exfalso.
    cbn [tree_len] in HL. rewrite count_nodes_subtrees in HL. destruct c. cbn in HL. lia. }
  intros E. destruct t1 as [t1|], t2 as [t2|].
  - left. cbn. f_equal. by apply C54_print_determines_partial.
  - right. exists t1. split; [by right|]. by apply HD.
  - right. exists t2. split; [by left|]. apply HD. by rewrite -E.
  - by left.
Qed.
Print Assumptions C54_string_trees_partial.
(** Both exceptions occur: the empty tree and the tree of one node "--"; the values "\n" and
    "\\n" (a newline; a backslash and an n), which are different as given. *)
Theorem C54_empty_refuted : exists v, tree_repr node_text (Some (TNode v [])) = tree_repr (A := pystr) node_text None.
Proof. by exists s_dashes. Qed.
Print Assumptions C54_empty_refuted.
Theorem C54_newline_refuted : exists v w : pystr, v <> w /\ node_text v = node_text w.
Proof. by exists [10%N], [92%N; 110%N]. Qed.
Print Assumptions C54_newline_refuted.
(** The example of the documentation. *)
Example C54_example :
  let n c := TNode [c] in
  split_lines (tree_repr node_text (Some (n 84 [n 65 [n 72 []; n 111 [n 66 []; n 76 []]]; n 90 []])%N)) =
  [[84]; [9500; 9472; 9516; 32; 65]; [9474; 32; 9500; 9472; 9472; 32; 72]; [9474; 32; 9492; 9472; 9516; 32; 111];
   [9474; 32; 32; 32; 9500; 9472; 9472; 32; 66]; [9474; 32; 32; 32; 9492; 9472; 9472; 32; 76]; [9492; 9472; 9472; 32; 90]]%N.
Proof. by vm_compute. Qed.
