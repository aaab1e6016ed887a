(** * C55: the structural queries of the five search trees *)
From Coq Require Import Sorted.
From Verif Require Import Base NumOrd ListModel TreeModel TreeSpec TreeThm BinThm TreeProps BstModel BalModel BstSpec BstSep BstRules BstZip BstPure BstThm AvlThm BstProps AvlProps SplayProps TreapProps RbProps.
Local Open Scope py_scope.

Lemma shape_vals s t : shape s = Some t -> exists s', tree_vals s = Ok (bin_map p_val t) s'.
Proof.
  unfold shape, tree_vals. intros H. destruct (tree_pays s) as [t' s'| |] eqn:E; [|done|done]. injection H as ->.
  exists s'. by rewrite (bind_ok _ _ _ _ _ E).
Qed.
(** What the methods inherited from BinaryTree answer on a tree [s] with the nodes [t]. *)
Definition describes_tree (c : tcls) (s : tst) (t : bin num) : Prop :=
  (exists s', call c TLevels s = Some (OLevels (map (fun k => bin_level k t) (seq 0 (nlevels t))), s')) /\
  (exists s', call c TLeaves s = Some (OInt (Z.of_nat (length (List.filter bin_leaf (bin_nodes t)))), s')) /\
  (exists s' l, call c (TTraverse (PStr s_preorder)) s = Some (OVals l, s') /\ lists_in_order (before Pre) t l) /\
  (exists s' l, call c (TTraverse (PStr s_inorder)) s = Some (OVals l, s') /\ lists_in_order (before In) t l) /\
  (exists s' l, call c (TTraverse (PStr s_postorder)) s = Some (OVals l, s') /\ lists_in_order (before Post) t l) /\
  (exists s' l, call c (TTraverse (PStr s_breadth_first)) s = Some (OVals l, s') /\ lists_in_order before_bfs t l) /\
  (exists s' b, call c TIsPerfect s = Some (OWarnBool (is_nil t) b, s') /\ (b = true <-> exists n, filled n t)) /\
  (exists s' b, call c TIsStrict s = Some (OWarnBool (is_nil t) b, s') /\ (b = true <-> Forall zero_or_two (bin_nodes t))) /\
  (c <> CAVL -> exists s', call c THeight s = Some (OInt (Z.of_nat (nlevels t - 1)), s')) /\
  (c <> CAVL -> t = Nil -> exists s', call c TIsBalanced s = Some (OWarnBool true true, s')) /\
  (c <> CAVL -> forall l x r, t = Bin l x r -> exists s' b, call c TIsBalanced s = Some (OWarnBool false b, s') /\
     (b = true <-> (l = Nil /\ r = Nil) \/ (l <> Nil /\ r <> Nil /\ nlevels l <= nlevels r + 1 /\ nlevels r <= nlevels l + 1))).

Theorem C55_structural_queries_partial c s t : shape s = Some t -> describes_tree c s (bin_map p_val t).
Proof.
  intros H. destruct (shape_vals s t H) as [s' E]. clear H. set (v := bin_map p_val t) in *. clearbody v.
  assert (forall {A} (k : bin num -> M tst A), (let! t := tree_vals in k t) s = k v s') as HB by (intros A k; by rewrite (bind_ok _ _ _ _ _ E)).
  destruct (C20_traversals_list_in_order num v) as (HP & HI & HO & l & EL & HL).
  assert (v = Nil \/ v <> Nil) as HN by (destruct v; [by left|by right]).
  assert (c <> CAVL -> get_is_balanced c = (let! t := tree_vals in ret (bin_is_balanced t))) as HBal by (by destruct c).
  unfold describes_tree, call. split_and!.
  - exists s'. cbn [exec]. by rewrite HB, bin_levels_spec.
  - exists s'. cbn [exec]. by rewrite HB, bin_leaves_spec.
  - exists s', (preorder_traverse v). split; [|done]. cbn [exec]. by rewrite HB.
  - exists s', (inorder_traverse v). split; [|done]. cbn [exec]. by rewrite HB.
  - exists s', (postorder_traverse v). split; [|done]. cbn [exec]. by rewrite HB.
  - exists s', l. split; [|done]. cbn [exec]. rewrite HB. change (traverse v (PStr s_breadth_first)) with (@inr exn _ (breadth_first_traverse v)). by rewrite EL.
  - cbn [exec]. rewrite HB. destruct HN as [-> | HN].
    + exists s', true. split; [done|]. split; [|done]. by exists 0.
    + destruct (C21_is_perfect num v HN) as (r & E1 & E2). exists s', r. split; [|done]. rewrite E1. by destruct v.
  - cbn [exec]. rewrite HB. destruct HN as [-> | HN].
    + exists s', true. split; [done|]. split; [|done]. constructor.
    + destruct (C21_is_strict num v HN) as (r & E1 & E2). exists s', r. split; [|done]. rewrite E1. by destruct v.
  - intros Hc. exists s'. assert (get_tree_height c = (let! t := tree_vals in ret (Z.of_nat (tree_height (view t))))) as EH by (by destruct c).
    cbn [exec]. rewrite EH. unfold bind at 1. rewrite HB. rewrite bin_height_spec. by replace (nlevels v - 1) with (Init.Nat.pred (nlevels v)) by lia.
  - intros Hc ->. exists s'. cbn [exec]. rewrite (HBal Hc). unfold bind at 1. by rewrite HB.
  - intros Hc a x b ->. destruct (C21_is_balanced_partial num a b x) as (r & E1 & E2 & _). exists s', r. split; [|done].
    cbn [exec]. rewrite (HBal Hc). unfold bind at 1. rewrite HB. cbn [ret]. by rewrite E1.
Qed.
Print Assumptions C55_structural_queries_partial.
(** In particular after every history without removals, on every class, and after every
    history whatever on a BST or, with priorities above -1, on a Treap. *)
Theorem C55_after_histories_partial c os : no_removals os \/ c = CBST \/ (c = CTreap /\ Forall prio_above os) ->
  exists rs s t, history c os = Some (rs, s) /\ shape s = Some t /\ describes_tree c s (bin_map p_val t).
Proof.
  intros H. assert (exists rs s t, history c os = Some (rs, s) /\ shape s = Some t) as (rs & s & t & H1 & H2).
  { destruct H as [H|[-> |[-> H]]].
    - assert (behaves_as_set c os) as (rs & s & t & H1 & _ & H2 & _); [|by eauto].
      destruct c; [by apply C24_insertions_implement_a_set|by apply C26_insertions_implement_a_set|by apply C30_insertions_implement_a_set|by apply C29_insertions|by apply C32_insertions_implement_a_set].
    - destruct (C25_nothing_lost_partial os) as (rs & s & t & H1 & H2 & _). eauto.
    - destruct (C29_priorities_above_partial os H) as [(rs & s & t & H1 & _ & H2 & _) _]. eauto. }
  exists rs, s, t. split_and!; [done|done|]. by apply C55_structural_queries_partial.
Qed.
Print Assumptions C55_after_histories_partial.

(** AVL.is_balanced() compares the two subtrees of the root only, by their cached heights.
    Without removals that is the truth. *)
Theorem C55_avl_is_balanced_partial os rs s t : no_removals os -> history CAVL os = Some (rs, s) -> shape s = Some t ->
  height_balanced t /\ exists s', call CAVL TIsBalanced s = Some (OWarnBool (is_nil t) true, s').
Proof.
  intros H Hh Ht. split; [by eapply C26_balanced_after_insertions|].
  destruct (avl_ins_history os H) as [_ HH]. destruct (HH rs s t Hh Ht) as (T & HR & [HE HA] & -> & _).
  destruct T as [|l [i x] u].
  - exists s. unfold call. cbn [exec get_is_balanced]. unfold bind at 1, get_root, bind at 1. by rewrite (rep_root _ _ HR).
  - destruct (rep_children_heights s _ i x l u HR eq_refl) as (s' & E & _). exists s'. unfold call. cbn [exec get_is_balanced].
    unfold bind at 1, get_root, bind at 1. rewrite (rep_root _ _ HR). cbn [rp fst]. unfold avl_node_is_balanced, bind at 1. rewrite (bind_ok _ _ _ _ _ E).
    unfold ret. cbn [fst snd is_nil bin_map]. do 2 f_equal. destruct HA as (_ & _ & H1 & H2).
    rewrite (proj2 (Nat.leb_le _ _) H1), (proj2 (Nat.leb_le _ _) H2). done.
Qed.
Print Assumptions C55_avl_is_balanced_partial.
(** After removals it answers True on unbalanced trees. *)
Theorem C55_avl_is_balanced_refuted : exists os rs s t, history CAVL (os ++ [TIsBalanced]) = Some (rs ++ [OWarnBool false true], s) /\
  shape s = Some t /\ ~ height_balanced t.
Proof.
  exists (inserts (map Fin [50; 20; 60; 10; 30; 70; 5; 40]%Z) ++ [TRemove (PInt 70)]). eexists [_;_;_;_;_;_;_;_;_], _, _.
  split; [by vm_compute|]. split; [by vm_compute|]. cbn. lia.
Qed.
Print Assumptions C55_avl_is_balanced_refuted.
Example C55_example : exists rs s t, history CRB (inserts (map Fin [5; 2; 8; 1; 9; 7; 3]%Z)) = Some (rs, s) /\ shape s = Some t /\
  no_removals (inserts (map Fin [5; 2; 8; 1; 9; 7; 3]%Z)) /\
  option_map fst (call CRB TLevels s) = Some (OLevels [[Fin 5]; [Fin 2; Fin 8]; [Fin 1; Fin 3; Fin 7; Fin 9]]) /\
  option_map fst (call CRB TIsPerfect s) = Some (OWarnBool false true) /\ option_map fst (call CRB TLeaves s) = Some (OInt 4).
Proof. eexists _, _, _. split_and!; [by vm_compute|by vm_compute|repeat constructor|by vm_compute..]. Qed.
