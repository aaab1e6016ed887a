(** * C56: Tree.from_path mirrors the directory.  Vocabulary: PathSpec.v. *)
From Coq Require Import Sorted ssreflect.
From Verif Require Import Base TreeModel TreeSpec TreeThm PrintModel PathModel SuffixSpec SuffixThm3 PathSpec PathThm.
Local Open Scope N_scope.

(** [d] is the current directory.  Whatever way a path is written (relative, with "." and
    "..", doubled or trailing slashes), the result pictures the node it leads to, under the
    name this node has in its directory; the root of the file system has the name "". *)
Theorem C56_from_path root cwd d path : proper root -> is_dir root -> reach root cwd = Some d ->
  match path with
  | PStr p =>
      match resolve root cwd p with
      | None => from_path root cwd path = inl ValueError
      | Some (ns, x) => exists t, from_path root cwd path = inr (Some t) /\ mirrors (default [] (last ns)) x t
      end
  | _ => from_path root cwd path = inl TypeError
  end.
Proof. intros HP HD Hc. destruct path as [|n|p| | |]; try done. by eapply from_path_spec. Qed.
Print Assumptions C56_from_path.

Lemma sorted_perm_eq {B} (R : pystr -> pystr -> Prop) (HT : forall a b, R a b -> R b a -> False) (l1 l2 : list (pystr * B)) :
  l1 ≡ₚ l2 -> StronglySorted (fun a b => R (fst a) (fst b)) l1 -> StronglySorted (fun a b => R (fst a) (fst b)) l2 -> l1 = l2.
Proof.
  revert l2. induction l1 as [|x l1 IH]; intros l2 HP H1 H2; [by apply Permutation_nil in HP|].
  destruct l2 as [|y l2]; [by apply Permutation_sym, Permutation_nil in HP|].
  apply StronglySorted_inv in H1 as [H1 F1]. apply StronglySorted_inv in H2 as [H2 F2]. rewrite Forall_forall in F1. rewrite Forall_forall in F2.
  assert (x = y) as ->.
  { assert (x ∈ y :: l2) as [->|Hx]%elem_of_cons by (rewrite -HP; by left); [done|].
    assert (y ∈ x :: l1) as [->|Hy]%elem_of_cons by (rewrite HP; by left); [done|]. exfalso. eapply HT; [by apply F1|by apply F2]. }
  f_equal. apply IH; [|done|done]. by apply Permutation_cons_inv in HP.
Qed.
Lemma mirrors_unique x : forall n t1 t2, mirrors n x t1 -> mirrors n x t2 -> t1 = t2.
Proof.
  induction x as [|es IH] using fs_ind'; intros n t1 t2 H1 H2; inversion H1 as [|? ? es1 cs1 P1 S1 F1]; subst; inversion H2 as [|? ? es2 cs2 P2 S2 F2]; subst; [done|].
  assert (es1 = es2) as ->.
  { apply (sorted_perm_eq lex_lt); [|by rewrite P1 P2|done|done]. intros a b Ha Hb. by apply (lex_irrefl a), (lex_trans a b a). }
  f_equal. rewrite -P2 Forall_forall in IH. clear -F1 F2 IH. revert cs2 F2. induction F1 as [|e t es cs He F1 IHF]; intros cs2 F2; inversion F2; subst; [done|].
  f_equal; [|apply IHF; [|done]].
  - eapply (IH e); [by left|done|done].
  - intros e' He'. apply IH. by right.
Qed.
(** The result depends on the node only, not on how the path is written. *)
Theorem C56_spelling root cwd d p1 p2 : proper root -> is_dir root -> reach root cwd = Some d ->
  resolve root cwd p1 = resolve root cwd p2 -> from_path root cwd (PStr p1) = from_path root cwd (PStr p2).
Proof.
  intros HP HD Hc E. pose proof (C56_from_path root cwd d (PStr p1) HP HD Hc) as H1. pose proof (C56_from_path root cwd d (PStr p2) HP HD Hc) as H2.
  cbv beta iota in H1, H2. rewrite E in H1. destruct (resolve root cwd p2) as [[ns x]|]; [|by rewrite H1 H2].
  destruct H1 as (t1 & -> & M1). destruct H2 as (t2 & -> & M2). by rewrite (mirrors_unique _ _ _ _ M1 M2).
Qed.
Print Assumptions C56_spelling.
(** One node for each file and directory below. *)
Lemma mirrors_count x : forall n t, mirrors n x t -> count_nodes t = fs_count x.
Proof.
  induction x as [|es IH] using fs_ind'; intros n t H; inversion H as [|? ? es' cs HP HS HF]; subst; [done|].
  rewrite count_nodes_subtrees. cbn [subtrees fs_count length]. f_equal. rewrite -HP in IH |- *. clear -IH HF.
  induction HF as [|e c es cs He HF IHF]; [done|]. apply Forall_cons in IH as [H1 IH]. cbn. rewrite app_length -count_nodes_subtrees (H1 _ _ He). by rewrite IHF.
Qed.
Theorem C56_len root cwd d p ns x : proper root -> is_dir root -> reach root cwd = Some d -> resolve root cwd p = Some (ns, x) ->
  exists t, from_path root cwd (PStr p) = inr (Some t) /\ tree_len (Some t) = fs_count x.
Proof.
  intros HP HD Hc E. pose proof (C56_from_path root cwd d (PStr p) HP HD Hc) as H. cbv beta iota in H. rewrite E in H.
  destruct H as (t & Et & Hm). exists t. split; [done|]. by eapply mirrors_count.
Qed.
Print Assumptions C56_len.
(** Directory "d" with "b" before "a"; current directory "d". *)
Definition ex_fs : fs := Dir [([100], Dir [([98], File); ([97], Dir [([99], File)])])].
Example C56_example :
  proper ex_fs /\ is_dir ex_fs /\ reach ex_fs [[100]] = Some (Dir [([98], File); ([97], Dir [([99], File)])]) /\
  from_path ex_fs [[100]] (PStr ([46; 46; 47; 100; 47; 47; 97; 47; 46; 46])) = (* "../d//a/.." *)
    inr (Some (TNode [100] [TNode [97] [TNode [99] []]; TNode [98] []])) /\
  from_path ex_fs [[100]] (PStr [47]) = inr (Some (TNode [] [TNode [100] [TNode [97] [TNode [99] []]; TNode [98] []]])) /\
  from_path ex_fs [[100]] (PStr [98; 47]) = inl ValueError.
Proof.
  split. { repeat (first [constructor|split]); cbn; try done; try set_solver. }
  split; [by eexists|]. by vm_compute.
Qed.
