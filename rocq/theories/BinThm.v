(** * Proofs about binary trees. *)
From Coq Require Import Sorted.
From Verif Require Import Base TreeModel TreeSpec TreeThm.

(** ** The inherited methods in terms of [bin] *)
Definition blevels {A} (t : bin A) : list (list A) := map (fun k => bin_level k t) (seq 0 (nlevels t)).
Lemma view_level {A} (t : bin A) : forall k, flat_map (level k) (option_list (view t)) = bin_level k t.
Proof.
  induction t as [|l IHl d r IHr]; intros k; [done|]. cbn [view bin_level]. change (option_list (Some ?x)) with [x].
  cbn [flat_map]. rewrite app_nil_r. destruct k as [|k]; [done|]. cbn [level get_children].
  by rewrite flat_map_app, IHl, IHr.
Qed.
Lemma lmax_app l1 l2 : lmax (l1 ++ l2) = Nat.max (lmax l1) (lmax l2).
Proof. induction l1 as [|x l IH]; cbn -[Nat.max]; [done|]. rewrite IH. lia. Qed.
Lemma view_height {A} (t : bin A) : lmax (map (fun n => S (node_height n)) (option_list (view t))) = nlevels t.
Proof.
  induction t as [|l IHl d r IHr]; [done|]. cbn [view nlevels]. change (option_list (Some ?x)) with [x].
  cbn [map lmax]. rewrite height_node, map_app, lmax_app, IHl, IHr. lia.
Qed.
Lemma view_nil {A} (t : bin A) : view t = None <-> t = Nil.
Proof. by destruct t. Qed.
Lemma view_Some {A} (t : bin A) n : view t = Some n ->
  S (node_height n) = nlevels t /\ levels n = blevels t /\ forall k, level k n = bin_level k t.
Proof.
  intros Hv. pose proof (view_height t) as H1. pose proof (view_level t) as H2. rewrite Hv in H1, H2.
  change (option_list (Some n)) with [n] in *. cbn -[Nat.max] in H1.
  assert (H3 : S (node_height n) = nlevels t) by lia.
  assert (H4 : forall k, level k n = bin_level k t) by (intros k; rewrite <- H2; cbn; by rewrite app_nil_r).
  split; [done|]. split; [|done]. unfold levels, blevels. rewrite H3. by apply map_ext.
Qed.
Lemma bin_levels_spec {A} (t : bin A) : tree_levels (view t) = Ok (blevels t) (blevels t).
Proof.
  destruct (view t) as [n|] eqn:E; [|by apply view_nil in E as ->].
  rewrite levels_spec. apply view_Some in E as (_ & -> & _). done.
Qed.
Lemma bin_to_list_spec {A} (t : bin A) : tree_to_list (view t) = Some (concat (blevels t)).
Proof.
  destruct (view t) as [n|] eqn:E; [|by apply view_nil in E as ->].
  rewrite to_list_spec. apply view_Some in E as (_ & -> & _). done.
Qed.
Lemma view_count {A} (t : bin A) : length (flat_map subtrees (option_list (view t))) = length (bin_nodes t).
Proof.
  induction t as [|l IHl d r IHr]; [done|]. cbn [view bin_nodes length]. change (option_list (Some ?x)) with [x].
  cbn [flat_map subtrees length app]. rewrite app_nil_r, flat_map_app, !app_length. by rewrite IHl, IHr.
Qed.
Lemma bin_len_spec {A} (t : bin A) : tree_len (view t) = length (bin_nodes t).
Proof.
  rewrite <- view_count. destruct (view t) as [n|]; [|done]. cbn. by rewrite app_nil_r, count_nodes_subtrees.
Qed.
Lemma view_leaves {A} (t : bin A) :
  length (filter childless (flat_map subtrees (option_list (view t)))) = length (List.filter bin_leaf (bin_nodes t)).
Proof.
  induction t as [|l IHl d r IHr]; [done|]. cbn [view bin_nodes]. change (option_list (Some ?x)) with [x].
  cbn [flat_map subtrees]. rewrite app_nil_r. rewrite filter_cons, flat_map_app, filter_app. cbn [List.filter].
  rewrite List.filter_app.
  assert (Hd : bin_leaf (Bin l d r) = bool_decide (childless (TNode d (option_list (view l) ++ option_list (view r))))).
  { symmetry. destruct l, r; cbn; by rewrite ?bool_decide_eq_true_2, ?bool_decide_eq_false_2. }
  rewrite Hd. case_bool_decide as Hb; [rewrite decide_True by done|rewrite decide_False by done]; cbn [length];
    rewrite !app_length, IHl, IHr; done.
Qed.
Lemma bin_leaves_spec {A} (t : bin A) : tree_leaves (view t) = length (List.filter bin_leaf (bin_nodes t)).
Proof.
  rewrite <- view_leaves. destruct (view t) as [n|]; [|done]. cbn [tree_leaves]. change (option_list (Some n)) with [n].
  cbn [flat_map]. by rewrite app_nil_r, count_leaves_subtrees.
Qed.
Lemma bin_height_spec {A} (t : bin A) : tree_height (view t) = pred (nlevels t).
Proof.
  destruct (view t) as [n|] eqn:E; [|by apply view_nil in E as ->]. apply view_Some in E as (E & _). cbn. lia.
Qed.
Lemma bin_level_empty {A} (t : bin A) : forall k, bin_level k t = [] <-> nlevels t <= k.
Proof.
  induction t as [|l IHl d r IHr]; intros k; cbn -[Nat.max]; [split; [lia|done]|]. destruct k as [|k]; [split; [done|lia]|].
  rewrite app_nil, IHl, IHr. lia.
Qed.

(** ** Traversals *)
Lemma SS_app {A} (R : A -> A -> Prop) l1 l2 : StronglySorted R l1 -> StronglySorted R l2 ->
  (forall x y, x ∈ l1 -> y ∈ l2 -> R x y) -> StronglySorted R (l1 ++ l2).
Proof.
  intros H1 H2 H. induction H1 as [|x l1 H1 IH Hx]; cbn; [done|]. constructor.
  - apply IH. intros; apply H; [by right|done].
  - apply Forall_app. split; [done|]. apply Forall_forall. intros y Hy. apply H; [by left|done].
Qed.
Lemma SS_map {A B} (R : A -> A -> Prop) (R' : B -> B -> Prop) (f : A -> B) l :
  (forall x y, R x y -> R' (f x) (f y)) -> StronglySorted R l -> StronglySorted R' (map f l).
Proof.
  intros Hf. induction 1 as [|x l H IH Hx]; cbn; constructor; [done|]. apply Forall_map. eapply Forall_impl; [exact Hx|]. cbn. auto.
Qed.
Lemma elem_of_map {A B} (f : A -> B) l y : y ∈ map f l <-> exists x, y = f x /\ x ∈ l.
Proof. rewrite elem_of_list_In, in_map_iff. setoid_rewrite elem_of_list_In. naive_solver. Qed.

Fixpoint tpaths {A} (o : visit) (t : bin A) : list (list bool) :=
  match t with
  | Nil => []
  | Bin l d r =>
      let pl := map (cons false) (tpaths o l) in let pr := map (cons true) (tpaths o r) in
      match o with Pre => [] :: pl ++ pr | In => pl ++ [] :: pr | Post => pl ++ pr ++ [[]] end
  end.
Definition textbook {A} (o : visit) : bin A -> list A :=
  match o with Pre => preorder_traverse | In => inorder_traverse | Post => postorder_traverse end.
Lemma tpaths_data {A} o (t : bin A) : Forall2 (fun p d => at_path t p = Some d) (tpaths o t) (textbook o t).
Proof.
  induction t as [|l IHl d r IHr]; [destruct o; constructor|].
  assert (Hl : Forall2 (fun p x => at_path (Bin l d r) p = Some x) (map (cons false) (tpaths o l)) (textbook o l)) by (by apply Forall2_fmap_l).
  assert (Hr : Forall2 (fun p x => at_path (Bin l d r) p = Some x) (map (cons true) (tpaths o r)) (textbook o r)) by (by apply Forall2_fmap_l).
  destruct o; cbn [tpaths textbook preorder_traverse inorder_traverse postorder_traverse] in *.
  - cbn. constructor; [done|]. by apply Forall2_app.
  - apply Forall2_app; [done|]. by constructor.
  - apply Forall2_app; [done|]. apply Forall2_app; [done|]. by repeat constructor.
Qed.
Lemma tpaths_sorted {A} o (t : bin A) : StronglySorted (before o) (tpaths o t).
Proof.
  induction t as [|l IHl d r IHr]; [constructor|].
  assert (Hl : StronglySorted (before o) (map (cons false) (tpaths o l))).
  { eapply SS_map; [|exact IHl]. intros x y H. cbn. exact H. }
  assert (Hr : StronglySorted (before o) (map (cons true) (tpaths o r))).
  { eapply SS_map; [|exact IHr]. intros x y H. cbn. exact H. }
  assert (Hlr : forall x y, x ∈ map (cons false) (tpaths o l) -> y ∈ map (cons true) (tpaths o r) -> before o x y).
  { intros x y (x' & -> & _)%elem_of_map (y' & -> & _)%elem_of_map. done. }
  destruct o; cbn [tpaths].
  - constructor; [by apply SS_app|]. apply Forall_forall. intros x [(y & -> & _)%elem_of_map|(y & -> & _)%elem_of_map]%elem_of_app; done.
  - apply SS_app; [done| |].
    + constructor; [done|]. apply Forall_forall. intros x (y & -> & _)%elem_of_map. done.
    + intros x y Hx [-> | Hy]%elem_of_cons; [|by apply Hlr]. apply elem_of_map in Hx as (x' & -> & _). done.
  - apply SS_app; [done| |].
    + apply SS_app; [done|repeat constructor|]. intros x y (x' & -> & _)%elem_of_map ->%elem_of_list_singleton. done.
    + intros x y Hx [Hy|Hy]%elem_of_app; [by apply Hlr|]. apply elem_of_list_singleton in Hy as ->.
      apply elem_of_map in Hx as (x' & -> & _). done.
Qed.
Lemma tpaths_complete {A} o (t : bin A) : forall p, at_path t p <> None -> p ∈ tpaths o t.
Proof.
  induction t as [|l IHl d r IHr]; intros p Hp; [by destruct p|]. destruct p as [|b p]; cbn in Hp.
  - destruct o; cbn; rewrite ?elem_of_cons, ?elem_of_app, ?elem_of_cons, ?elem_of_app; rewrite ?elem_of_list_singleton; auto.
  - assert (b :: p ∈ map (cons false) (tpaths o l) \/ b :: p ∈ map (cons true) (tpaths o r)) as Hin.
    { destruct b; [right|left]; apply elem_of_map; eauto. }
    destruct o; cbn; rewrite ?elem_of_cons, ?elem_of_app, ?elem_of_cons, ?elem_of_app; tauto.
Qed.
Lemma textbook_order {A} o (t : bin A) : lists_in_order (before o) t (textbook o t).
Proof. exists (tpaths o t). split; [apply tpaths_data|]. split; [apply tpaths_sorted|apply tpaths_complete]. Qed.

Fixpoint bpaths {A} (k : nat) (t : bin A) {struct t} : list (list bool) :=
  match t with
  | Nil => []
  | Bin l d r => match k with 0 => [[]] | S k' => map (cons false) (bpaths k' l) ++ map (cons true) (bpaths k' r) end
  end.
Lemma bpaths_data {A} (t : bin A) : forall k, Forall2 (fun p d => at_path t p = Some d) (bpaths k t) (bin_level k t).
Proof.
  induction t as [|l IHl d r IHr]; intros k; [constructor|]. destruct k as [|k]; cbn; [by repeat constructor|].
  apply Forall2_app; by apply Forall2_fmap_l.
Qed.
Lemma bpaths_length {A} (t : bin A) : forall k p, p ∈ bpaths k t -> length p = k.
Proof.
  induction t as [|l IHl d r IHr]; intros k p Hp; [by apply elem_of_nil in Hp|]. destruct k as [|k]; cbn in Hp.
  - apply elem_of_list_singleton in Hp as ->. done.
  - apply elem_of_app in Hp as [(q & -> & Hq)%elem_of_map|(q & -> & Hq)%elem_of_map]; cbn; f_equal; eauto.
Qed.
Lemma bpaths_sorted {A} (t : bin A) : forall k, StronglySorted (before Pre) (bpaths k t).
Proof.
  induction t as [|l IHl d r IHr]; intros k; [constructor|]. destruct k as [|k]; cbn; [by repeat constructor|].
  apply SS_app.
  - eapply SS_map; [|apply IHl]. intros x y H. exact H.
  - eapply SS_map; [|apply IHr]. intros x y H. exact H.
  - intros x y (x' & -> & _)%elem_of_map (y' & -> & _)%elem_of_map. done.
Qed.
Lemma bpaths_complete {A} (t : bin A) : forall p, at_path t p <> None -> p ∈ bpaths (length p) t.
Proof.
  induction t as [|l IHl d r IHr]; intros p Hp; [by destruct p|]. destruct p as [|b p]; cbn in Hp; [by left|].
  cbn. apply elem_of_app. destruct b; [right|left]; apply elem_of_map; eauto.
Qed.
Lemma bfs_order {A} (t : bin A) : lists_in_order before_bfs t (concat (blevels t)).
Proof.
  exists (concat (map (fun k => bpaths k t) (seq 0 (nlevels t)))). split; [|split].
  - unfold blevels. generalize (seq 0 (nlevels t)). intros ks. induction ks as [|k ks IH]; cbn; [constructor|].
    apply Forall2_app; [apply bpaths_data|done].
  - generalize 0 (nlevels t). intros a n. revert a. induction n as [|n IH]; intros a; cbn; [constructor|]. apply SS_app.
    + assert (H : forall x, x ∈ bpaths a t -> length x = a) by (intros; by eapply bpaths_length).
      pose proof (bpaths_sorted t a) as Hs. induction Hs as [|x l H1 IH1 H2]; constructor.
      * apply IH1. intros y Hy. apply H. by right.
      * rewrite Forall_forall in H2 |- *. intros y Hy. right. split; [|by apply H2].
        rewrite !H; [done|by right|by left].
    + apply IH.
    + intros x y Hx Hy. left. rewrite elem_of_list_In, in_concat in Hy. destruct Hy as (l & H1 & H2).
      apply in_map_iff in H1 as (k & <- & H1). apply in_seq in H1. apply elem_of_list_In, bpaths_length in H2.
      apply bpaths_length in Hx. lia.
  - intros p Hp. apply bpaths_complete in Hp as Hb. rewrite elem_of_list_In, in_concat. exists (bpaths (length p) t).
    split; [|by apply elem_of_list_In]. apply in_map_iff. exists (length p). split; [done|]. apply in_seq.
    destruct (decide (nlevels t <= length p)) as [H|H]; [|lia]. apply bin_level_empty in H.
    pose proof (bpaths_data t (length p)) as Hd. rewrite H in Hd. inversion Hd as [E|]. rewrite <- E in Hb. by apply elem_of_nil in Hb.
Qed.
Lemma before_irrefl o p : ~ before o p p.
Proof. induction p as [|b p IH]; cbn; [tauto|]. by rewrite bool_decide_eq_true_2. Qed.
(** Listings in a strict order are unique. *)
Lemma lists_unique {A} (R : list bool -> list bool -> Prop) (t : bin A) l1 l2 :
  (forall p, ~ R p p) -> (forall p q, R p q -> ~ R q p) ->
  lists_in_order R t l1 -> lists_in_order R t l2 -> l1 = l2.
Proof.
  intros Hirr Hasym (ps & H1 & S1 & C1) (qs & H2 & S2 & C2).
  assert (Hin : forall ps l, Forall2 (fun p d => at_path t p = Some d) ps l -> forall p, p ∈ ps -> at_path t p <> None).
  { clear. induction 1 as [|p d ps l Hp _ IH]; intros q Hq; [by apply elem_of_nil in Hq|].
    apply elem_of_cons in Hq as [-> | Hq]; [congruence|by apply IH]. }
  assert (ps = qs) as ->.
  { assert (Hsame : forall p, p ∈ ps <-> p ∈ qs) by (intros p; split; intros Hp; [apply C2; exact (Hin _ _ H1 _ Hp)|apply C1; exact (Hin _ _ H2 _ Hp)]).
    clear -Hirr Hasym S1 S2 Hsame. revert qs S2 Hsame. induction S1 as [|p ps S1 IH Hp]; intros qs S2 Hsame.
    - destruct qs as [|q qs]; [done|]. exfalso. eapply (not_elem_of_nil q), Hsame. by left.
    - destruct S2 as [|q qs S2 Hq]; [exfalso; eapply (not_elem_of_nil p), Hsame; by left|].
      rewrite Forall_forall in Hp, Hq.
      assert (p = q) as ->.
      { assert (p ∈ q :: qs) as Hpq by (apply Hsame; by left). assert (q ∈ p :: ps) as Hqp by (apply Hsame; by left).
        apply elem_of_cons in Hpq as [-> | Hpq]; [done|]. apply elem_of_cons in Hqp as [-> | Hqp]; [done|].
        exfalso. eapply Hasym; [apply Hp|apply Hq]; done. }
      f_equal. apply IH; [done|]. intros x. specialize (Hsame x). rewrite !elem_of_cons in Hsame. split; intros Hx.
      + destruct Hsame as [H _]. destruct (H (or_intror Hx)) as [-> |]; [|done]. exfalso. by eapply Hirr, Hp.
      + destruct Hsame as [_ H]. destruct (H (or_intror Hx)) as [-> |]; [|done]. exfalso. by eapply Hirr, Hq. }
  clear -H1 H2. revert l2 H2. induction H1 as [|p d ps l Hp H1 IH]; intros l2 H2; inversion H2; subst; [done|].
  f_equal; [congruence|by apply IH].
Qed.
Lemma traversals_perm {A} (t : bin A) :
  inorder_traverse t ≡ₚ preorder_traverse t /\ postorder_traverse t ≡ₚ preorder_traverse t /\ concat (blevels t) ≡ₚ preorder_traverse t.
Proof.
  split; [|split].
  - induction t as [|l IHl d r IHr]; [done|]. cbn. rewrite IHl, IHr. symmetry. apply Permutation_middle.
  - induction t as [|l IHl d r IHr]; [done|]. cbn. rewrite IHl, IHr, app_assoc. symmetry. apply Permutation_cons_append.
  - assert (H : forall n (t : bin A), nlevels t <= n -> concat (map (fun k => bin_level k t) (seq 0 n)) ≡ₚ preorder_traverse t).
    { clear t. intros n t. revert n. induction t as [|l IHl d r IHr]; intros n Hn; cbn -[Nat.max] in *.
      - clear. induction (seq 0 n) as [|? ? IH]; [done|exact IH].
      - destruct n as [|n]; [lia|]. cbn [seq map concat app]. constructor. rewrite <- seq_shift, map_map.
        rewrite <- (IHl n), <- (IHr n) by lia. clear. induction (seq 0 n) as [|k ks IH]; [done|]. cbn. rewrite IH.
        rewrite <- !app_assoc. apply Permutation_app_head. rewrite !app_assoc. apply Permutation_app_tail, Permutation_app_comm. }
    apply H. lia.
Qed.
Lemma preorder_nodes {A} (t : bin A) : length (preorder_traverse t) = length (bin_nodes t).
Proof. induction t as [|l IHl d r IHr]; cbn; [done|]. rewrite !app_length. lia. Qed.
(** Preorder and inorder together determine the tree. *)
Lemma inorder_length {A} (t : bin A) : length (inorder_traverse t) = length (preorder_traverse t).
Proof. by rewrite (proj1 (traversals_perm t)). Qed.
Lemma NoDup_split {A} (a1 b1 a2 b2 : list A) d : NoDup (a1 ++ d :: b1) -> a1 ++ d :: b1 = a2 ++ d :: b2 -> a1 = a2 /\ b1 = b2.
Proof.
  revert a2. induction a1 as [|x a1 IH]; intros [|y a2] Hn He; cbn in *; simplify_eq; [done|..].
  - exfalso. apply NoDup_cons in Hn as [Hn _]. apply Hn. apply elem_of_app. right. by left.
  - exfalso. apply NoDup_cons in Hn as [Hn _]. apply Hn. apply elem_of_app. right. by left.
  - apply NoDup_cons in Hn as [_ Hn]. destruct (IH a2 Hn) as [-> ->]; done.
Qed.
Lemma pre_in_determine {A} (t1 : bin A) : forall t2, NoDup (inorder_traverse t1) ->
  preorder_traverse t1 = preorder_traverse t2 -> inorder_traverse t1 = inorder_traverse t2 -> t1 = t2.
Proof.
  induction t1 as [|l1 IHl d1 r1 IHr]; intros [|l2 d2 r2] Hn Hp Hi; cbn in *; try done.
  injection Hp as <- Hp. destruct (NoDup_split _ _ _ _ _ Hn Hi) as [Hl Hr].
  apply NoDup_app in Hn as (Hn1 & _ & Hn2). apply NoDup_cons in Hn2 as [_ Hn2].
  apply app_inj_1 in Hp as [Hpl Hpr]; [|rewrite <- !inorder_length; by rewrite Hl].
  rewrite (IHl l2), (IHr r2); done.
Qed.

(** ** Shape predicates *)
Lemma level_bound {A} (t : bin A) : forall k, length (bin_level k t) <= 2 ^ k.
Proof.
  induction t as [|l IHl d r IHr]; intros k; cbn; [lia|]. destruct k as [|k]; cbn; [lia|].
  rewrite app_length. specialize (IHl k). specialize (IHr k). cbn. lia.
Qed.
Lemma filled_levels {A} n : forall (t : bin A), filled n t -> nlevels t = n /\ forall k, k < n -> length (bin_level k t) = 2 ^ k.
Proof.
  induction n as [|n IH]; intros [|l d r] Hf; try done; [split; [done|lia]|]; cbn -[Nat.max] in *.
  destruct Hf as [Hl Hr]. apply IH in Hl as [Hl1 Hl2]. apply IH in Hr as [Hr1 Hr2]. split; [lia|].
  intros [|k] Hk; [done|]. rewrite app_length, Hl2, Hr2 by lia. cbn. lia.
Qed.
Lemma levels_filled {A} n : forall (t : bin A), nlevels t = n -> (forall k, k < n -> length (bin_level k t) = 2 ^ k) -> filled n t.
Proof.
  induction n as [|n IH]; intros [|l d r] Hn Hf; try done. cbn -[Nat.max] in Hn.
  assert (H : forall k, k < n -> length (bin_level k l) = 2 ^ k /\ length (bin_level k r) = 2 ^ k).
  { intros k Hk. specialize (Hf (S k) ltac:(lia)). cbn [bin_level] in Hf. rewrite app_length in Hf. cbn in Hf.
    pose proof (level_bound l k). pose proof (level_bound r k). lia. }
  assert (Hp : forall k, 1 <= 2 ^ k) by (intros k; pose proof (Nat.pow_nonzero 2 k); lia).
  assert (Hh : nlevels l = n /\ nlevels r = n).
  { destruct n as [|n]; [lia|]. destruct (H n ltac:(lia)) as [H1 H2]. specialize (Hp n).
    destruct (decide (nlevels l <= n)) as [E|]; [apply bin_level_empty in E; rewrite E in H1; cbn in H1; lia|].
    destruct (decide (nlevels r <= n)) as [E|]; [apply bin_level_empty in E; rewrite E in H2; cbn in H2; lia|]. lia. }
  split; (apply IH; [tauto|intros; by apply H]).
Qed.
Lemma perfect_levels_spec {A} (ls : list (list A)) : forall a, perfect_levels a ls = true <-> forall k l, ls !! k = Some l -> length l = 2 ^ (a + k).
Proof.
  induction ls as [|l ls IH]; intros a; cbn [perfect_levels]; [split; [intros _ k l; by rewrite lookup_nil|done]|].
  destruct (Nat.eqb_spec (2 ^ a) (length l)) as [E|E].
  - rewrite IH. split.
    + intros H [|k] l' Hl; cbn in Hl; simplify_eq; [by rewrite Nat.add_0_r|]. rewrite (H k l' Hl). f_equal. lia.
    + intros H k l' Hl. rewrite (H (S k) l' Hl). f_equal. lia.
  - split; [done|]. intros H. specialize (H 0 l eq_refl). rewrite Nat.add_0_r in H. congruence.
Qed.
Lemma is_perfect_spec {A} (t : bin A) : t <> Nil -> exists b, bin_is_perfect t = Some (false, b) /\ (b = true <-> exists n, filled n t).
Proof.
  intros Hn. unfold bin_is_perfect. rewrite bin_levels_spec. exists (perfect_levels 0 (blevels t)).
  split; [by destruct t|]. rewrite perfect_levels_spec. unfold blevels. split.
  - intros H. exists (nlevels t). apply levels_filled; [done|]. intros k Hk. eapply (H k).
    rewrite list_lookup_fmap, lookup_seq_lt by done. done.
  - intros [n Hf] k l Hl. apply filled_levels in Hf as [Hf1 Hf2]. rewrite list_lookup_fmap in Hl.
    destruct (seq 0 (nlevels t) !! k) as [j|] eqn:E; [|done]. apply lookup_seq in E as [-> Hk]. cbn in Hl. simplify_eq.
    apply Hf2. lia.
Qed.
Lemma is_strict_spec {A} (t : bin A) : t <> Nil -> bin_is_strict t = (false, subtree_strict t) /\
  (subtree_strict t = true <-> Forall zero_or_two (bin_nodes t)).
Proof.
  intros Hn. split; [by destruct t|]. clear Hn. induction t as [|l IHl d r IHr]; [by split; [constructor|]|].
  cbn [bin_nodes]. rewrite Forall_cons, Forall_app, <- IHl, <- IHr.
  destruct l as [|ll ld lr], r as [|rl rd rr]; cbn [zero_or_two].
  - by cbn.
  - cbn. naive_solver.
  - cbn. naive_solver.
  - change (subtree_strict (Bin (Bin ll ld lr) d (Bin rl rd rr))) with (subtree_strict (Bin ll ld lr) && subtree_strict (Bin rl rd rr)).
    rewrite andb_true_iff. tauto.
Qed.
Lemma bin_node_height_spec {A} (t : bin A) : bin_node_height t = pred (nlevels t).
Proof.
  unfold bin_node_height. destruct (view t) as [n|] eqn:E; [|by apply view_nil in E as ->].
  apply view_Some in E as (E & _). lia.
Qed.
Lemma is_balanced_spec {A} (l r : bin A) d : exists b, bin_is_balanced (Bin l d r) = (false, b) /\
  (b = true <-> (l = Nil /\ r = Nil) \/ (l <> Nil /\ r <> Nil /\ nlevels l <= nlevels r + 1 /\ nlevels r <= nlevels l + 1)).
Proof.
  eexists. split; [done|]. rewrite Z.leb_le, !bin_node_height_spec. destruct l as [|ll ld lr], r as [|rl rd rr].
  - cbn. split; [by left|lia].
  - cbn -[Nat.max Z.of_nat]. split; [lia|]. naive_solver.
  - cbn -[Nat.max Z.of_nat]. split; [lia|]. naive_solver.
  - cbn -[Nat.max Z.of_nat nlevels]. cbn [nlevels pred]. split.
    + intros H. right. split; [done|]. split; [done|]. lia.
    + intros [[? _]|(_ & _ & H)]; [done|]. lia.
Qed.
Lemma leaf_deepest {A} (t : bin A) : t <> Nil -> leaf_at t (pred (nlevels t)).
Proof.
  induction t as [|l IHl d r IHr]; [done|]. intros _. cbn -[Nat.max].
  destruct l as [|ll ld lr], r as [|rl rd rr].
  - constructor.
  - cbn [nlevels] in *. replace (Nat.max 0 _) with (S (pred (nlevels (Bin rl rd rr)))) by (cbn; lia). apply la_right. by apply IHr.
  - cbn [nlevels] in *. replace (Nat.max _ 0) with (S (pred (nlevels (Bin ll ld lr)))) by (cbn; lia). apply la_left. by apply IHl.
  - set (l := Bin ll ld lr) in *. set (r := Bin rl rd rr) in *.
    assert (0 < nlevels l) by (cbn; lia). assert (0 < nlevels r) by (cbn; lia).
    destruct (decide (nlevels l <= nlevels r)).
    + replace (Nat.max (nlevels l) (nlevels r)) with (S (pred (nlevels r))) by lia. apply la_right. by apply IHr.
    + replace (Nat.max (nlevels l) (nlevels r)) with (S (pred (nlevels l))) by lia. apply la_left. by apply IHl.
Qed.
Lemma balanced_doc_heights {A} (l r : bin A) d : l <> Nil -> r <> Nil -> balanced_doc (Bin l d r) ->
  nlevels l <= nlevels r + 1 /\ nlevels r <= nlevels l + 1.
Proof.
  intros Hl Hr H. pose proof (la_left l d r _ (leaf_deepest l Hl)) as H1. pose proof (la_right l d r _ (leaf_deepest r Hr)) as H2.
  pose proof (H _ _ H1 H2). pose proof (H _ _ H2 H1). destruct l; [done|]. destruct r; [done|]. cbn [nlevels pred] in *. lia.
Qed.

(** ** Side views *)
(** The dict, seen as the list of its values, when the keys are 0, 1, 2, ... *)
Definition dense {A} (vs : list A) : list (nat * A) := zip (seq 0 (length vs)) vs.
Definition vset {A} (k : nat) (x : A) (vs : list A) : list A := if Nat.ltb k (length vs) then <[k := x]> vs else vs ++ [x].
Lemma dict_set_from {A} (vs : list A) x : forall a k, a <= k -> k <= a + length vs ->
  dict_set k x (zip (seq a (length vs)) vs) = zip (seq a (length (vset (k - a) x vs))) (vset (k - a) x vs).
Proof.
  induction vs as [|v vs IH]; intros a k Ha Hk; cbn [length] in *.
  - replace k with a by lia. rewrite Nat.sub_diag. done.
  - cbn [seq zip zip_with dict_set]. destruct (Nat.eqb_spec a k) as [->|Hne].
    + rewrite Nat.sub_diag. done.
    + change (zip_with pair (seq (S a) (length vs)) vs) with (zip (seq (S a) (length vs)) vs). rewrite IH by lia.
      replace (k - a) with (S (k - S a)) by lia. unfold vset. cbn [length].
      replace (Nat.ltb (S (k - S a)) (S (length vs))) with (Nat.ltb (k - S a) (length vs)) by done.
      destruct (Nat.ltb (k - S a) (length vs)); done.
Qed.
Lemma dict_set_dense {A} (vs : list A) k x : k <= length vs -> dict_set k x (dense vs) = dense (vset k x vs).
Proof. intros H. unfold dense. rewrite dict_set_from by lia. by rewrite Nat.sub_0_r. Qed.
Lemma dense_values {A} (vs : list A) : map snd (dense vs) = vs.
Proof. unfold dense. change (map snd) with (fmap (M:=list) (@snd nat A)). apply snd_zip. rewrite seq_length. lia. Qed.
Lemma vset_lookup {A} (vs : list A) k x j : k <= length vs -> vset k x vs !! j = if Nat.eqb j k then Some x else vs !! j.
Proof.
  intros Hk. unfold vset. destruct (Nat.ltb_spec k (length vs)) as [H|H], (Nat.eqb_spec j k) as [->|Hne].
  - by rewrite list_lookup_insert.
  - by rewrite list_lookup_insert_ne.
  - replace k with (length vs) by lia. by rewrite lookup_app_r, Nat.sub_diag by lia.
  - destruct (decide (j < length vs)); [by rewrite lookup_app_l|]. rewrite lookup_app_r by lia.
    rewrite (lookup_ge_None_2 vs) by lia. destruct (j - length vs) as [|?] eqn:E; [lia|done].
Qed.
Lemma vset_length {A} (vs : list A) k x : k <= length vs -> length (vset k x vs) = Nat.max (length vs) (S k).
Proof. intros Hk. unfold vset. destruct (Nat.ltb_spec k (length vs)); rewrite ?insert_length, ?app_length; cbn; lia. Qed.
(** The effect of a whole subtree at depth [k] on the values. *)
Fixpoint over {A} (t : bin A) (k : nat) (vs : list A) : list A :=
  match t with Nil => vs | Bin l d r => over l (S k) (over r (S k) (vset k d vs)) end.
Lemma over_spec {A} (t : bin A) : forall k vs, k <= length vs ->
  length (over t k vs) = Nat.max (length vs) (k + nlevels t) /\
  forall j, over t k vs !! j = if Nat.leb k j then match head (bin_level (j - k) t) with Some x => Some x | None => vs !! j end else vs !! j.
Proof.
  induction t as [|l IHl d r IHr]; intros k vs Hk; cbn [over].
  { split; [cbn; lia|]. intros j. by destruct (Nat.leb k j). }
  pose proof (vset_length vs k d Hk) as H1. pose proof (fun j => vset_lookup vs k d j Hk) as H2.
  destruct (IHr (S k) (vset k d vs)) as [H3 H4]; [lia|]. destruct (IHl (S k) (over r (S k) (vset k d vs))) as [H5 H6]; [lia|].
  split; [rewrite H5, H3, H1; cbn -[Nat.max]; lia|]. intros j. rewrite H6, H4, H2.
  destruct (Nat.leb_spec (S k) j), (Nat.leb_spec k j), (Nat.eqb_spec j k); try lia; subst; try done.
  - replace (j - k) with (S (j - S k)) by lia. cbn [bin_level]. destruct (bin_level (j - S k) l); done.
  - by rewrite Nat.sub_diag.
Qed.
(** Processing a whole stack. *)
Fixpoint over_stack {A} (st : list (bin A * nat)) (vs : list A) : list A :=
  match st with [] => vs | (t, k) :: st' => over_stack st' (over t k vs) end.
Fixpoint stack_ok {A} (st : list (bin A * nat)) (n : nat) : Prop :=
  match st with [] => True | (t, k) :: st' => t <> Nil /\ k <= n /\ stack_ok st' n end.
Lemma stack_ok_mono {A} (st : list (bin A * nat)) n m : n <= m -> stack_ok st n -> stack_ok st m.
Proof. intros Hnm. induction st as [|[t k] st IH]; cbn; [done|]. intros (? & ? & ?). split; [done|]. split; [lia|auto]. Qed.
Definition stack_size {A} (st : list (bin A * nat)) : nat := length (flat_map (fun p => bin_nodes (fst p)) st).
Lemma push_over {A} (t : bin A) k st vs : over_stack (push_node t k st) vs = over_stack st (over t k vs).
Proof. by destruct t. Qed.
Lemma push_ok {A} (t : bin A) k st n : k <= n -> stack_ok st n -> stack_ok (push_node t k st) n.
Proof. by destruct t. Qed.
Lemma push_size {A} (t : bin A) k st : stack_size (push_node t k st) = length (bin_nodes t) + stack_size st.
Proof. destruct t; [done|]. unfold stack_size. cbn -[bin_nodes]. by rewrite app_length. Qed.
Lemma left_loop_spec {A} fuel : forall (st : list (bin A * nat)) vs, stack_size st < fuel -> stack_ok st (length vs) ->
  side_loop true fuel st (dense vs) = Some (over_stack st vs).
Proof.
  induction fuel as [|fuel IH]; intros st vs Hf Hok; [lia|]. cbn [side_loop].
  destruct st as [|[t k] st]; [by rewrite dense_values|]. destruct Hok as (Ht & Hk & Hok).
  destruct t as [|l d r]; [done|]. rewrite dict_set_dense by done.
  pose proof (vset_length vs k d Hk) as Hl. replace (k + 1) with (S k) by lia.
  rewrite IH.
  - rewrite !push_over. done.
  - rewrite !push_size. unfold stack_size in Hf. cbn in Hf. rewrite !app_length in Hf. unfold stack_size. lia.
  - apply push_ok; [lia|]. apply push_ok; [lia|]. eapply stack_ok_mono; [|exact Hok]. lia.
Qed.
Lemma left_view_spec {A} (t : bin A) : exists vs, leftside_view t = Some vs /\ map Some vs = map head (blevels t).
Proof.
  destruct t as [|l d r]; [by exists []|]. set (t := Bin l d r).
  exists (over t 0 [d]). split.
  - unfold leftside_view, side_view, t. fold t. change [(0, d)] with (dense [d]).
    rewrite left_loop_spec; [done| |cbn; split; [done|lia]].
    unfold stack_size. cbn [flat_map fst]. rewrite app_nil_r, bin_len_spec. lia.
  - destruct (over_spec t 0 [d]) as [H1 H2]; [cbn; lia|].
    apply list_eq. intros j. unfold blevels. rewrite !list_lookup_fmap, H2. cbn [Nat.leb]. rewrite Nat.sub_0_r.
    destruct (decide (j < nlevels t)) as [Hj|Hj].
    + rewrite lookup_seq_lt by done. cbn [fmap option_fmap option_map Nat.add].
      destruct (bin_level j t) eqn:E; [apply bin_level_empty in E; lia|]. done.
    + rewrite (proj2 (bin_level_empty t j)) by lia. cbn [head].
      rewrite (lookup_ge_None_2 [d]), (lookup_ge_None_2 (seq 0 (nlevels t))); [done|rewrite seq_length; lia|].
      assert (0 < nlevels t) by (unfold t; cbn; lia). cbn. lia.
Qed.

(** ** Inversion *)
Lemma invert_invert {A} (t : bin A) : invert (invert t) = t.
Proof. induction t as [|l IHl d r IHr]; cbn; [done|]. by rewrite IHl, IHr. Qed.
Lemma invert_inorder {A} (t : bin A) : inorder_traverse (invert t) = rev (inorder_traverse t).
Proof. induction t as [|l IHl d r IHr]; cbn; [done|]. rewrite rev_app_distr. cbn. by rewrite IHl, IHr, <- app_assoc. Qed.
Lemma invert_preorder {A} (t : bin A) : preorder_traverse (invert t) = rev (postorder_traverse t).
Proof. induction t as [|l IHl d r IHr]; cbn; [done|]. rewrite app_assoc, rev_app_distr. cbn. by rewrite rev_app_distr, IHl, IHr. Qed.
Lemma invert_level {A} (t : bin A) : forall k, bin_level k (invert t) = rev (bin_level k t).
Proof.
  induction t as [|l IHl d r IHr]; intros k; cbn; [done|]. destruct k; [done|]. by rewrite rev_app_distr, IHl, IHr.
Qed.
Lemma invert_nlevels {A} (t : bin A) : nlevels (invert t) = nlevels t.
Proof. induction t as [|l IHl d r IHr]; cbn -[Nat.max]; [done|]. rewrite IHl, IHr. lia. Qed.
Lemma invert_blevels {A} (t : bin A) : blevels (invert t) = map (@rev A) (blevels t).
Proof. unfold blevels. rewrite invert_nlevels, map_map. apply map_ext. intros k. apply invert_level. Qed.
Lemma invert_nodes {A} (t : bin A) : length (bin_nodes (invert t)) = length (bin_nodes t).
Proof. induction t as [|l IHl d r IHr]; cbn; [done|]. rewrite !app_length. lia. Qed.
Lemma filter_cons_length {A} (f : A -> bool) x l : length (List.filter f (x :: l)) = (if f x then 1 else 0) + length (List.filter f l).
Proof. cbn. by destruct (f x). Qed.
Lemma invert_leaves {A} (t : bin A) : length (List.filter bin_leaf (bin_nodes (invert t))) = length (List.filter bin_leaf (bin_nodes t)).
Proof.
  induction t as [|l IHl d r IHr]; [done|]. cbn [invert bin_nodes].
  rewrite !filter_cons_length, !List.filter_app, !app_length, IHl, IHr.
  replace (bin_leaf (Bin (invert r) d (invert l))) with (bin_leaf (Bin l d r)) by (by destruct l, r). lia.
Qed.
Definition mirror_stack {A} (st : list (bin A * nat)) := map (fun p => (invert (fst p), snd p)) st.
Lemma push_mirror {A} (t : bin A) k st : mirror_stack (push_node t k st) = push_node (invert t) k (mirror_stack st).
Proof. by destruct t. Qed.
Lemma side_loop_mirror {A} fuel : forall b (st : list (bin A * nat)) ls,
  side_loop (negb b) fuel (mirror_stack st) ls = side_loop b fuel st ls.
Proof.
  induction fuel as [|fuel IH]; intros b st ls; [done|]. destruct st as [|[[|l d r] k] st]; try done.
  cbn [mirror_stack map fst snd invert side_loop]. destruct b; cbn [negb];
    [rewrite <- (IH true)|rewrite <- (IH false)]; rewrite !push_mirror; done.
Qed.
Lemma side_view_mirror {A} b (t : bin A) : side_view (negb b) (invert t) = side_view b t.
Proof.
  destruct t as [|l d r]; [done|]. unfold side_view. cbn [invert].
  change (Bin (invert r) d (invert l)) with (invert (Bin l d r)). rewrite !bin_len_spec, invert_nodes.
  rewrite <- (side_loop_mirror _ b). done.
Qed.
Lemma head_rev {A} (l : list A) : head (rev l) = last l.
Proof.
  induction l as [|x l IH]; [done|]. destruct l as [|y l]; [done|]. change (last (x :: y :: l)) with (last (y :: l)).
  rewrite <- IH. cbn [rev]. destruct (rev l ++ [y]) eqn:E; [by destruct (rev l)|]. done.
Qed.
Lemma right_view_spec {A} (t : bin A) : exists vs, rightside_view t = Some vs /\ map Some vs = map last (blevels t).
Proof.
  destruct (left_view_spec (invert t)) as (vs & H1 & H2). exists vs. split.
  - unfold rightside_view. rewrite <- (side_view_mirror false). exact H1.
  - rewrite H2, invert_blevels, map_map. apply map_ext. intros l. apply head_rev.
Qed.

(** ** parse *)
Lemma lit_ind' (P : lit -> Prop) : (forall v, P (PAtom v)) -> (forall l, Forall P l -> P (PSeq l)) -> forall x, P x.
Proof.
  intros Ha Hs. fix IH 1. intros [v|l]; [apply Ha|]. apply Hs. induction l as [|x l IHl]; constructor; [apply IH|exact IHl].
Qed.
Lemma node_data_spec v d : node_data v = inr d <-> datum v d.
Proof.
  split.
  - destruct v as [a|l]; cbn; [destruct (validate_item a) eqn:E; [done|]|]; intros [= <-]; by constructor.
  - intros H. inversion H as [a Ha|]; subst; cbn; [by rewrite Ha|done].
Qed.
Lemma create_subtree_spec x : forall t, create_subtree x = inr t <-> describes x t.
Proof.
  induction x as [a|l IH] using lit_ind'; intros t.
  { cbn. split.
    - destruct (validate_item a) eqn:E; [done|]. intros [= <-]. by constructor.
    - intros H. inversion H as [? Ha| | |]; subst. by rewrite Ha. }
  destruct l as [|v [|a [|b [|c l]]]].
  - split; [done|]. intros H. inversion H.
  - cbn. split.
    + destruct (node_data v) as [e|d] eqn:E; [done|]. intros [= <-]. constructor. by apply node_data_spec.
    + intros H. inversion H as [|? ? Hd| |]; subst. apply node_data_spec in Hd as ->. done.
  - rewrite !Forall_cons in IH. destruct IH as (_ & IHa & _). cbn. split.
    + destruct (node_data v) as [e|d] eqn:E; [done|]. destruct (create_subtree a) as [e|ta] eqn:Ea; [done|].
      intros [= <-]. constructor; [by apply node_data_spec|by apply IHa].
    + intros H. inversion H as [| |? ? ? ? Hd Hl|]; subst. apply node_data_spec in Hd as ->. apply IHa in Hl as ->. done.
  - rewrite !Forall_cons in IH. destruct IH as (_ & IHa & IHb & _). cbn. split.
    + destruct (node_data v) as [e|d] eqn:E; [done|]. destruct (create_subtree a) as [e|ta] eqn:Ea; [done|].
      destruct (create_subtree b) as [e|tb] eqn:Eb; [done|].
      intros [= <-]. constructor; [by apply node_data_spec|by apply IHa|by apply IHb].
    + intros H. inversion H as [| | |? ? ? ? ? ? Hd Hl Hr]; subst. apply node_data_spec in Hd as ->.
      apply IHa in Hl as ->. apply IHb in Hr as ->. done.
  - split; [done|]. intros H. inversion H.
Qed.
Lemma node_data_err v e : node_data v = inl e -> e = TypeError \/ e = ValueError.
Proof. destruct v as [a|l]; cbn; [|done]. destruct a; cbn; intros [= <-]; auto. Qed.
Lemma create_subtree_err x : forall e, create_subtree x = inl e -> e = TypeError \/ e = ValueError.
Proof.
  induction x as [a|l IH] using lit_ind'; intros e.
  { cbn [create_subtree]. destruct (node_data (PAtom a)) eqn:E; [|done]. intros [= <-]. by eapply node_data_err. }
  destruct l as [|v [|a [|b [|c l]]]]; rewrite ?Forall_cons in IH; cbn [create_subtree].
  - intros [= <-]; auto.
  - destruct (node_data v) eqn:E; [|done]. intros [= <-]. by eapply node_data_err.
  - destruct IH as (_ & IHa & _). destruct (node_data v) eqn:E; [intros [= <-]; by eapply node_data_err|].
    destruct (create_subtree a) eqn:Ea; [|done]. intros [= <-]. eauto.
  - destruct IH as (_ & IHa & IHb & _). destruct (node_data v) eqn:E; [intros [= <-]; by eapply node_data_err|].
    destruct (create_subtree a) eqn:Ea; [intros [= <-]; eauto|]. destruct (create_subtree b) eqn:Eb; [|done]. intros [= <-]. eauto.
  - intros [= <-]; auto.
Qed.
Lemma before_asym o p : forall q, before o p q -> ~ before o q p.
Proof.
  induction p as [|a p IH]; intros [|b q]; cbn; try tauto.
  - destruct o; naive_solver.
  - destruct o; naive_solver.
  - destruct (bool_decide (a = b)) eqn:E.
    + apply bool_decide_eq_true in E as ->. rewrite bool_decide_eq_true_2 by done. apply IH.
    + apply bool_decide_eq_false in E. rewrite bool_decide_eq_false_2 by congruence. destruct a, b; congruence.
Qed.
Lemma before_bfs_irrefl p : ~ before_bfs p p.
Proof. intros [H|[_ H]]; [lia|by apply before_irrefl in H]. Qed.
Lemma before_bfs_asym p q : before_bfs p q -> ~ before_bfs q p.
Proof. intros [H|[H1 H2]] [H'|[H1' H2']]; [lia..|]. by eapply before_asym. Qed.

Lemma unparse_describes (t : bin lit) : t <> Nil ->
  Forall (fun n => ~ right_only n) (bin_nodes t) -> Forall (fun d => datum d d) (preorder_traverse t) ->
  describes (unparse t) t.
Proof.
  induction t as [|l IHl d r IHr]; [done|]. intros _. cbn [bin_nodes preorder_traverse app].
  rewrite !Forall_cons, !Forall_app. intros (Hr & Hl1 & Hr1) (Hd & Hl2 & Hr2).
  destruct l as [|ll ld lr], r as [|rl rd rr].
  - by constructor.
  - by destruct Hr.
  - change (unparse (Bin (Bin ll ld lr) d Nil)) with (PSeq [d; unparse (Bin ll ld lr)]). constructor; [done|]. by apply IHl.
  - change (unparse (Bin (Bin ll ld lr) d (Bin rl rd rr))) with (PSeq [d; unparse (Bin ll ld lr); unparse (Bin rl rd rr)]).
    constructor; [done|by apply IHl|by apply IHr].
Qed.
Lemma unparse_seq t : exists l, unparse t = PSeq l.
Proof. destruct t as [|[|???] ? [|???]]; cbn; eauto. Qed.
Lemma parse_unparse (t : bin lit) : t <> Nil ->
  Forall (fun n => ~ right_only n) (bin_nodes t) -> Forall (fun d => datum d d) (preorder_traverse t) ->
  parse (unparse t) = inr t.
Proof.
  intros H1 H2 H3. pose proof (unparse_describes t H1 H2 H3) as H. apply create_subtree_spec in H.
  destruct (unparse_seq t) as [l E]. rewrite E in *. exact H.
Qed.
