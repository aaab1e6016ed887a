(** * Proofs about general trees. *)
From Verif Require Import Base TreeModel TreeSpec.

Lemma tree_ind' {A} (P : tree A -> Prop) :
  (forall d cs, Forall P cs -> P (TNode d cs)) -> forall t, P t.
Proof.
  intros H. fix IH 1. intros [d cs]. apply H. induction cs as [|c cs IHcs]; constructor; [apply IH|exact IHcs].
Qed.

(** ** Counting *)
Fixpoint sum (l : list nat) : nat := match l with [] => 0 | x :: l' => x + sum l' end.
Lemma fold_left_sum {A} (f : A -> nat) cs : forall a, fold_left (fun n c => n + f c) cs a = a + sum (map f cs).
Proof. induction cs as [|c cs IH]; intros a; cbn; [lia|]. rewrite IH. lia. Qed.
Lemma flat_map_length {A B} (f : A -> list B) l : length (flat_map f l) = sum (map (fun x => length (f x)) l).
Proof. induction l as [|x l IH]; cbn; [done|]. rewrite app_length. lia. Qed.
Lemma sum_map_ext {A} (f g : A -> nat) l : Forall (fun x => f x = g x) l -> sum (map f l) = sum (map g l).
Proof. induction 1; cbn; lia. Qed.
Lemma filter_flat_map {A B} (P : B -> Prop) `{!forall x, Decision (P x)} (f : A -> list B) l :
  filter P (flat_map f l) = flat_map (fun x => filter P (f x)) l.
Proof. induction l as [|x l IH]; cbn; [done|]. by rewrite filter_app, IH. Qed.

Lemma count_nodes_subtrees {A} (t : tree A) : count_nodes t = length (subtrees t).
Proof.
  induction t as [d cs IH] using tree_ind'. cbn. rewrite fold_left_sum, flat_map_length. cbn. f_equal.
  by apply sum_map_ext.
Qed.
Lemma count_leaves_subtrees {A} (t : tree A) : count_leaves t = length (filter childless (subtrees t)).
Proof.
  induction t as [d cs IH] using tree_ind'. cbn [count_leaves subtrees]. destruct cs as [|c cs].
  - cbn. by rewrite decide_True.
  - rewrite filter_cons_False by done. rewrite fold_left_sum, filter_flat_map, flat_map_length. cbn [Nat.add].
    by apply sum_map_ext.
Qed.

(** ** Height and levels *)
Fixpoint lmax (l : list nat) : nat := match l with [] => 0 | x :: l' => Nat.max x (lmax l') end.
Lemma fold_left_max {A} (f : A -> nat) cs : forall a, fold_left (fun h c => Nat.max h (1 + f c)) cs a = Nat.max a (lmax (map (fun c => 1 + f c) cs)).
Proof. induction cs as [|c cs IH]; intros a; cbn -[Nat.max]; [lia|]. rewrite IH. cbn -[Nat.max]. lia. Qed.
Lemma height_node {A} (d : A) cs : node_height (TNode d cs) = lmax (map (fun c => S (node_height c)) cs).
Proof. cbn [node_height]. rewrite fold_left_max. done. Qed.
Lemma height_child {A} (d : A) cs c : c ∈ cs -> node_height c < node_height (TNode d cs).
Proof.
  intros Hc. rewrite height_node. induction cs as [|x cs IH]; [by apply elem_of_nil in Hc|].
  cbn -[Nat.max]. apply elem_of_cons in Hc as [-> | Hc]; [lia|]. specialize (IH Hc). lia.
Qed.
Lemma height_some_child {A} (d : A) cs h : node_height (TNode d cs) = S h -> exists c, c ∈ cs /\ node_height c = h.
Proof.
  rewrite height_node. revert h. induction cs as [|x cs IH]; intros h; [done|]. cbn -[Nat.max]. intros H.
  destruct (decide (S (node_height x) = S h)) as [E|E].
  - exists x. split; [by left|congruence].
  - destruct (IH h) as (c & Hc & Hh); [lia|]. exists c. split; [by right|done].
Qed.
Lemma flat_map_nil {A B} (f : A -> list B) l : flat_map f l = [] <-> forall x, x ∈ l -> f x = [].
Proof.
  induction l as [|x l IH]; cbn; [split; [intros _ x Hx; by apply elem_of_nil in Hx|done]|]. split.
  - intros [H1 H2]%app_nil y [-> | Hy]%elem_of_cons; [done|by apply IH].
  - intros H. rewrite (H x) by (by left). cbn. apply IH. intros y Hy. apply H. by right.
Qed.
Lemma level_empty {A} (t : tree A) : forall k, level k t = [] <-> node_height t < k.
Proof.
  induction t as [d cs IH] using tree_ind'. rewrite Forall_forall in IH. intros [|k]; cbn [level]; [split; [done|lia]|].
  cbn [get_children]. rewrite flat_map_nil. split.
  - intros H. destruct (node_height (TNode d cs)) as [|h] eqn:E; [lia|].
    destruct (height_some_child d cs h E) as (c & Hc & <-). pose proof (proj1 (IH c Hc k) (H c Hc)). lia.
  - intros H x Hx. apply IH; [done|]. pose proof (height_child d cs x Hx). lia.
Qed.

Definition levels_upto {A} (n : nat) (cur : list (tree A)) : list (list A) := map (fun k => flat_map (level k) cur) (seq 0 n).
Lemma flat_map_flat_map {A B C} (f : B -> list C) (g : A -> list B) l :
  flat_map f (flat_map g l) = flat_map (fun x => flat_map f (g x)) l.
Proof. induction l as [|x l IH]; cbn; [done|]. by rewrite flat_map_app, IH. Qed.
Lemma level0 {A} (cur : list (tree A)) : flat_map (level 0) cur = map get_data cur.
Proof. induction cur as [|x cur IH]; cbn; [done|]. f_equal; exact IH. Qed.
Lemma levels_upto_S {A} n (cur : list (tree A)) :
  levels_upto (S n) cur = map get_data cur :: levels_upto n (flat_map get_children cur).
Proof.
  unfold levels_upto. cbn [seq map]. rewrite level0. f_equal. rewrite <- seq_shift, map_map.
  apply map_ext. intros k. by rewrite flat_map_flat_map.
Qed.
Lemma levels_nil {A} n : concat (levels_upto n (@nil (tree A))) = [].
Proof. induction n as [|n IH]; [done|]. rewrite levels_upto_S. cbn. exact IH. Qed.

Lemma iter_loop_spec {A} fuel : forall n (cur : list (tree A)),
  n < fuel -> (forall k, n <= k -> flat_map (level k) cur = []) ->
  iter_loop fuel cur = Some (concat (levels_upto n cur)).
Proof.
  induction fuel as [|fuel IH]; intros n cur Hn He; [lia|]. cbn [iter_loop].
  destruct cur as [|c cur]; [by rewrite levels_nil|]. set (cs := c :: cur) in *.
  destruct n as [|n].
  { specialize (He 0 ltac:(lia)). rewrite level0 in He. done. }
  rewrite (IH n), levels_upto_S; [done|lia|]. intros k Hk. rewrite flat_map_flat_map. apply (He (S k)). lia.
Qed.
Lemma height_lt_count {A} (t : tree A) : node_height t < count_nodes t.
Proof.
  induction t as [d cs IH] using tree_ind'. rewrite Forall_forall in IH. rewrite count_nodes_subtrees.
  destruct (node_height (TNode d cs)) as [|h] eqn:E; [cbn; lia|].
  destruct (height_some_child d cs h E) as (c & Hc & <-). specialize (IH c Hc). rewrite count_nodes_subtrees in IH.
  cbn [subtrees length]. rewrite flat_map_length.
  assert (length (subtrees c) <= sum (map (fun x => length (subtrees x)) cs)); [|lia].
  clear -Hc. induction cs as [|x cs IH]; [by apply elem_of_nil in Hc|]. cbn.
  apply elem_of_cons in Hc as [-> | Hc]; [lia|]. specialize (IH Hc). lia.
Qed.
Definition levels {A} (t : tree A) : list (list A) := map (fun k => level k t) (seq 0 (S (node_height t))).
Lemma to_list_spec {A} (t : tree A) : tree_to_list (Some t) = Some (concat (levels t)).
Proof.
  cbn [tree_to_list]. rewrite (iter_loop_spec _ (S (node_height t))).
  - do 2 f_equal. unfold levels_upto, levels. apply map_ext. intros k. cbn. apply app_nil_r.
  - pose proof (height_lt_count t). lia.
  - intros k Hk. cbn. rewrite app_nil_r. apply level_empty. lia.
Qed.

(** ** get_nodes_per_level *)
Notation nthl := (fun j l => nth j l []).
Lemma mfor_cons {S A} (f : A -> M S unit) x l : mfor f (x :: l) = bind (f x) (fun _ => mfor f l).
Proof. done. Qed.
Lemma nth_insert {A} (l : list (list A)) i x j : i < length l ->
  nth j (<[i := x]> l) [] = if Nat.eqb j i then x else nth j l [].
Proof.
  intros Hi. rewrite !nth_lookup. destruct (Nat.eqb_spec j i) as [->|Hji].
  - by rewrite list_lookup_insert.
  - by rewrite list_lookup_insert_ne.
Qed.
Lemma npl_spec {A} (t : tree A) : forall lv nodes, lv <= length nodes ->
  exists nodes', nodes_per_level t lv nodes = Ok tt nodes' /\
    length nodes' = Nat.max (length nodes) (S (lv + node_height t)) /\
    forall j, nth j nodes' [] = nth j nodes [] ++ (if Nat.leb lv j then level (j - lv) t else []).
Proof.
  induction t as [d cs IH] using tree_ind'. intros lv nodes Hlv. cbn [nodes_per_level].
  set (nodes1 := if Nat.eqb lv (length nodes) then nodes ++ [[]] else nodes).
  assert (H1 : (bind get_state (fun nodes => if Nat.eqb lv (length nodes) then put_state (nodes ++ [[]]) else ret tt)) nodes = Ok tt nodes1).
  { unfold nodes1. rewrite (bind_ok _ _ _ nodes nodes) by done. by destruct (Nat.eqb _ _). }
  assert (Hl1 : length nodes1 = Nat.max (length nodes) (S lv)).
  { unfold nodes1. destruct (Nat.eqb_spec lv (length nodes)); [rewrite app_length; cbn; lia|lia]. }
  assert (Hn1 : forall j, nth j nodes1 [] = nth j nodes []).
  { intros j. unfold nodes1. destruct (Nat.eqb_spec lv (length nodes)); [|done].
    destruct (decide (j < length nodes)); [by apply app_nth1|].
    rewrite app_nth2, (nth_overflow nodes) by lia. by destruct (j - length nodes) as [|[|?]]. }
  rewrite (bind_ok _ _ _ _ _ H1).
  destruct (lookup_lt_is_Some_2 nodes1 lv) as [l Hl]; [lia|].
  set (nodes2 := <[lv := l ++ [d]]> nodes1).
  rewrite (bind_ok _ _ _ tt nodes2). 2:{ unfold append_at. by rewrite Hl. }
  assert (Hl2 : length nodes2 = length nodes1) by apply insert_length.
  assert (Hn2 : forall j, nth j nodes2 [] = nth j nodes [] ++ (if Nat.eqb j lv then [d] else [])).
  { intros j. unfold nodes2. rewrite nth_insert by (by eapply lookup_lt_Some). destruct (Nat.eqb_spec j lv) as [->|].
    - f_equal. rewrite <- Hn1, nth_lookup, Hl. done.
    - by rewrite app_nil_r. }
  assert (Hfor : exists nodes', mfor (fun c => nodes_per_level c (S lv)) cs nodes2 = Ok tt nodes' /\
    length nodes' = Nat.max (length nodes2) (S lv + lmax (map (fun c => S (node_height c)) cs)) /\
    forall j, nth j nodes' [] = nth j nodes2 [] ++ (if Nat.leb (S lv) j then flat_map (level (j - S lv)) cs else [])).
  { assert (Hle : S lv <= length nodes2) by lia. clearbody nodes2. clear -IH Hle. revert nodes2 Hle.
    induction IH as [|c cs Hc _ IHcs]; intros nodes2 Hle.
    - exists nodes2. split; [done|]. cbn. split; [lia|]. intros j. destruct j; cbn; [by rewrite app_nil_r|].
      destruct (Nat.leb lv j); by rewrite app_nil_r.
    - rewrite mfor_cons. destruct (Hc (S lv) nodes2 Hle) as (n3 & Hn3 & Hl3 & Hj3).
      rewrite (bind_ok _ _ _ _ _ Hn3). destruct (IHcs n3) as (n4 & Hn4 & Hl4 & Hj4); [lia|].
      exists n4. split; [done|]. split.
      + rewrite Hl4, Hl3. cbn -[Nat.max]. lia.
      + intros j. rewrite Hj4, Hj3. rewrite <- app_assoc. f_equal. destruct (Nat.leb (S lv) j); [done|]. done. }
  destruct Hfor as (nodes' & H3 & H4 & H5). exists nodes'. split; [done|]. split.
  - rewrite H4, Hl2, Hl1, height_node. lia.
  - intros j. rewrite H5, Hn2, <- app_assoc. f_equal.
    destruct (Nat.eqb_spec j lv) as [->|Hne].
    + rewrite (proj2 (Nat.leb_gt _ _)) by lia. rewrite Nat.leb_refl, Nat.sub_diag. by rewrite app_nil_r.
    + destruct (Nat.leb_spec (S lv) j), (Nat.leb_spec lv j); try lia; [|done].
      replace (j - lv) with (S (j - S lv)) by lia. done.
Qed.
Lemma levels_spec {A} (t : tree A) : tree_levels (Some t) = Ok (levels t) (levels t).
Proof.
  cbn [tree_levels]. destruct (npl_spec t 0 []) as (nodes & H1 & H2 & H3); [cbn; lia|].
  assert (nodes = levels t) as ->.
  { apply (nth_ext _ _ [] []).
    - rewrite H2. unfold levels. rewrite map_length, seq_length. cbn. lia.
    - intros j Hj. rewrite H2 in Hj. cbn in Hj. rewrite H3.
      replace (nth j [] []) with (@nil A) by (by destruct j). change (Nat.leb 0 j) with true. cbn [app].
      unfold levels. rewrite (nth_indep _ [] (level (S (node_height t)) t)) by (rewrite map_length, seq_length; lia).
      rewrite (map_nth (fun k => level k t)). rewrite seq_nth by lia. by rewrite Nat.sub_0_r. }
  by rewrite (bind_ok _ _ _ _ _ H1).
Qed.

(** ** Search *)
Lemma in_levels {A} (t : tree A) x : x ∈ concat (levels t) <-> exists k, x ∈ level k t.
Proof.
  rewrite elem_of_list_In, in_concat. unfold levels. split.
  - intros (l & H1 & H2). apply in_map_iff in H1 as (k & <- & _). exists k. by apply elem_of_list_In.
  - intros (k & Hk). exists (level k t). split; [|by apply elem_of_list_In]. apply in_map_iff. exists k. split; [done|].
    apply in_seq. destruct (decide (node_height t < k)) as [H|H]; [|lia]. apply level_empty in H. rewrite H in Hk.
    by apply elem_of_nil in Hk.
Qed.
Lemma elem_of_flat_map {A B} (f : A -> list B) l x : x ∈ flat_map f l <-> exists c, c ∈ l /\ x ∈ f c.
Proof. rewrite elem_of_list_In, in_flat_map. by setoid_rewrite elem_of_list_In. Qed.
Lemma level_subtrees {A} (t : tree A) x : (exists k, x ∈ level k t) <-> exists s, s ∈ subtrees t /\ get_data s = x.
Proof.
  induction t as [d cs IH] using tree_ind'. rewrite Forall_forall in IH. split.
  - intros [[|k] Hk].
    + cbn in Hk. apply elem_of_list_singleton in Hk. exists (TNode d cs). split; [by left|done].
    + cbn in Hk. apply elem_of_flat_map in Hk as (c & H1 & H2).
      destruct (proj1 (IH c H1) (ex_intro _ k H2)) as (s & H3 & H4).
      exists s. split; [|done]. right. apply elem_of_flat_map. by exists c.
  - intros (s & [-> | H1]%elem_of_cons & H2).
    + exists 0. cbn in *. subst. by left.
    + apply elem_of_flat_map in H1 as (c & H1 & H3).
      destruct (proj2 (IH c H1) (ex_intro _ s (conj H3 H2))) as [k Hk]. exists (S k). cbn.
      apply elem_of_flat_map. by exists c.
Qed.
Lemma search_loop_spec v fuel : forall queue, length (flat_map subtrees queue) < fuel ->
  exists r, search_loop fuel queue v = Some r /\
    (r <> None <-> exists s, s ∈ flat_map subtrees queue /\ py_eq (get_data s) v = true).
Proof.
  induction fuel as [|fuel IH]; intros queue Hf; [lia|]. cbn [search_loop]. destruct queue as [|[d cs] queue].
  { exists None. split; [done|]. split; [done|]. intros (s & Hs & _). by apply elem_of_nil in Hs. }
  cbn [get_data get_children]. destruct (py_eq d v) eqn:E.
  - eexists. split; [done|]. split; [|done]. intros _. exists (TNode d cs). split; [by left|done].
  - destruct (IH (rev cs ++ queue)) as (r & H1 & H2).
    + cbn in Hf. rewrite app_length in Hf. rewrite flat_map_app, app_length.
      assert (length (flat_map subtrees (rev cs)) = length (flat_map subtrees cs)); [|lia].
      rewrite <- (rev_involutive cs) at 2. generalize (rev cs). clear. intros l. induction l as [|x l IH]; [done|].
      cbn. rewrite flat_map_app, !app_length, IH. cbn. rewrite app_nil_r. lia.
    + exists r. split; [done|]. rewrite H2. split; intros (s & Hs & He); exists s; (split; [|done]).
      * cbn. right. rewrite flat_map_app in Hs. rewrite elem_of_app in Hs |- *. destruct Hs as [Hs|Hs]; [left|by right].
        apply elem_of_flat_map in Hs as (c & Hc & Hs). apply elem_of_flat_map. exists c. split; [by rewrite elem_of_list_In, <- in_rev, <- elem_of_list_In in Hc|done].
      * cbn in Hs. apply elem_of_cons in Hs as [-> | Hs]; [cbn in He; congruence|].
        rewrite flat_map_app. rewrite elem_of_app in Hs |- *. destruct Hs as [Hs|Hs]; [left|by right].
        apply elem_of_flat_map in Hs as (c & Hc & Hs). apply elem_of_flat_map. exists c. split; [by rewrite elem_of_list_In, <- in_rev, <- elem_of_list_In|done].
Qed.
Lemma contains_spec (t : tree pyval) v : exists b, tree_contains (Some t) v = Some (inr b) /\
  (b = true <-> exists x, x ∈ concat (levels t) /\ py_eq x v = true).
Proof.
  cbn [tree_contains]. destruct (search_loop_spec v (S (count_nodes t)) [t]) as (r & -> & H2).
  { cbn. rewrite app_nil_r, count_nodes_subtrees. lia. }
  assert (Hiff : (exists s, s ∈ flat_map subtrees [t] /\ py_eq (get_data s) v = true) <-> exists x, x ∈ concat (levels t) /\ py_eq x v = true).
  { cbn. rewrite app_nil_r. split.
    - intros (s & H & He). exists (get_data s). split; [|done]. apply in_levels, level_subtrees. eauto.
    - intros (x & H & He). apply in_levels, level_subtrees in H as (s & Hs & <-). eauto. }
  destruct r as [s|]; eexists; (split; [done|]); rewrite <- Hiff, <- H2; done.
Qed.

(** The listed data are those of the nodes. *)
Lemma fmap_flat_map {A B C} (f : B -> C) (g : A -> list B) l : map f (flat_map g l) = flat_map (fun x => map f (g x)) l.
Proof. induction l as [|x l IH]; cbn; [done|]. by rewrite map_app, IH. Qed.
Lemma perm_concat {A B} (f : A -> nat -> list B) (g : A -> list B) cs ks :
  (forall c, c ∈ cs -> concat (map (f c) ks) ≡ₚ g c) ->
  concat (map (fun k => flat_map (fun c => f c k) cs) ks) ≡ₚ flat_map g cs.
Proof.
  intros H. induction cs as [|c cs IH].
  - cbn. clear. induction ks as [|? ? IH]; [done|exact IH].
  - cbn [flat_map]. rewrite <- (H c), <- IH; [|intros; apply H; by right|by left]. clear.
    induction ks as [|k ks IH]; cbn; [done|]. rewrite IH. rewrite <- !app_assoc. apply Permutation_app_head.
    rewrite !app_assoc. apply Permutation_app_tail. apply Permutation_app_comm.
Qed.
Lemma levels_perm_upto {A} (t : tree A) : forall n, node_height t < n ->
  concat (map (fun k => level k t) (seq 0 n)) ≡ₚ map get_data (subtrees t).
Proof.
  induction t as [d cs IH] using tree_ind'. rewrite Forall_forall in IH. intros [|n] Hn; [lia|].
  cbn [seq map concat level subtrees app get_data]. constructor. rewrite fmap_flat_map, <- seq_shift, map_map.
  cbn [level get_children]. apply (perm_concat (fun c k => level k c)). intros c Hc. apply IH; [done|].
  pose proof (height_child d cs c Hc). lia.
Qed.
Lemma levels_perm {A} (t : tree A) : concat (levels t) ≡ₚ map get_data (subtrees t).
Proof. apply levels_perm_upto. lia. Qed.
