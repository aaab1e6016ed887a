(** * SuffixTrie: the longest repeated substrings *)
From stdpp Require Import gmap.
From Verif Require Import Base TrieModel TrieRep TrieSpec TrieThm TrieThm2 TrieThm3 TrieThm4 SuffixModel SuffixSpec SuffixThm SuffixThm2.
Local Open Scope py_scope.

Lemma map_each_ok {A B} (g : A -> M ts B) (P : A -> B -> Prop) l s :
  (forall x, x ∈ l -> exists y, g x s = Ok y s /\ P x y) ->
  exists ys, map_each g l s = Ok ys s /\ Forall2 P l ys.
Proof.
  induction l as [|x l IH]; intros H.
  - exists []. split; [done|constructor].
  - destruct (H x) as (y & Ey & Hy); [left|]. destruct IH as (ys & Eys & Hys); [intros; apply H; by right|].
    exists (y :: ys). change (map_each g (x :: l)) with (bind (g x) (fun y => bind (map_each g l) (fun r => ret (y :: r)))).
    rewrite (bind_ok _ _ _ _ _ Ey), (bind_ok _ _ _ _ _ Eys). split; [done|by constructor].
Qed.
Lemma max_length (l : list pystr) : (forall v, v ∈ l -> length v <= foldr Nat.max 0 (map length l)) /\
  (l <> [] -> exists v, v ∈ l /\ length v = foldr Nat.max 0 (map length l)).
Proof.
  induction l as [|x l [IH1 IH2]]; cbn; [split; [by intros ? ?%elem_of_nil|done]|]. split.
  - intros v [->|Hv]%elem_of_cons; [lia|]. apply IH1 in Hv. lia.
  - intros _. destruct (decide (foldr Nat.max 0 (map length l) <= length x)).
    + exists x. split; [left|lia].
    + destruct l as [|y l]; [cbn in *; lia|]. destruct IH2 as (v & Hv & Ev); [done|]. exists v. split; [by right|]. lia.
Qed.

Section Lrs.
Context (f : sfx) (w : word) (L : gmap nat word) (I : sinv f w L).
Notation s := (f_rt f).

(** A label's node has no children. *)
Lemma label_leaf i n : L !! i = Some n -> n ∈ labels w -> forall m k c, t_nodes s !! i = Some m -> (k, c) ∉ n_children m.
Proof.
  pose proof (i_shape _ _ _ I) as T. pose proof (x_rep _ _ _ _ T) as R.
  intros Hi Hn m k c Hm Hin. destruct (child_of _ _ _ _ _ _ _ R Hi Hm Hin) as (m' & r & _ & _ & _ & HL).
  destruct (ext' _ _ _ _ _ T HL) as (t & Ht); [by destruct n|].
  destruct (all_leafwords _ _ _ I _ Hn) as [_ Hmax].
  assert ((n ++ k :: r) ++ t = n) as E by (apply Hmax; [done|]; exists ((k :: r) ++ t); by rewrite (assoc (++))).
  apply (f_equal length) in E. rewrite !app_length in E. cbn in E. lia.
Qed.
(** The path of a node with children repeats. *)
Lemma inner_repeated i p m k c : w <> [] -> L !! i = Some p -> t_nodes s !! i = Some m -> (k, c) ∈ n_children m -> repeated w p.
Proof.
  intros Hw Hi Hm Hin. destruct (i_branch _ _ _ I _ _ Hi) as [->|[Hp|(x & y & u & v & Hxy & H1 & H2)]].
  - exists 0, 1. split; [done|]. rewrite !occurs_at_drop. destruct w; [done|]. cbn.
    split; (split; [lia|apply prefix_nil]).
  - by destruct (label_leaf _ _ Hi Hp m k c Hm).
  - apply elem_labels in H1 as (a & Ha & E1). apply elem_labels in H2 as (b & Hb & E2).
    assert (a <> b) as Hab. { intros ->. rewrite <- E2 in E1. apply app_inv_head in E1. congruence. }
    destruct (labels_part w a b (i_dollar _ _ _ I) Ha Hb Hab) as (c' & x' & y' & u' & v' & Ea & Eb & Hne & Hc1 & Hc2 & _).
    rewrite Ea in E1. rewrite Eb in E2.
    assert (p = c') as ->.
    { destruct (prefix_split _ _ _ _ E1) as [(t & -> & Ht)|(t & -> & Ht)]; (destruct t as [|z t]; [by rewrite app_nil_r|]); exfalso.
      - rewrite <- (assoc (++)) in E2. apply app_inv_head in E2. cbn in E2, Ht. congruence.
      - rewrite <- (assoc (++)) in E2. apply app_inv_head in E2. cbn in E2, Ht. congruence. }
    exists a, b. split; [done|]. rewrite !occurs_at_drop. done.
Qed.
(** Every repeated string begins the path of a node with children. *)
Lemma repeated_inner p : repeated w p -> exists i q m k c, L !! i = Some q /\ p `prefix_of` q /\
  t_nodes s !! i = Some m /\ (k, c) ∈ n_children m /\ repeated w q.
Proof.
  pose proof (i_shape _ _ _ I) as T. pose proof (x_rep _ _ _ _ T) as R.
  intros (a & b & Hab & [Ha Hpa]%occurs_at_drop & [Hb Hpb]%occurs_at_drop).
  destruct (labels_part w a b (i_dollar _ _ _ I) Ha Hb Hab) as (q & x & y & u & v & Ea & Eb & Hxy & Hq1 & Hq2 & Hmax).
  destruct (leaf_at _ _ _ I a Ha) as (la & _ & HLa). destruct (leaf_at _ _ _ I b Hb) as (lb & _ & HLb).
  rewrite Ea in HLa. rewrite Eb in HLb.
  destruct (parting _ _ _ _ _ _ _ _ _ R HLa HLb Hxy) as (i & Hi).
  destruct (x_node _ _ _ _ _ _ T Hi) as (m & Hm).
  destruct (nav _ _ R _ _ _ _ _ _ Hi Hm HLa) as (c & _ & Hin & _).
  exists i, q, m, x, c. split_and!; try done; [by apply Hmax|]. exists a, b. split; [done|]. by rewrite !occurs_at_drop.
Qed.

(** [deep x]: the node is on one of the levels that are looked at. *)
Definition deep (h : nat) (x : nat) : Prop :=
  exists d, below s (t_root s) x d /\ 1 <= d /\ (d = h \/ (2 <= h /\ S d = h)).
Lemma deepest_ok : exists h D, suffix_height f = Ok h s /\ 1 <= h /\ deepest_nodes s = Ok D s /\ D <> [] /\
  (forall x, x ∈ D <-> deep h x) /\ forall x d, below s (t_root s) x d -> d <= h.
Proof.
  pose proof (i_shape _ _ _ I) as T. pose proof (x_rep _ _ _ _ T) as R.
  assert (labels w <> ∅) as Hlab.
  { intros E. assert (label w 0 ∈ labels w) as H by (apply elem_labels; exists 0; split; [lia|done]). rewrite E in H. set_solver. }
  destruct (height_ok s L R (S (length (t_nodes s))) (t_root s) [] (r_root _ _ R)) as (h & Eh & (jh & Hjh) & Hmax).
  { pose proof (deeper_le s L (length (@nil N)) R). lia. }
  destruct (npl_ok s L R (S (length (t_nodes s))) (t_root s) [] 0 [] (r_root _ _ R)) as (r & Er & _ & Hr0 & Hne & Hin).
  { pose proof (deeper_le s L (length (@nil N)) R). lia. } { cbn. lia. } { by intros ? ?%elem_of_nil. }
  assert (forall d x, inl r d x <-> below s (t_root s) x d) as Hin'.
  { intros d x. rewrite Hin. rewrite Nat.sub_0_r. split; [intros [(l & Hl & _)|[_ H]]; [done|done]|]. intros H. right. split; [lia|done]. }
  assert (length r = S h) as Hlen.
  { destruct (proj2 (Hin' h jh) Hjh) as (l & Hl%lookup_lt_Some & _).
    destruct (decide (length r = S h)); [done|]. exfalso.
    destruct (lookup_lt_is_Some_2 r (length r - 1)) as (l' & Hl'); [lia|].
    destruct l' as [|x l']; [by apply (Hne []); [eapply elem_of_list_lookup_2|]|].
    assert (below s (t_root s) x (length r - 1)) as Hb by (apply Hin'; eexists; split; [done|left]).
    apply Hmax in Hb. lia. }
  assert (1 <= h) as Hh.
  { destruct (leaf_at _ _ _ I 0 ltac:(lia)) as (a & _ & HLa).
    destruct (root_below s L a _ R HLa) as (d & Hd & Hd1). apply Hmax in Hd as Hd'. pose proof (Hd1 (label_nil w 0)). lia. }
  destruct (lookup_lt_is_Some_2 r h) as (last & Hlast); [lia|].
  destruct (lookup_lt_is_Some_2 r (h - 1)) as (prev & Hprev); [lia|].
  assert (exists r0, r = r0 ++ [prev; last]) as (r0 & Er0).
  { exists (take (h - 1) r). rewrite <- (take_drop (h - 1) r) at 1. f_equal.
    rewrite (drop_S _ _ _ Hprev). f_equal. replace (S (h - 1)) with h by lia.
    rewrite (drop_S _ _ _ Hlast). f_equal. apply drop_ge. lia. }
  exists h, (if 2 <? length r then last ++ prev else last). split.
  - unfold suffix_height, trie_height. rewrite (bind_ok _ _ _ _ _ (is_empty_ok s L _ T)).
    rewrite bool_decide_eq_false_2 by done. by rewrite (bind_ok _ _ _ s s) by done.
  - split; [done|]. split; [|split; [|split]].
    + unfold deepest_nodes. rewrite (bind_ok _ _ _ s s) by done. rewrite (bind_ok _ _ _ _ _ Er).
      assert (rev r = last :: prev :: rev r0) as -> by (rewrite Er0, rev_app_distr; done). done.
    + assert (last <> []) by (apply Hne; by eapply elem_of_list_lookup_2). destruct (2 <? length r); [by destruct last|done].
    + intros x. rewrite Hlen. unfold deep. setoid_rewrite <- Hin'.
      assert (forall d l, r !! d = Some l -> inl r d x <-> x ∈ l) as Hl.
      { intros d l Hl. split; [intros (l' & Hl' & ?); congruence|]. intros ?. by exists l. }
      destruct (Nat.ltb_spec 2 (S h)) as [Hh2|Hh2].
      * rewrite elem_of_app, <- (Hl _ _ Hlast), <- (Hl _ _ Hprev). split.
        -- intros [?|?]; eexists; (split; [done|]); lia.
        -- intros (d & Hd & _ & [->|[_ <-]]); [by left|]. right. by replace (S d - 1) with d by lia.
      * rewrite <- (Hl _ _ Hlast). split; [intros ?; exists h; split; [done|lia]|]. intros (d & Hd & _ & [->|[? _]]); [done|lia].
    + done.
Qed.

(** [parent_path x v]: [x] is a child of the node with path [v]. *)
Definition parent_path (x : nat) (v : word) : Prop :=
  exists j m k, L !! j = Some v /\ t_nodes s !! j = Some m /\ (k, x) ∈ n_children m.
Lemma parent_path_fun x v v' : parent_path x v -> parent_path x v' -> v = v'.
Proof.
  pose proof (i_shape _ _ _ I) as T. pose proof (x_rep _ _ _ _ T) as R.
  intros (j & m & k & Hj & Hm & Hin) (j' & m' & k' & Hj' & Hm' & Hin').
  destruct (child_of _ _ _ _ _ _ _ R Hj Hm Hin) as (mx & r & Hx & Hpar & _).
  destruct (child_of _ _ _ _ _ _ _ R Hj' Hm' Hin') as (mx' & r' & Hx' & Hpar' & _).
  congruence.
Qed.
Lemma deep_parent h x : deep h x -> exists v, parent_path x v /\ ancestors_data x s = Ok v s.
Proof.
  pose proof (i_shape _ _ _ I) as T. pose proof (x_rep _ _ _ _ T) as R.
  intros (d & Hb & Hd & _). destruct d as [|d]; [lia|].
  apply below_last in Hb as (j & m & k & Hb & Hm & Hin).
  destruct (below_live _ _ _ _ _ _ R (r_root _ _ R) Hb) as (v & Hj & _). cbn in Hj.
  destruct (child_of _ _ _ _ _ _ _ R Hj Hm Hin) as (mx & r & Hx & Hpar & _ & HLx).
  destruct (ancestors_ok _ _ _ I x _ HLx) as (j' & q & n & E & Hn & Hpar' & Hq & _); [by destruct v|].
  exists v. split; [by exists j, m, k|]. rewrite E. f_equal. congruence.
Qed.
Lemma longest_ok : exists h r, suffix_height f = Ok h s /\ longest_repeated f = Ok r s /\ 1 <= h /\ NoDup r /\ r <> [] /\
  (forall v, v ∈ r <-> (exists x, deep h x /\ parent_path x v) /\
     forall x v', deep h x -> parent_path x v' -> length v' <= length v) /\
  forall x d, below s (t_root s) x d -> d <= h.
Proof.
  pose proof (i_shape _ _ _ I) as T.
  destruct deepest_ok as (h & D & Eh & Hh & ED & HD0 & HD & Hmax).
  destruct (map_each_ok ancestors_data (fun x v => parent_path x v) D s) as (lcs & El & Hl).
  { intros x Hx%HD. destruct (deep_parent _ _ Hx) as (v & ? & ?). by exists v. }
  assert (forall v, v ∈ lcs <-> exists x, deep h x /\ parent_path x v) as Hlcs.
  { intros v. split.
    - intros (i & Hi)%elem_of_list_lookup. destruct (Forall2_lookup_r _ _ _ _ _ Hl Hi) as (x & Hx & Hp).
      exists x. split; [|done]. apply HD. by eapply elem_of_list_lookup_2.
    - intros (x & Hx%HD & Hp). apply elem_of_list_lookup in Hx as (i & Hi).
      destruct (Forall2_lookup_l _ _ _ _ _ Hl Hi) as (v' & Hv' & Hp'). rewrite (parent_path_fun _ _ _ Hp Hp').
      by eapply elem_of_list_lookup_2. }
  destruct (max_length lcs) as [Hm1 Hm2].
  assert (lcs <> []) as Hne. { intros ->. apply Forall2_nil_inv_r in Hl. done. }
  destruct (Hm2 Hne) as (v0 & Hv0 & Ev0).
  eexists h, _. split; [done|]. split.
  { unfold longest_repeated. rewrite (bind_ok _ _ _ _ _ (is_empty_ok s L _ T)).
    rewrite bool_decide_eq_false_2.
    - rewrite (bind_ok _ _ _ _ _ ED), (bind_ok _ _ _ _ _ El). done.
    - intros E. assert (label w 0 ∈ labels w) as H by (apply elem_labels; exists 0; split; [lia|done]). rewrite E in H. set_solver. }
  split; [done|].
  assert (forall v, v ∈ filter (fun substr : pystr => length substr = foldr Nat.max 0 (map length lcs)) (remove_dups lcs) <->
    (exists x, deep h x /\ parent_path x v) /\ forall x v', deep h x -> parent_path x v' -> length v' <= length v) as Hr.
  { intros v. rewrite elem_of_list_filter, elem_of_remove_dups, Hlcs. split.
    - intros [Ev Hv]. split; [done|]. intros x v' Hx Hv'. rewrite Ev. apply Hm1, Hlcs. by exists x.
    - intros [Hv Hall]. split; [|done]. apply Nat.le_antisymm; [apply Hm1, Hlcs, Hv|].
      apply Hlcs in Hv0 as (x0 & Hx0 & Hp0). pose proof (Hall _ _ Hx0 Hp0). lia. }
  split; [apply NoDup_filter, NoDup_remove_dups|]. split; [|done].
  intros E. assert (v0 ∈ ([] : list pystr)) as H0; [|by apply elem_of_nil in H0]. rewrite <- E.
  apply elem_of_list_filter. split; [done|]. by apply elem_of_remove_dups.
Qed.

(** ** The results *)
Lemma lrs_ok : w <> [] -> exists h r, suffix_height f = Ok h s /\ longest_repeated f = Ok r s /\ NoDup r /\ r <> [] /\
  (forall v, v ∈ r -> repeated w v) /\
  (forall v v', v ∈ r -> v' ∈ r -> length v = length v') /\
  (forall v t, v ∈ r -> repeated w (v ++ t) -> t = []) /\
  (h <= 3 -> forall v, v ∈ r <-> longest_repeated_substring w v).
Proof.
  intros Hw. pose proof (i_shape _ _ _ I) as T. pose proof (x_rep _ _ _ _ T) as R.
  destruct longest_ok as (h & r & Eh & Er & Hh & Hnd & Hne & Hr & Hmax).
  assert (forall x v, parent_path x v -> repeated w v) as Hpr.
  { intros x v (j & m & k & Hj & Hm & Hin). by eapply inner_repeated. }
  exists h, r. split; [done|]. split; [done|]. split; [done|]. split; [done|]. split; [|split; [|split]].
  - intros v [(x & _ & Hp) _]%Hr. by eapply Hpr.
  - intros v v' [(x & Hx & Hp) Ha]%Hr [(x' & Hx' & Hp') Ha']%Hr.
    pose proof (Ha _ _ Hx' Hp'). pose proof (Ha' _ _ Hx Hp). lia.
  - intros v t [(x & Hx & Hp) Ha]%Hr (i & q & m & k & c & Hi & [t' ->] & Hm & Hin & Hq)%repeated_inner.
    destruct t as [|z t]; [done|]. exfalso. destruct Hx as (d & Hb & Hd & Hdh).
    destruct d as [|d]; [lia|]. apply below_last in Hb as (j & mj & kj & Hb & Hmj & Hinj).
    destruct (below_live _ _ _ _ _ _ R (r_root _ _ R) Hb) as (vj & Hj & _). cbn in Hj.
    assert (vj = v) as ->. { apply (parent_path_fun x); [by exists j, mj, kj|done]. }
    rewrite <- (assoc (++)) in Hi.
    destruct (live_below s L R (length ((z :: t) ++ t')) j i v ((z :: t) ++ t')) as (e & He & He1); [done..|].
    specialize (He1 ltac:(done)).
    pose proof (below_app _ _ _ _ _ _ Hb (below_app _ _ _ _ _ _ He (below_child_1 _ _ _ _ _ Hm Hin))) as Hbc.
    pose proof (Hmax _ _ Hbc) as Hle. assert (d + (e + 1) = h) as Eh' by lia.
    assert (length (v ++ (z :: t) ++ t') <= length v) as Hlen.
    { apply (Ha c).
      - exists h. rewrite <- Eh' at 1. split; [done|]. split; [lia|]. by left.
      - by exists i, m, k. }
    rewrite !app_length in Hlen. cbn in Hlen. lia.
  - intros Hh3.
    assert (forall i q m k c, L !! i = Some q -> t_nodes s !! i = Some m -> (k, c) ∈ n_children m -> q <> [] ->
      deep h c /\ parent_path c q) as Hinner.
    { intros i q m k c Hi Hm Hin Hq. split; [|by exists i, m, k].
      destruct (root_below _ _ _ _ R Hi) as (d & Hb & Hd). specialize (Hd Hq).
      pose proof (below_app _ _ _ _ _ _ Hb (below_child_1 _ _ _ _ _ Hm Hin)) as Hbc.
      pose proof (Hmax _ _ Hbc). exists (d + 1). split; [done|]. split; [lia|].
      destruct (decide (d + 1 = h)); [by left|]. right. lia. }
    intros v. split.
    + intros [(x & Hx & Hp) Ha]%Hr. split; [by eapply Hpr|].
      intros q (i & q' & m & k & c & Hi & Hpre & Hm & Hin & Hq)%repeated_inner.
      apply prefix_length in Hpre. destruct (decide (q' = [])) as [->|Hq']; [cbn in Hpre; lia|].
      destruct (Hinner _ _ _ _ _ Hi Hm Hin Hq') as [Hc Hpc]. pose proof (Ha _ _ Hc Hpc). lia.
    + intros [Hv Hall]. apply Hr. split.
      * destruct (repeated_inner _ Hv) as (i & q & m & k & c & Hi & [t ->] & Hm & Hin & Hq).
        assert (t = []) as ->. { apply Hall in Hq. rewrite app_length in Hq. destruct t; [done|cbn in Hq; lia]. }
        rewrite app_nil_r in *. destruct (decide (v = [])) as [->|Hv0].
        -- destruct r as [|v0 r]; [done|]. destruct (proj1 (Hr v0)) as [(x & Hx & Hp) _]; [left|].
           exists x. split; [done|]. assert (v0 = []) as ->; [|done].
           pose proof (Hall _ (Hpr _ _ Hp)) as H. destruct v0; [done|cbn in H; lia].
        -- exists c. by eapply Hinner.
      * intros x v' _ Hp. by apply Hall, (Hpr x).
Qed.
End Lrs.
