(** * SuffixTrie: what get_longest_repeated_substring returns, in terms of the word *)
From stdpp Require Import gmap.
From Verif Require Import Base TrieModel TrieRep TrieSpec TrieThm TrieThm2 TrieThm3 TrieThm4 SuffixModel SuffixSpec SuffixDeepSpec SuffixThm SuffixThm2 SuffixThm4.
Local Open Scope py_scope.

Lemma nested_fun w v n m : nested w v n -> nested w v m -> n = m.
Proof.
  intros (l & Hl & Hin & <-) (l' & Hl' & Hin' & <-). apply Permutation_length, NoDup_Permutation; [done..|].
  intros u. by rewrite Hin, Hin'.
Qed.
Lemma longest_repeated_parts w v : w <> [] -> longest_repeated_substring w v -> suffixes_part_at w v.
Proof.
  intros Hw [(i & j & Hij & [Hi Hpi]%occurs_at_drop & [Hj Hpj]%occurs_at_drop) Hall]. exists i, j. do 3 (split; [done|]). split; [done|]. split; [done|].
  intros d Hd Hd'. assert (length d <= length v) as Hlen by (apply Hall; exists i, j; split; [done|]; by rewrite !occurs_at_drop).
  destruct (prefix_weak_total d v (drop i w) Hd Hpi) as [?|[t ->]]; [done|].
  rewrite app_length in Hlen. destruct t; [by rewrite app_nil_r|cbn in Hlen; lia].
Qed.
Lemma parts_repeated w v : suffixes_part_at w v -> repeated w v.
Proof. intros (i & j & Hij & Hi & Hj & H1 & H2 & _). exists i, j. by rewrite !occurs_at_drop. Qed.

(** There is a longest repeated substring. *)
Lemma longest_exists w : w <> [] -> exists v, longest_repeated_substring w v.
Proof.
  intros Hw. set (ps := filter (fun ij : nat * nat => ij.1 <> ij.2) (list_prod (seq 0 (S (length w))) (seq 0 (S (length w))))).
  assert (forall i j, (i, j) ∈ ps <-> i <> j /\ i <= length w /\ j <= length w) as Hps.
  { intros i j. unfold ps. rewrite elem_of_list_filter, elem_of_list_In, in_prod_iff, !in_seq. cbn. lia. }
  set (cs := (fun ij : nat * nat => get_lcp (drop ij.1 w) (drop ij.2 w)) <$> ps).
  assert (forall v, v ∈ cs -> repeated w v) as Hcs.
  { intros v ([i j] & -> & (Hij & Hi & Hj)%Hps)%elem_of_list_fmap. cbn. destruct (get_lcp_is_lcp (drop i w) (drop j w)) as (H1 & H2 & _).
    exists i, j. by rewrite !occurs_at_drop. }
  assert (cs <> []) as Hne.
  { assert ((0, 1) ∈ ps) as H01 by (apply Hps; destruct w; [done|cbn; lia]).
    intros E. unfold cs in E. apply fmap_nil_inv in E. rewrite E in H01. by apply elem_of_nil in H01. }
  destruct (max_length cs) as [Hm1 Hm2]. destruct (Hm2 Hne) as (v & Hv & Ev). exists v. split; [by apply Hcs|].
  intros q (i & j & Hij & [Hi Hpi]%occurs_at_drop & [Hj Hpj]%occurs_at_drop). rewrite Ev.
  destruct (get_lcp_is_lcp (drop i w) (drop j w)) as (_ & _ & H).
  etrans; [apply prefix_length, (H q Hpi Hpj)|]. apply Hm1. apply elem_of_list_fmap. exists (i, j). split; [done|]. by apply Hps.
Qed.

Section Deep.
Context (f : sfx) (w : word) (L : gmap nat word) (I : sinv f w L) (Hw : w <> []).
Notation s := (f_rt f).

Lemma inner_parts i p m k c : L !! i = Some p -> t_nodes s !! i = Some m -> (k, c) ∈ n_children m -> suffixes_part_at w p.
Proof.
  intros Hi Hm Hin. destruct (i_branch _ _ _ I _ _ Hi) as [->|[Hp|(x & y & u & v & Hxy & H1 & H2)]].
  - exists 0, (length w). split; [destruct w; done|]. split; [lia|]. split; [done|]. rewrite drop_all.
    split; [apply prefix_nil|]. split; [done|]. done.
  - by destruct (label_leaf _ _ _ I _ _ Hi Hp m k c Hm).
  - apply elem_labels in H1 as (a & Ha & E1). apply elem_labels in H2 as (b & Hb & E2).
    assert (a <> b) as Hab. { intros ->. rewrite <- E2 in E1. apply app_inv_head in E1. congruence. }
    destruct (labels_part w a b (i_dollar _ _ _ I) Ha Hb Hab) as (c' & x' & y' & u' & v' & Ea & Eb & Hne & Hlcp).
    rewrite Ea in E1. rewrite Eb in E2.
    assert (p = c') as ->; [|by exists a, b].
    destruct (prefix_split _ _ _ _ E1) as [(t & -> & Ht)|(t & -> & Ht)]; (destruct t as [|z t]; [by rewrite app_nil_r|]); exfalso.
    + rewrite <- (assoc (++)) in E2. apply app_inv_head in E2. cbn in E2, Ht. congruence.
    + rewrite <- (assoc (++)) in E2. apply app_inv_head in E2. cbn in E2, Ht. congruence.
Qed.
Lemma parts_inner p : suffixes_part_at w p -> exists i m k c, L !! i = Some p /\ t_nodes s !! i = Some m /\ (k, c) ∈ n_children m.
Proof.
  pose proof (i_shape _ _ _ I) as T. pose proof (x_rep _ _ _ _ T) as R.
  intros (a & b & Hab & Ha & Hb & Hlcp).
  destruct (labels_part w a b (i_dollar _ _ _ I) Ha Hb Hab) as (q & x & y & u & v & Ea & Eb & Hxy & Hlcp').
  rewrite (lcp_unique _ _ _ _ Hlcp Hlcp').
  destruct (leaf_at _ _ _ I a Ha) as (la & _ & HLa). destruct (leaf_at _ _ _ I b Hb) as (lb & _ & HLb).
  rewrite Ea in HLa. rewrite Eb in HLb.
  destruct (parting _ _ _ _ _ _ _ _ _ R HLa HLb Hxy) as (i & Hi).
  destruct (x_node _ _ _ _ _ _ T Hi) as (m & Hm).
  destruct (nav _ _ R _ _ _ _ _ _ Hi Hm HLa) as (c & _ & Hin & _). by exists i, m, x, c.
Qed.
(** The depth of a node counts the points above it. *)
Lemma depth_nested d : forall i p, L !! i = Some p -> below s (t_root s) i d -> nested w p d.
Proof.
  pose proof (i_shape _ _ _ I) as T. pose proof (x_rep _ _ _ _ T) as R.
  induction d as [|d IH]; intros i p Hi Hb.
  - inversion Hb; subst. rewrite (r_root _ _ R) in Hi. injection Hi as <-. exists []. split; [constructor|]. split; [|done].
    intros u. split; [by intros ?%elem_of_nil|]. intros (_ & Hu & Hne). by apply prefix_nil_inv in Hu.
  - apply below_last in Hb as (j & n & k & Hb & Hn & Hin).
    destruct (below_live _ _ _ _ _ _ R (r_root _ _ R) Hb) as (q & Hj & _). cbn in Hj.
    destruct (child_of _ _ _ _ _ _ _ R Hj Hn Hin) as (mi & r & Hmi & _ & Hdata & HLi).
    rewrite HLi in Hi. injection Hi as <-.
    destruct (IH _ _ Hj Hb) as (l & Hnd & Hl & Hlen). exists (q :: l). split; [|split; [|cbn; by rewrite Hlen]].
    + apply NoDup_cons. split; [|done]. by intros (_ & _ & ?)%Hl.
    + intros u. rewrite elem_of_cons, Hl. split.
      * intros [->|(Hu & Hpre & Hne)].
        -- split; [by eapply inner_parts|]. split; [by eexists|]. intros E. apply (f_equal length) in E. rewrite app_length in E. cbn in E. lia.
        -- split; [done|]. split; [by apply prefix_app_r|]. intros ->. apply prefix_length in Hpre. rewrite app_length in Hpre. cbn in Hpre. lia.
      * intros (Hu & [t' Et] & Hne). destruct (prefix_split _ _ _ _ Et) as [(t & Eq & Ht)|(t & -> & Ht)].
        -- destruct t as [|z t]; [left; by rewrite Eq, app_nil_r|]. right. split; [done|]. split; [by exists (z :: t)|].
           intros ->. apply (f_equal length) in Eq. rewrite app_length in Eq. cbn in Eq. lia.
        -- destruct t as [|z t]; [left; by rewrite app_nil_r|]. exfalso. cbn in Ht. injection Ht as <- ->.
           destruct (parts_inner _ Hu) as (i' & m' & k' & c' & Hi' & _).
           destruct (nav _ _ R _ _ _ _ _ _ Hj Hn Hi') as (c & m & Hinc & Hm & Hpre).
           destruct (rep_get _ _ _ _ _ R Hj Hn) as (Hndk & _). rewrite (key_unique _ _ _ _ Hndk Hinc Hin) in Hm.
           rewrite Hm in Hmi. injection Hmi as ->. rewrite Hdata in Hpre. apply prefix_length in Hpre.
           cbn in Hpre. rewrite app_length in Hpre. destruct t' as [|z' t']; [|cbn in Hpre; lia]. apply Hne. by rewrite app_nil_r.
Qed.
Lemma deep_exact : exists r, longest_repeated f = Ok r s /\ NoDup r /\ forall v, v ∈ r <-> longest_near_deepest w v.
Proof.
  pose proof (i_shape _ _ _ I) as T. pose proof (x_rep _ _ _ _ T) as R.
  destruct (longest_ok _ _ _ I) as (h & r & Eh & Er & Hh & Hnd & Hne & Hr & Hmax).
  assert (forall u, suffixes_part_at w u -> exists m, nested w u m /\ m + 1 <= h) as Hdeep.
  { intros u (i & m & k & c & Hi & Hm & Hin)%parts_inner. destruct (root_below _ _ _ _ R Hi) as (d & Hb & _).
    exists d. split; [by eapply depth_nested|]. apply (Hmax c). eapply below_app; [done|by eapply below_child_1]. }
  assert (exists u, suffixes_part_at w u /\ nested w u (h - 1)) as (u0 & Hu0 & Hn0).
  { destruct r as [|v r]; [done|]. destruct (proj1 (Hr v) ltac:(left)) as [(x & (d & Hb & _) & _) _].
    pose proof (height_ok s L R (S (length (t_nodes s))) (t_root s) [] (r_root _ _ R)) as Hho.
    destruct Hho as (h' & Eh' & (jh & Hjh) & Hmax').
    { pose proof (deeper_le s L (length (@nil N)) R). lia. }
    assert (h' = h) as ->.
    { unfold suffix_height, trie_height in Eh. rewrite (bind_ok _ _ _ _ _ (is_empty_ok s L _ T)) in Eh.
      rewrite bool_decide_eq_false_2 in Eh.
      - rewrite (bind_ok _ _ _ s s) in Eh by done. congruence.
      - intros E. assert (label w 0 ∈ labels w) as H by (apply elem_labels; exists 0; split; [lia|done]). rewrite E in H. set_solver. }
    destruct h as [|h]; [lia|]. apply below_last in Hjh as (j & m & k & Hj & Hm & Hin).
    destruct (below_live _ _ _ _ _ _ R (r_root _ _ R) Hj) as (q & HLj & _). cbn in HLj.
    exists q. split; [by eapply inner_parts|]. rewrite Nat.sub_1_r. cbn. by eapply depth_nested. }
  assert (forall v, near_deepest w v <-> exists x, deep f h x /\ parent_path f L x v) as Hnear.
  { intros v. split.
    - intros (Hv & n & Hn & Hall). pose proof (Hall _ _ Hu0 Hn0) as Hle. 
      destruct (parts_inner _ Hv) as (i & m & k & c & Hi & Hm & Hin). exists c. split; [|by exists i, m, k].
      destruct (root_below _ _ _ _ R Hi) as (d & Hb & _).
      assert (d = n) as -> by (eapply nested_fun; [by eapply depth_nested|done]).
      pose proof (below_app _ _ _ _ _ _ Hb (below_child_1 _ _ _ _ _ Hm Hin)) as Hbc. pose proof (Hmax _ _ Hbc).
      exists (n + 1). split; [done|]. split; [lia|]. destruct (decide (n + 1 = h)); [by left|]. right. lia.
    - intros (x & (d & Hb & Hd & Hdh) & Hp). destruct Hp as (j & m & k & Hj & Hm & Hin).
      split; [by eapply inner_parts|]. exists (d - 1). split.
      + destruct d as [|d]; [lia|]. rewrite Nat.sub_1_r. cbn.
        apply below_last in Hb as (j' & m' & k' & Hb & Hm' & Hin').
        destruct (below_live _ _ _ _ _ _ R (r_root _ _ R) Hb) as (q & HLj & _). cbn in HLj.
        assert (q = v) as ->. { apply (parent_path_fun _ _ _ I x); [by exists j', m', k'|by exists j, m, k]. }
        by eapply depth_nested.
      + intros u m' Hu Hm'. destruct (Hdeep _ Hu) as (m'' & Hm'' & Hle). rewrite (nested_fun _ _ _ _ Hm' Hm''). lia. }
  exists r. split; [done|]. split; [done|]. intros v. rewrite Hr. unfold longest_near_deepest. rewrite Hnear. split.
  - intros [Hv Ha]. split; [done|]. intros u (x & Hx & Hp)%Hnear. by eapply Ha.
  - intros [Hv Ha]. split; [done|]. intros x v' Hx Hp. apply Ha, Hnear. by exists x.
Qed.
End Deep.

(** The word "$...$" leaves nothing to look at. *)
Lemma deep_empty f L : sinv f [] L -> longest_repeated f = Ok [[]] (f_rt f).
Proof.
  intros I. destruct (longest_ok _ _ _ I) as (h & r & Eh & Er & Hh & Hnd & Hne & Hr & Hmax). rewrite Er. f_equal.
  assert (forall v, v ∈ r -> v = []) as Hall.
  { intros v [(x & _ & (j & m & k & Hj & Hm & Hin)) _]%Hr.
    destruct (i_branch _ _ _ I _ _ Hj) as [->|[Hp|(x' & y' & u & v' & Hxy & H1 & H2)]]; [done| |].
    - by destruct (label_leaf _ _ _ I _ _ Hj Hp m k x Hm).
    - apply elem_labels in H1 as (a & Ha & E1). apply elem_labels in H2 as (b & Hb & E2). cbn in Ha, Hb.
      assert (a = 0) as -> by lia. assert (b = 0) as -> by lia. rewrite <- E2 in E1. apply app_inv_head in E1. congruence. }
  destruct r as [|v r]; [done|]. rewrite (Hall v) in * by left. f_equal. destruct r as [|v' r]; [done|].
  exfalso. apply NoDup_cons in Hnd as [Hnd _]. apply Hnd. rewrite (Hall v') by (right; left). left.
Qed.
