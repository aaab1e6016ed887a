(** * SuffixTrie: substring queries and ancestors *)
From Coq Require Import Sorted.
From stdpp Require Import gmap.
From Verif Require Import Base TrieModel TrieRep TrieSpec TrieThm TrieThm2 TrieThm3 SuffixModel SuffixSpec SuffixThm.
Local Open Scope py_scope.

Section Queries.
Context (f : sfx) (w : word) (L : gmap nat word) (I : sinv f w L).

Lemma substring_labels p : no_dollar p -> is_prefix (labels w) p <-> substring w p.
Proof.
  intros Hp. unfold is_prefix, substring. setoid_rewrite occurs_at_drop. split.
  - intros [->|(l & (i & Hi & ->)%elem_labels & Hpre)].
    + exists 0. split; [lia|]. apply prefix_nil.
    + exists i. split; [done|]. by apply label_pattern in Hpre.
  - intros (i & Hi & Hpre). right. exists (label w i). rewrite elem_labels. split; [by exists i|].
    by apply label_pattern.
Qed.
Lemma has_substring_ok p : no_brace p ->
  exists b, has_substring f (PStr p) = Ok b (f_rt f) /\ (b = true <-> is_prefix (labels w) p).
Proof.
  intros Hp. unfold has_substring.
  destruct (has_prefix_ok (f_rt f) L (labels w) p (i_shape _ _ _ I)) as [H|(q & r & Hf & _)]; [done|].
  by apply falls_brace in Hf.
Qed.

Lemma all_leafwords l : l ∈ labels w -> leafword (labels w) l.
Proof.
  intros Hl. split; [done|]. intros v (j & Hj & ->)%elem_labels.
  apply elem_labels in Hl as (i & Hi & ->). intros H. f_equal. symmetry.
  by apply (label_prefix w); [apply (i_dollar _ _ _ I)|..].
Qed.
Lemma count_ok p : no_brace p -> p <> [] ->
  exists o, count_occurrences f (PStr p) = Ok (length o) (f_rt f) /\ NoDup o /\
    forall v, v ∈ o <-> v ∈ labels w /\ p `prefix_of` v.
Proof.
  intros Hb Hp. pose proof (i_shape _ _ _ I) as T. pose proof (x_rep _ _ _ _ T) as R.
  unfold count_occurrences.
  destruct (follow_ok (f_rt f) L p R) as [(j & q & rem & E & Hj & -> & Hst)|(q & r & Hf & _)].
  2:{ by apply falls_brace in Hf. }
  rewrite (bind_ok _ _ _ _ _ E).
  assert (forall i p' n, L !! i = Some p' -> t_nodes (f_rt f) !! i = Some n -> p' <> [] ->
     (forall v, v ∈ labels w -> p' `prefix_of` v <-> q ++ rem `prefix_of` v) ->
     exists o, (if bool_decide (Some i = Some (t_root (f_rt f))) then ret 0 else count_leaves_below i) (f_rt f)
       = Ok (length o) (f_rt f) /\ NoDup o /\ forall v, v ∈ o <-> v ∈ labels w /\ q ++ rem `prefix_of` v) as Hfin.
  { intros i p' n Hi Hn Hne Hiff. rewrite bool_decide_eq_false_2.
    2:{ intros [= ->]. rewrite (r_root _ _ R) in Hi. congruence. }
    destruct (count_leaves_ok _ _ _ _ _ _ T Hi Hn (or_introl Hne)) as (o & Eo & Hno & Ho).
    exists o. split_and!; try done. intros v. rewrite Ho. split.
    - intros [[Hv _] H]. split; [done|]. by apply Hiff.
    - intros [Hv H]. split; [by apply all_leafwords|]. by apply Hiff. }
  destruct rem as [|k rem].
  - rewrite (bind_ok _ _ _ (Some (Some j)) (f_rt f)) by done. rewrite (bind_ok _ _ _ (f_rt f) (f_rt f)) by done.
    destruct (x_node _ _ _ _ _ _ T Hj) as (n & Hn).
    rewrite app_nil_r in *. by apply (Hfin j q n).
  - destruct (x_node _ _ _ _ _ _ T Hj) as (n & Hn).
    destruct (dget k (n_children n)) as [c|] eqn:Hd.
    + destruct (child_of _ _ _ _ _ _ _ R Hj Hn (dget_in _ _ _ Hd)) as (m & r & Hm & Hpar & Hr & HL).
      destruct (decide (take (length (k :: rem)) (n_data m) = k :: rem)) as [Ht|Ht].
      * rewrite (bind_ok _ _ _ (Some (Some c)) (f_rt f)).
        2:{ rewrite (bind_ok _ _ _ j (f_rt f)) by done. rewrite (bind_ok _ _ _ _ _ (get_child_eq _ _ _ k Hn)), Hd.
            rewrite (bind_ok _ _ _ _ _ (data_or_eq _ _ _ _ Hm)). by rewrite bool_decide_eq_true_2. }
        rewrite (bind_ok _ _ _ (f_rt f) (f_rt f)) by done.
        apply (Hfin c (q ++ k :: r) m); [done..|by destruct q|].
        symmetry in Ht. apply prefix_test in Ht. rewrite Hr in Ht.
        intros v Hv. split; [intros H; etrans; [by apply prefix_app|done]|].
        intros [t ->]. destruct (x_live _ _ _ _ T _ Hv) as (b & HLb). rewrite <- (assoc (++)) in HLb |- *.
        destruct (child_data_split _ _ _ _ _ _ _ _ _ R Hj Hn (dget_in _ _ _ Hd) HLb) as (m' & r' & Hm' & Hr' & _ & Hp').
        rewrite Hm in Hm'. injection Hm' as <-. rewrite Hr in Hr'. injection Hr' as <-.
        apply prefix_app. cbn. by apply prefix_cons.
      * rewrite (bind_ok _ _ _ None (f_rt f)).
        2:{ rewrite (bind_ok _ _ _ j (f_rt f)) by done. rewrite (bind_ok _ _ _ _ _ (get_child_eq _ _ _ k Hn)), Hd.
            rewrite (bind_ok _ _ _ _ _ (data_or_eq _ _ _ _ Hm)). by rewrite bool_decide_eq_false_2. }
        exists []. split; [done|]. split; [constructor|]. intros v. split; [by intros ?%elem_of_nil|].
        intros [Hv [t ->]]. exfalso. destruct (x_live _ _ _ _ T _ Hv) as (b & HLb). rewrite <- (assoc (++)) in HLb.
        destruct (stuck_below _ _ _ _ _ _ _ _ _ R Hj Hn Hst HLb) as (c' & m' & Hd' & Hm' & Hp').
        apply Ht. symmetry. apply prefix_test. congruence.
    + rewrite (bind_ok _ _ _ None (f_rt f)).
      2:{ rewrite (bind_ok _ _ _ j (f_rt f)) by done. rewrite (bind_ok _ _ _ _ _ (get_child_eq _ _ _ k Hn)), Hd.
          rewrite (bind_ok (A:=pystr) _ _ _ [] (f_rt f)) by done. done. }
      exists []. split; [done|]. split; [constructor|]. intros v. split; [by intros ?%elem_of_nil|].
      intros [Hv [t ->]]. exfalso. destruct (x_live _ _ _ _ T _ Hv) as (b & HLb). rewrite <- (assoc (++)) in HLb.
      by destruct (nav_fresh _ _ _ _ _ _ _ _ R Hj Hn Hd HLb).
Qed.
Lemma count_occurrences_ok p : no_dollar p -> no_brace p -> p <> [] ->
  exists n, count_occurrences f (PStr p) = Ok n (f_rt f) /\ occurrences w p n.
Proof.
  intros Hd Hb Hp. destruct (count_ok p Hb Hp) as (o & E & Hno & Ho). exists (length o). split; [done|].
  exists (filter (fun i => p `prefix_of` drop i w) (seq 0 (S (length w)))).
  split; [apply NoDup_filter, NoDup_seq|]. split.
  - intros i. rewrite elem_of_list_filter, elem_of_seq, occurs_at_drop. split; intros [? ?]; (split; [|done || lia]); done || lia.
  - rewrite <- (map_length (label w)). apply Permutation_length, NoDup_Permutation; [|done|].
    + apply NoDup_fmap_2_strong; [|apply NoDup_filter, NoDup_seq].
      intros i j [_ Hi%elem_of_seq]%elem_of_list_filter [_ Hj%elem_of_seq]%elem_of_list_filter.
      apply label_inj; [apply (i_dollar _ _ _ I)|lia..].
    + intros v. rewrite Ho, elem_of_list_fmap, elem_labels. split.
      * intros (i & -> & [Hpre Hi%elem_of_seq]%elem_of_list_filter). split; [exists i; split; [lia|done]|].
        by apply label_pattern.
      * intros [(i & Hi & ->) Hpre]. exists i. split; [done|]. apply elem_of_list_filter.
        split; [by apply label_pattern in Hpre|]. apply elem_of_seq. lia.
Qed.
Lemma leaf_count_ok : suffix_leaves f = Ok (S (length w)) (f_rt f).
Proof.
  unfold suffix_leaves. destruct (leaves_total_ok _ _ _ (i_shape _ _ _ I)) as (o & E & Hno & Ho).
  rewrite E. f_equal. rewrite <- (seq_length (S (length w)) 0), <- (map_length (label w)).
  apply Permutation_length, NoDup_Permutation; [done|..].
  - apply NoDup_fmap_2_strong; [|apply NoDup_seq]. intros i j Hi%elem_of_seq Hj%elem_of_seq.
    apply label_inj; [apply (i_dollar _ _ _ I)|lia..].
  - intros v. rewrite Ho, elem_of_list_fmap. split.
    + intros [(i & Hi & ->)%elem_labels _]. exists i. split; [done|]. apply elem_of_seq. lia.
    + intros (i & -> & Hi%elem_of_seq). apply all_leafwords. apply elem_labels. exists i. split; [lia|done].
Qed.

(** ** Ancestors *)
Lemma ancestors_loop_ok : forall fuel j q, L !! j = Some q -> shallower L (length q) < fuel ->
  exists l, ancestors_loop fuel (Some j) (f_rt f) = Ok l (f_rt f) /\ mjoin (rev l) = q.
Proof.
  pose proof (i_shape _ _ _ I) as T. pose proof (x_rep _ _ _ _ T) as R.
  induction fuel as [|fuel IH]; intros j q Hj Hf; [lia|]. cbn [ancestors_loop].
  rewrite (bind_ok _ _ _ (f_rt f) (f_rt f)) by done. case_bool_decide as Hr.
  - injection Hr as ->. rewrite (r_root _ _ R) in Hj. injection Hj as <-. by exists [].
  - rewrite (bind_ok _ _ _ j (f_rt f)) by done. destruct (x_node _ _ _ _ _ _ T Hj) as (n & Hn).
    rewrite (bind_ok _ _ _ _ _ (rd_eq _ _ _ Hn)).
    destruct (parent_of _ _ _ _ _ R Hj Hn) as (j' & q' & m & k & Hpar & Hj' & _ & _ & Hh & -> & _).
    { intros ->. apply Hr. f_equal. by apply (path_root _ _ _ R). }
    rewrite Hpar. apply head_cons in Hh as (r & Hd). destruct (IH j' q' Hj') as (l & El & Hl).
    { pose proof (shallower_lt L j' q' (length (q' ++ n_data n)) Hj') as H.
      rewrite Hd, app_length in H, Hf. cbn in H, Hf. lia. }
    rewrite (bind_ok _ _ _ _ _ El). eexists. split; [done|]. cbn [rev].
    rewrite mjoin_app_, Hl. f_equal. change (n_data n ++ [] = n_data n). by rewrite app_nil_r.
Qed.
Lemma ancestors_ok i p : L !! i = Some p -> p <> [] ->
  exists j q n, ancestors_data i (f_rt f) = Ok q (f_rt f) /\ t_nodes (f_rt f) !! i = Some n /\ n_parent n = Some j /\
    L !! j = Some q /\ n_data n <> [] /\ p = q ++ n_data n /\
    forall a z, L !! a = Some z -> z `prefix_of` p -> z = p \/ z `prefix_of` q.
Proof.
  pose proof (i_shape _ _ _ I) as T. pose proof (x_rep _ _ _ _ T) as R. intros Hi Hp.
  destruct (x_node _ _ _ _ _ _ T Hi) as (n & Hn).
  destruct (parent_of _ _ _ _ _ R Hi Hn Hp) as (j & q & m & k & Hpar & Hj & _ & _ & Hh & Hpq & Hmax).
  unfold ancestors_data. rewrite (bind_ok _ _ _ (f_rt f) (f_rt f)) by done.
  rewrite bool_decide_eq_false_2 by (intros ->; rewrite (r_root _ _ R) in Hi; congruence).
  rewrite (bind_ok _ _ _ _ _ (rd_eq _ _ _ Hn)), Hpar.
  destruct (ancestors_loop_ok (S (length (t_nodes (f_rt f)))) j q Hj) as (l & El & Hl).
  { pose proof (shallower_le _ _ (length q) R). lia. }
  rewrite (bind_ok _ _ _ _ _ El), Hl. exists j, q, n. split_and!; try done. by intros H; rewrite H in Hh.
Qed.
End Queries.

(** ** Longest common prefixes *)
Lemma lcp_exists (a b : word) : exists a' b', a = get_lcp a b ++ a' /\ b = get_lcp a b ++ b' /\
  (a' = [] \/ b' = [] \/ exists x y u v, a' = x :: u /\ b' = y :: v /\ x <> y).
Proof. apply get_lcp_spec. Qed.
Lemma lcp_max (a b d : word) : d `prefix_of` a -> d `prefix_of` b -> d `prefix_of` get_lcp a b.
Proof.
  destruct (get_lcp_spec a b) as (a' & b' & Ha & Hb & Hdiff). set (c := get_lcp a b) in *. clearbody c.
  intros H1 H2. rewrite Ha in H1. rewrite Hb in H2.
  destruct (prefix_weak_total d c (c ++ a')) as [H|[t ->]]; [done|by eexists|done|].
  apply prefix_app_inv in H1. apply prefix_app_inv in H2.
  destruct t as [|z t]; [by rewrite app_nil_r|]. exfalso.
  destruct Hdiff as [->|[->|(x & y & u & v & -> & -> & Hne)]].
  - by apply prefix_nil_inv in H1.
  - by apply prefix_nil_inv in H2.
  - apply prefix_cons_inv_1 in H1. apply prefix_cons_inv_1 in H2. congruence.
Qed.
Lemma get_lcp_is_lcp a b : longest_common_prefix a b (get_lcp a b).
Proof.
  destruct (get_lcp_spec a b) as (a' & b' & Ha & Hb & _). split; [by exists a'|]. split; [by exists b'|].
  intros d. apply lcp_max.
Qed.
Lemma lcp_unique a b c c' : longest_common_prefix a b c -> longest_common_prefix a b c' -> c = c'.
Proof.
  intros (H1 & H2 & H3) (H1' & H2' & H3'). apply (anti_symm prefix); [by apply H3'|by apply H3].
Qed.
(** Two different suffixes part before the end of both labels. *)
Lemma labels_part w i j : no_dollar w -> i <= length w -> j <= length w -> i <> j ->
  exists c x y u v, label w i = c ++ x :: u /\ label w j = c ++ y :: v /\ x <> y /\
    longest_common_prefix (drop i w) (drop j w) c.
Proof.
  intros Hw Hi Hj Hij. destruct (get_lcp_spec (label w i) (label w j)) as (a & b & Ha & Hb & Hdiff).
  set (c := get_lcp (label w i) (label w j)) in *.
  destruct Hdiff as [->|[->|(x & y & u & v & -> & -> & Hne)]].
  { exfalso. apply Hij. apply (label_prefix w); try done. exists b. rewrite app_nil_r in Ha. congruence. }
  { exfalso. apply Hij. symmetry. apply (label_prefix w); try done. exists a. rewrite app_nil_r in Hb. congruence. }
  exists c, x, y, u, v. split; [done|]. split; [done|]. split; [done|].
  assert (no_dollar c) as Hc.
  { intros Hin. apply elem_of_list_split in Hin as (l1 & l2 & Hc).
    assert (exists l1 l2, c = l1 ++ DOLLAR :: l2 /\ no_dollar l1) as (d1 & d2 & Hd & Hnd).
    { clear -Hc. revert l1 l2 Hc. generalize c. clear c. induction c as [|z c IH]; intros l1 l2 Hc; [by destruct l1|].
      destruct (decide (z = DOLLAR)) as [->|Hz]; [exists [], c; split; [done|]; by intros ?%elem_of_nil|].
      destruct l1 as [|z' l1]; [by injection Hc as -> _|]. injection Hc as <- Hc.
      destruct (IH _ _ Hc) as (d1 & d2 & -> & Hd). exists (z :: d1), d2. split; [done|].
      intros [?|?]%elem_of_cons; [by apply Hz|by apply Hd]. }
    rewrite Hd, <- (assoc (++)) in Ha, Hb. cbn in Ha, Hb. rewrite label_cons in Ha, Hb.
    apply dollar_cut in Ha as [Ha _]; [|by apply no_dollar_drop|done].
    apply dollar_cut in Hb as [Hb _]; [|by apply no_dollar_drop|done].
    rewrite <- Hb in Ha. apply (f_equal length) in Ha. rewrite !drop_length in Ha. lia. }
  split; [apply (label_pattern w c i); [done|]; rewrite Ha; by eexists|].
  split; [apply (label_pattern w c j); [done|]; rewrite Hb; by eexists|].
  intros d H1 H2. apply lcp_max; [etrans; [exact H1|]|etrans; [exact H2|]]; eexists; apply label_cons.
Qed.
Section Lca.
Context (f : sfx) (w : word) (L : gmap nat word) (I : sinv f w L).
Lemma leaf_at i : i <= length w -> exists x, f_leaves f !! i = Some x /\ L !! x = Some (label w i).
Proof.
  intros Hi. destruct (lookup_lt_is_Some_2 (f_leaves f) i) as (x & Hx).
  { rewrite (i_leaves _ _ _ I). lia. }
  exists x. split; [done|]. by apply (i_leaf _ _ _ I).
Qed.
Lemma lca_ok i j : i < length w -> j <= length w -> i <> j ->
  exists c, lowest_common_ancestor f (PInt (Z.of_nat i)) (PInt (Z.of_nat j)) = Ok c (f_rt f) /\
    longest_common_prefix (drop i w) (drop j w) c.
Proof.
  intros Hi Hj Hij. pose proof (i_shape _ _ _ I) as T. pose proof (x_rep _ _ _ _ T) as R.
  destruct (leaf_at i ltac:(lia)) as (a & Ha & HLa). destruct (leaf_at j Hj) as (b & Hb & HLb).
  destruct (ancestors_ok f w L I a _ HLa (label_nil w i)) as (pa & qa & na & Ea & _ & _ & Hpa & Hda & Hqa & Hma).
  destruct (ancestors_ok f w L I b _ HLb (label_nil w j)) as (pb & qb & nb & Eb & _ & _ & Hpb & Hdb & Hqb & Hmb).
  exists (get_lcp qa qb). split.
  - cbn. rewrite (i_word _ _ _ I).
    rewrite !(proj2 (Z.ltb_ge _ _)) by lia. rewrite (proj2 (Z.leb_gt _ _)) by lia. cbn [orb].
    rewrite (bind_ok _ _ _ a (f_rt f)) by (unfold leaf_node; by rewrite Nat2Z.id, Ha).
    rewrite (bind_ok _ _ _ _ _ Ea).
    rewrite (bind_ok _ _ _ b (f_rt f)) by (unfold leaf_node; by rewrite Nat2Z.id, Hb).
    by rewrite (bind_ok _ _ _ _ _ Eb).
  - destruct (labels_part w i j (i_dollar _ _ _ I) ltac:(lia) Hj Hij) as (c & x & y & u & v & Hli & Hlj & Hxy & Hc).
    assert (get_lcp qa qb = c) as ->; [|done].
    rewrite Hli in HLa. rewrite Hlj in HLb.
    destruct (parting _ _ _ _ _ _ _ _ _ R HLa HLb Hxy) as (e & He).
    assert (c `prefix_of` qa) as H1.
    { destruct (Hma e c He) as [E|?]; [rewrite Hli; by eexists| |done].
      exfalso. rewrite Hli in E. apply (f_equal length) in E. rewrite app_length in E. cbn in E. lia. }
    assert (c `prefix_of` qb) as H2.
    { destruct (Hmb e c He) as [E|?]; [rewrite Hlj; by eexists| |done].
      exfalso. rewrite Hlj in E. apply (f_equal length) in E. rewrite app_length in E. cbn in E. lia. }
    apply (anti_symm prefix); [|by apply lcp_max].
    destruct (get_lcp_is_lcp qa qb) as (H3 & H4 & _).
    assert (get_lcp qa qb `prefix_of` c ++ x :: u) as H5. { rewrite <- Hli, Hqa. etrans; [exact H3|]. by eexists. }
    assert (get_lcp qa qb `prefix_of` c ++ y :: v) as H6. { rewrite <- Hlj, Hqb. etrans; [exact H4|]. by eexists. }
    destruct (prefix_weak_total (get_lcp qa qb) c (c ++ x :: u)) as [H|[t Ht]]; [done|by eexists|done|].
    destruct t as [|z t]; [by rewrite Ht, app_nil_r|]. exfalso. rewrite Ht in H5, H6.
    apply prefix_app_inv in H5. apply prefix_app_inv in H6.
    apply prefix_cons_inv_1 in H5. apply prefix_cons_inv_1 in H6. congruence.
Qed.
End Lca.
