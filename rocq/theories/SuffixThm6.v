(** * SuffixTrie: searches for any pattern *)
From Coq Require Import Sorted.
From stdpp Require Import gmap.
From Verif Require Import Base TrieModel TrieRep TrieSpec TrieThm TrieThm2 TrieThm3 TrieThm4 TrieProps
  SuffixThm3 SuffixModel SuffixSpec SuffixDeepSpec SuffixFindSpec SuffixThm SuffixThm2 SuffixThm4 SuffixThm5.
Local Open Scope py_scope.

Section Find.
Context (f : sfx) (w : word) (L : gmap nat word) (I : sinv f w L) (Hb : no_brace w).
Notation s := (f_rt f).

Lemma digits_brace u : 125%N ∉ digits u.
Proof.
  induction u as [| u IH | u IH | u IH | u IH | u IH | u IH | u IH | u IH | u IH | u IH]; cbn [digits];
    [by intros ?%elem_of_nil|intros [?|?]%elem_of_cons; [done|by apply IH]..].
Qed.
Lemma label_brace i : 125%N ∉ label w i.
Proof.
  unfold label. rewrite !not_elem_of_app. split; [|split].
  - intros H. apply Hb. rewrite <- (take_drop i w). apply elem_of_app. by right.
  - unfold MARK. set_solver.
  - apply digits_brace.
Qed.
Lemma falls_lost p q r : falls s L p q r <->
  p = q ++ 125%N :: r /\ (q = [] \/ suffixes_part_at w q \/ exists i, i <= length w /\ q = marked w i).
Proof.
  pose proof (i_shape _ _ _ I) as T. pose proof (x_rep _ _ _ _ T) as R. split.
  - intros (-> & j & nj & Hj & Hnj & _). split; [done|]. destruct (decide (w = [])) as [Hw|Hw].
    + destruct (decide (q = [])) as [->|Hq]; [by left|]. right. right. exists 0. split; [lia|].
      destruct (i_branch _ _ _ I _ _ Hj) as [?|[(i & Hi & ->)%elem_labels|(x & y & u & v & Hxy & H1 & H2)]]; [done| |].
      * rewrite Hw in Hi |- *. cbn in Hi. by replace i with 0 by lia.
      * exfalso. apply elem_labels in H1 as (a & Ha & E1). apply elem_labels in H2 as (b & Hb' & E2).
        rewrite Hw in Ha, Hb'. cbn in Ha, Hb'. assert (a = 0) as -> by lia. assert (b = 0) as -> by lia.
        rewrite <- E2 in E1. apply app_inv_head in E1. congruence.
    + destruct (n_children nj) as [|[k c] cs] eqn:Hcs.
      * destruct (decide (q = [])) as [->|Hq]; [by left|]. right. right.
        destruct (ext' s L (labels w) j q T Hj Hq) as (t & Ht).
        destruct (x_live _ _ _ _ T _ Ht) as (b & HLb). destruct t as [|k t].
        -- rewrite app_nil_r in Ht. by apply elem_labels in Ht.
        -- destruct (nav _ _ R _ _ _ _ _ _ Hj Hnj HLb) as (c & m & Hin & _). rewrite Hcs in Hin. by apply elem_of_nil in Hin.
      * right. left. eapply (inner_parts f w L I Hw j q nj k c); [done..|]. rewrite Hcs. left.
  - intros (-> & Hq). split; [done|].
    assert (exists j, L !! j = Some q) as (j & Hj).
    { destruct Hq as [->|[H|(i & Hi & ->)]]; [exists (t_root s); apply (r_root _ _ R)| |].
      - destruct (parts_inner f w L I q H) as (i & _ & _ & _ & Hi & _). by exists i.
      - destruct (leaf_at _ _ _ I i Hi) as (j & _ & Hj). by exists j. }
    destruct (x_node _ _ _ _ _ _ T Hj) as (nj & Hnj). exists j, nj. split; [done|]. split; [done|].
    destruct (dget RBRACE (n_children nj)) as [c|] eqn:Hd; [|done]. exfalso.
    destruct (child_of _ _ _ _ _ _ _ R Hj Hnj (dget_in _ _ _ Hd)) as (m & r' & Hm & _ & Hr & HL).
    destruct (ext' s L (labels w) c _ T HL) as (t & (i & _ & Ht)%elem_labels); [by destruct q|].
    apply (label_brace i). rewrite <- Ht. set_solver.
Qed.
Lemma count_lost p q r : falls s L p q r -> count_occurrences f (PStr p) = match r with [] => Exc AssertionError s | _ => Exc AttributeError s end.
Proof.
  intros Hf. pose proof (x_rep _ _ _ _ (i_shape _ _ _ I)) as R. pose proof (falls_follow _ _ _ _ _ R Hf) as E.
  unfold count_occurrences. destruct r; [|by rewrite (bind_exc _ _ _ _ _ E)].
  rewrite (bind_ok _ _ _ _ _ E). cbv beta iota. rewrite (bind_ok _ _ _ (Some None) s) by done.
  rewrite (bind_ok _ _ _ s s) by done. by rewrite bool_decide_eq_false_2.
Qed.
Lemma has_lost p q r : falls s L p q r -> has_substring f (PStr p) = match r with [] => Ok true s | _ => Exc AttributeError s end.
Proof.
  intros Hf. pose proof (x_rep _ _ _ _ (i_shape _ _ _ I)) as R. pose proof (falls_follow _ _ _ _ _ R Hf) as E.
  unfold has_substring, trie_has_prefix. destruct r; [by rewrite (bind_ok _ _ _ _ _ E)|by rewrite (bind_exc _ _ _ _ _ E)].
Qed.
(** A pattern with a brace that is not lost is nowhere. *)
Lemma count_brace p : ~ (exists q r, falls s L p q r) -> ~ no_brace p -> count_occurrences f (PStr p) = Ok 0 s.
Proof.
  intros Hnf Hbr. pose proof (i_shape _ _ _ I) as T. pose proof (x_rep _ _ _ _ T) as R. unfold count_occurrences.
  assert (~ is_prefix (labels w) p) as Hno.
  { intros [->|(v & (i & _ & ->)%elem_labels & t & Ht)]; [apply Hbr; by intros ?%elem_of_nil|].
    apply Hbr. intros Hin. apply (label_brace i). rewrite Ht. set_solver. }
  destruct (follow_ok s L p R) as [(j & q & rem & E & Hj & -> & Hst)|(q & r & Hf & _)]; [|destruct Hnf; by eauto].
  rewrite (bind_ok _ _ _ _ _ E). destruct (x_node _ _ _ _ _ _ T Hj) as (n & Hn). destruct rem as [|k rem].
  - exfalso. apply Hno. rewrite app_nil_r. destruct (decide (q = [])); [by left|]. right.
    destruct (ext' s L (labels w) j q T Hj) as (t & Ht); [done|]. exists (q ++ t). split; [done|by eexists].
  - destruct (dget k (n_children n)) as [c|] eqn:Hd.
    + destruct (child_of _ _ _ _ _ _ _ R Hj Hn (dget_in _ _ _ Hd)) as (m & r & Hm & Hpar & Hr & HL).
      rewrite (bind_ok _ _ _ None s); [done|].
      rewrite (bind_ok _ _ _ j s) by done. rewrite (bind_ok _ _ _ _ _ (get_child_eq _ _ _ k Hn)), Hd.
      rewrite (bind_ok _ _ _ _ _ (data_or_eq _ _ _ _ Hm)). rewrite bool_decide_eq_false_2; [done|].
      intros Ht. symmetry in Ht. apply prefix_test in Ht. rewrite Hr in Ht. apply Hno. right.
      destruct (ext' s L (labels w) c _ T HL) as (t & Ht'); [by destruct q|]. exists ((q ++ k :: r) ++ t). split; [done|].
      apply prefix_app_r. by apply prefix_app.
    + rewrite (bind_ok _ _ _ None s); [done|].
      rewrite (bind_ok _ _ _ j s) by done. rewrite (bind_ok _ _ _ _ _ (get_child_eq _ _ _ k Hn)), Hd.
      by rewrite (bind_ok (A:=pystr) _ _ _ [] s) by done.
Qed.
Lemma found_elem p v : (v ∈ labels w /\ p `prefix_of` v) <-> exists i, v = marked w i /\ found_at w p i.
Proof.
  rewrite elem_labels. split.
  - intros [(i & Hi & ->) Hp]. by exists i.
  - intros (i & -> & Hi & Hp). split; [by exists i|done].
Qed.
Lemma find_exact p :
  (forall r, lost w p r ->
     has_substring f (PStr p) = match r with [] => Ok true s | _ => Exc AttributeError s end /\
     count_occurrences f (PStr p) = match r with [] => Exc AssertionError s | _ => Exc AttributeError s end) /\
  ((~ exists r, lost w p r) ->
     (exists b, has_substring f (PStr p) = Ok b s /\ (b = true <-> p = [] \/ exists i, found_at w p i)) /\
     (exists l, NoDup l /\ (forall i, i ∈ l <-> found_at w p i) /\
        count_occurrences f (PStr p) = Ok (if bool_decide (p = []) then 0 else length l) s)).
Proof.
  pose proof (i_shape _ _ _ I) as T. split.
  - intros r (q & Hl). apply falls_lost in Hl. split; [by eapply has_lost|by eapply count_lost].
  - intros Hl. assert (~ exists q r, falls s L p q r) as Hnf.
    { intros (q & r & Hf). apply Hl. exists r, q. by apply falls_lost. }
    split.
    + unfold has_substring. destruct (has_prefix_ok s L (labels w) p T) as [(b & E & H)|(q & r & Hf & _)]; [|destruct Hnf; by eauto].
      exists b. split; [done|]. rewrite H. unfold is_prefix. split; (intros [?|H']; [by left|right]).
      * destruct H' as (v & H'). apply found_elem in H' as (i & _ & Hi). by exists i.
      * destruct H' as (i & Hi). exists (marked w i). apply found_elem. by exists i.
    + set (l := filter (fun i => p `prefix_of` label w i) (seq 0 (S (length w)))).
      assert (forall i, i ∈ l <-> found_at w p i) as Hin.
      { intros i. unfold l, found_at. rewrite elem_of_list_filter, elem_of_seq. change (marked w i) with (label w i). split; intros [? ?]; (split; [done || lia|done || lia]). }
      exists l. split; [apply NoDup_filter, NoDup_seq|]. split; [done|].
      destruct (bool_decide_reflect (p = [])) as [->|Hp].
      { unfold count_occurrences. cbn. unfold bind. cbn. by rewrite bool_decide_eq_true_2. }
      destruct (decide (no_brace p)) as [Hbp|Hbp].
      * destruct (count_ok _ _ _ I p Hbp Hp) as (o & -> & Hno & Ho). f_equal. rewrite <- (map_length (label w) l).
        apply Permutation_length, NoDup_Permutation; [done| |].
        -- apply NoDup_fmap_2_strong; [|apply NoDup_filter, NoDup_seq].
           intros i j [_ Hi%elem_of_seq]%elem_of_list_filter [_ Hj%elem_of_seq]%elem_of_list_filter.
           apply label_inj; [apply (i_dollar _ _ _ I)|lia..].
        -- intros v. rewrite Ho, found_elem, elem_of_list_fmap. split; intros (i & -> & Hi); exists i; (split; [done|]); by apply Hin.
      * rewrite count_brace by done. f_equal. destruct l as [|i l'] eqn:El; [done|]. exfalso.
        destruct (proj1 (Hin i)) as (_ & t & Ht); [left|]. apply Hbp. intros H. apply (label_brace i).
        change (label w i) with (marked w i). rewrite Ht. set_solver.
Qed.
End Find.

(** ** The suffix array *)
Lemma suffix_array_exact f w L : sinv f w L ->
  to_suffix_array f ≡ₚ seq 0 (S (length w)) /\
  StronglySorted (fun i j => lex_lt (sort_key w i) (sort_key w j)) (to_suffix_array f).
Proof.
  intros I. split; [by eapply suffix_array_perm|]. pose proof (i_dollar _ _ _ I) as Hw.
  pose proof (py_sorted_sorted _ (pairs_keys w Hw)) as Hs.
  assert (forall a, a ∈ py_sorted (suffix_pairs w) -> snd a = sort_key w (fst a)) as Hel.
  { intros [i k]. rewrite py_sorted_perm, pairs_elem. unfold sort_key. cbn. intros [[Hi ->]|[-> ->]].
    - rewrite bool_decide_eq_false_2; [done|lia].
    - by rewrite bool_decide_eq_true_2. }
  unfold to_suffix_array. rewrite (i_array _ _ _ I). eapply map_ss; [exact Hs|].
  intros a b Ha%Hel Hb%Hel. unfold by_key. by rewrite Ha, Hb.
Qed.

(** ** The lowest common ancestor of a leaf and itself *)
Lemma lca_self f w L i : sinv f w L -> i < length w ->
  exists c, lowest_common_ancestor f (PInt (Z.of_nat i)) (PInt (Z.of_nat i)) = Ok c (f_rt f) /\ longest_repeated_beginning w i c.
Proof.
  intros I Hi. pose proof (i_shape _ _ _ I) as T. pose proof (x_rep _ _ _ _ T) as R.
  assert (w <> []) as Hw by (intros ->; cbn in Hi; lia).
  destruct (leaf_at f w L I i ltac:(lia)) as (a & Ha & HLa).
  destruct (ancestors_ok f w L I a _ HLa (label_nil w i)) as (pa & qa & na & Ea & Hna & _ & Hpa & Hda & Hqa & Hma).
  exists qa. split.
  - cbn. rewrite (i_word _ _ _ I).
    rewrite !(proj2 (Z.ltb_ge _ _)) by lia. rewrite (proj2 (Z.leb_gt _ _)) by lia. cbn [orb].
    rewrite (bind_ok _ _ _ a (f_rt f)) by (unfold leaf_node; by rewrite Nat2Z.id, Ha).
    rewrite (bind_ok _ _ _ _ _ Ea).
    rewrite (bind_ok _ _ _ a (f_rt f)) by (unfold leaf_node; by rewrite Nat2Z.id, Ha).
    rewrite (bind_ok _ _ _ _ _ Ea). unfold ret. f_equal.
    destruct (get_lcp_is_lcp qa qa) as (H1 & _ & H2). apply (anti_symm prefix); [done|by apply H2].
  - assert (suffixes_part_at w qa) as Hpart.
    { destruct (x_node _ _ _ _ _ _ T Hpa) as (m & Hm). destruct (n_data na) as [|k d] eqn:Hd; [done|].
      rewrite Hqa in HLa. destruct (nav _ _ R _ _ _ _ _ _ Hpa Hm HLa) as (c & _ & Hin & _). by apply (inner_parts f w L I Hw pa qa m k c). }
    destruct Hpart as (x & y & Hxy & Hx & Hy & H1 & H2 & _).
    assert (no_dollar qa) as Hnd.
    { intros Hin. apply (i_dollar _ _ _ I). rewrite <- (take_drop x w). destruct H1 as [t ->]. set_solver. }
    split; [|split].
    + apply (label_pattern w qa i Hnd). rewrite Hqa. by eexists.
    + destruct (decide (x = i)) as [->|Hxi]; [exists y|exists x]; (split; [congruence|]); by rewrite occurs_at_drop.
    + intros d k Hd Hki Hk. apply occurs_at_drop in Hk as [Hk Hdk].
      destruct (labels_part w i k (i_dollar _ _ _ I) ltac:(lia) Hk ltac:(done)) as (c & x' & y' & u & v & Hli & Hlj & Hne & _ & _ & Hc).
      destruct (leaf_at f w L I k Hk) as (b & _ & HLb).
      rewrite Hli in HLa. rewrite Hlj in HLb. destruct (parting _ _ _ _ _ _ _ _ _ R HLa HLb Hne) as (e & He).
      etrans; [apply prefix_length, (Hc d Hd Hdk)|]. apply prefix_length.
      destruct (Hma e c He) as [E|?]; [rewrite Hli; by eexists| |done].
      exfalso. rewrite Hli in E. apply (f_equal length) in E. rewrite app_length in E. cbn in E. lia.
Qed.
