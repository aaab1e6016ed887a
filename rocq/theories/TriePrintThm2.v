(** * Proofs about the printed form and the list of a SuffixTrie *)
From stdpp Require Import gmap.
From Verif Require Import Base TreeModel PrintModel PrintSpec PrintThm TrieModel TrieRep TrieSpec TrieSpec2 TrieThm TrieThm2 TrieThm5 TrieThm6
  SuffixModel SuffixSpec SuffixThm SuffixThm2 TriePrintModel TriePrintSpec TriePrintThm TrieProps2.
Local Open Scope py_scope.

(** ** No node of a SuffixTrie is marked *)
Definition unmarked (s : ts) : Prop := forall i n, t_nodes s !! i = Some n -> n_word n = false.
(** [m] leaves the nodes unmarked. *)
Definition quiet {A} (m : M ts A) : Prop := forall s a s', m s = Ok a s' -> unmarked s -> unmarked s'.
Lemma quiet_bind {A B} (m : M ts A) (f : A -> M ts B) : quiet m -> (forall a, quiet (f a)) -> quiet (bind m f).
Proof. intros Hm Hf s a s'. unfold bind. destruct (m s) as [b s1| |] eqn:E; try done. intros E' H. eapply Hf; [exact E'|]. by eapply Hm. Qed.
Lemma quiet_ret {A} (a : A) : quiet (ret a).
Proof. by intros s b s' [= <- <-]. Qed.
Lemma quiet_raise {A} e : quiet (A := A) (raise e).
Proof. done. Qed.
Lemma quiet_diverge {A} : quiet (A := A) diverge.
Proof. done. Qed.
Lemma quiet_deref (o : option nat) : quiet (A := nat) (deref o).
Proof. destruct o; [apply quiet_ret|done]. Qed.
Lemma quiet_assert b : quiet (A := unit) (py_assert b).
Proof. destruct b; [apply quiet_ret|done]. Qed.
Lemma quiet_rd_wr {A} (i : nat) (f : tnode -> tnode) (k : tnode -> M ts A) : (forall n, n_word (f n) = n_word n) -> (forall n, quiet (k n)) ->
  quiet (let! n := rd i in wr i (f n) ;; k n).
Proof.
  intros Hf Hk s a s'. unfold bind, rd. destruct (t_nodes s !! i) as [n|] eqn:En; [|done]. cbn. intros E H. eapply Hk; [exact E|].
  intros j m. cbn. destruct (decide (j = i)) as [->|Hne].
  - rewrite list_lookup_insert by (by eapply lookup_lt_Some). intros [= <-]. rewrite Hf. by eapply H.
  - rewrite list_lookup_insert_ne by done. apply H.
Qed.
Lemma quiet_update (i : nat) (f : tnode -> tnode) : (forall n, n_word (f n) = n_word n) -> quiet (let! n := rd i in wr i (f n)).
Proof.
  intros Hf s a s' E. apply (quiet_rd_wr i f (fun _ => ret a) Hf (fun _ => quiet_ret a) s a s'). revert E. unfold bind.
  destruct (rd i s) as [n s1| |]; try done. cbn. intros [= _ <-]. done.
Qed.
Lemma quiet_rd i : quiet (rd i).
Proof. intros s a s'. unfold rd. destruct (t_nodes s !! i); [|done]. by intros [= _ <-]. Qed.
Lemma quiet_new_node d : quiet (new_node d).
Proof.
  intros s a s' [= _ <-] H i n. cbn. rewrite lookup_app_Some. intros [?|[_ Hn]]; [by eapply H|].
  apply list_lookup_singleton_Some in Hn as [_ <-]. done.
Qed.
Lemma quiet_add_count z : quiet (add_count z).
Proof. by intros s a s' [= _ <-] H. Qed.
Lemma quiet_set_child i ch c : quiet (set_child i ch c).
Proof.
  unfold set_child. apply (quiet_rd_wr i (fun n => TN (n_data n) (n_parent n) (dset ch c (n_children n)) (n_word n))); [done|].
  intros _. by apply (quiet_update c (fun m => TN (n_data m) (Some i) (n_children m) (n_word m))).
Qed.
Lemma quiet_set_data i d : quiet (set_data i d).
Proof. by apply (quiet_update i (fun n => TN d (n_parent n) (n_children n) (n_word n))). Qed.
Lemma quiet_get_child i ch : quiet (get_child i ch).
Proof. apply quiet_bind; [apply quiet_rd|]. intros; apply quiet_ret. Qed.
Lemma quiet_data_or c d : quiet (data_or c d).
Proof. destruct c; [|apply quiet_ret]. apply quiet_bind; [apply quiet_rd|]. intros; apply quiet_ret. Qed.
Lemma quiet_follow fuel : forall c w, quiet (follow_loop fuel c w).
Proof.
  induction fuel as [|fuel IH]; intros c w; [apply quiet_diverge|]. destruct w as [|ch w]; [apply quiet_ret|]. cbn [follow_loop].
  apply quiet_bind; [apply quiet_deref|]. intros i. apply quiet_bind; [apply quiet_get_child|]. intros ch'.
  apply quiet_bind; [apply quiet_data_or|]. intros d. case_bool_decide; [apply IH|apply quiet_ret].
Qed.
Lemma quiet_follow_path w : quiet (follow_path w).
Proof. intros s a s' E H. unfold follow_path in E. rewrite (bind_ok _ _ _ s s) in E by done. by eapply (quiet_follow _ _ _ s). Qed.
Lemma quiet_radix_loop fuel : forall c n w, quiet (radix_loop fuel c n w).
Proof.
  induction fuel as [|fuel IH]; intros c n w; [apply quiet_diverge|]. destruct w as [|ch w]; [apply quiet_ret|]. cbn [radix_loop].
  apply quiet_bind; [apply quiet_deref|]. intros i. apply quiet_bind; [apply quiet_get_child|]. intros ch'.
  apply quiet_bind; [apply quiet_data_or|]. intros d. destruct (Nat.eqb _ 0).
  - apply quiet_bind; [apply quiet_new_node|]. intros x. apply quiet_bind; [apply quiet_set_child|]. intros _.
    apply quiet_bind; [apply quiet_add_count|]. intros _. apply IH.
  - destruct (_ && _).
    + apply quiet_bind; [apply quiet_new_node|]. intros x. apply quiet_bind; [apply quiet_deref|]. intros y.
      apply quiet_bind; [apply quiet_set_data|]. intros _. apply quiet_bind; [destruct (d !! _); [apply quiet_ret|apply quiet_raise]|]. intros k.
      apply quiet_bind; [apply quiet_set_child|]. intros _. apply quiet_bind; [destruct d; [apply quiet_raise|apply quiet_ret]|]. intros k'.
      apply quiet_bind; [apply quiet_set_child|]. intros _. apply quiet_bind; [apply quiet_add_count|]. intros _. apply IH.
    + destruct n; [apply IH|apply quiet_raise].
Qed.
Lemma quiet_suffix_add w i : quiet (suffix_add w i).
Proof.
  unfold suffix_add, radix_insert_node. intros s a s' E H. revert E. unfold bind at 1 2.
  destruct (py_assert _ s) as [u s1| |] eqn:E1; try done. pose proof (quiet_assert _ _ _ _ E1 H) as H1.
  unfold bind at 1. destruct (follow_path _ s1) as [[l r] s2| |] eqn:E2; try done. pose proof (quiet_follow_path _ _ _ _ E2 H1) as H2.
  unfold bind at 1. destruct (radix_loop _ _ _ _ s2) as [c s3| |] eqn:E3; try done. pose proof (quiet_radix_loop _ _ _ _ _ _ _ E3 H2) as H3.
  unfold bind at 1. destruct (deref c s3) as [x s4| |] eqn:E4; try done. pose proof (quiet_deref _ _ _ _ E4 H3) as H4.
  unfold set_word, bind, rd. destruct (t_nodes s4 !! x) as [n|] eqn:En; [|done]. cbn.
  rewrite list_lookup_insert by (by eapply lookup_lt_Some). cbn. rewrite list_insert_insert. intros [= _ <-] j m. cbn.
  destruct (decide (j = x)) as [->|Hne].
  - rewrite list_lookup_insert by (by eapply lookup_lt_Some). by intros [= <-].
  - rewrite list_lookup_insert_ne by done. apply H4.
Qed.
Lemma quiet_suffix_loop w cnt : forall idx, quiet (suffix_loop w idx cnt).
Proof.
  induction cnt as [|cnt IH]; intros idx; [apply quiet_ret|]. cbn [suffix_loop]. apply quiet_bind; [apply quiet_suffix_add|].
  intros x. apply quiet_bind; [apply IH|]. intros l. apply quiet_ret.
Qed.
Lemma suffix_unmarked v f : suffix_new v = Ok f tt -> unmarked (f_rt f).
Proof.
  unfold suffix_new, suffix_init. destruct v as [| |w| | |]; try done. destruct w as [|c w]; [done|].
  rewrite (bind_ok _ _ _ _ _ (validate_ok (c :: w) _ ltac:(done))).
  destruct (suffix_loop (strip_dollar (c :: w)) 0 (S (length (strip_dollar (c :: w)))) trie_new) as [l s| |] eqn:E.
  - rewrite (bind_ok _ _ _ _ _ E). intros [= <-]. cbn [f_rt]. eapply quiet_suffix_loop; [exact E|].
    intros i n Hn. cbn in Hn. apply list_lookup_singleton_Some in Hn as [_ <-]. done.
  - by rewrite (bind_exc _ _ _ _ _ E).
  - unfold bind. by rewrite E.
Qed.

(** ** What a SuffixTrie prints *)
Lemma labels_not_empty w : labels w <> ∅.
Proof. intros E. assert (label w 0 ∈ labels w) as H by (apply elem_labels; exists 0; split; [lia|done]). rewrite E in H. set_solver. Qed.
Lemma suffix_leads f w L n T : sinv f w L -> shows (f_rt f) L [] n T -> forall l, leads T l <-> exists i, i <= length w /\ l = label w i.
Proof.
  intros I HT l. rewrite <- elem_labels. split; [by apply (shows_leads _ _ _ _ _ (i_shape _ _ _ I) HT)|]. intros Hl.
  pose proof (i_shape _ _ _ I) as S. pose proof (x_rep _ _ _ _ S) as R. destruct HT as (_ & _ & H1 & H2 & _).
  destruct (x_live _ _ _ _ S _ Hl) as (j & Hj). destruct (H2 l j) as (x & Hx); [intros ->; by apply (x_nil _ _ _ _ S)|done|].
  exists x. split; [done|]. destruct (H1 _ _ Hx) as (_ & j' & m & HL & Hm & _ & ->). cbn in HL.
  destruct (n_children m) as [|[k c] d] eqn:Ec; [done|]. exfalso.
  destruct (child_of _ _ _ _ _ k c R HL Hm) as (m' & r & _ & _ & _ & Hc); [rewrite Ec; left|].
  destruct (ext' _ _ _ _ _ S Hc) as (t & Ht); [by destruct l|]. apply elem_labels in Hl as (i & Hi & ->). apply elem_labels in Ht as (i' & Hi' & Ht).
  assert (i = i') as <-. { apply (label_prefix w); [apply (i_dollar _ _ _ I)|done..|]. rewrite <- Ht, <- (assoc (++)). by eexists. }
  apply (f_equal length) in Ht. rewrite !app_length in Ht. cbn in Ht. lia.
Qed.
Lemma suffix_reached f w L n T : sinv f w L -> shows (f_rt f) L [] n T -> forall p, (exists x, reach T p x) <-> p ∈ labels w \/ parting_point (labels w) p.
Proof.
  intros I (_ & _ & H1 & H2 & _) p. pose proof (i_shape _ _ _ I) as S. pose proof (x_rep _ _ _ _ S) as R.
  rewrite <- (compact_nodes _ _ _ _ S (i_branch _ _ _ I)), (paths_elem _ _ _ R). split.
  - intros (x & Hx). destruct (H1 _ _ Hx) as (Hne & j & m & HL & _). split; [done|]. by exists j.
  - intros (Hne & j & Hj). by apply (H2 p j).
Qed.

(** ** What a SuffixTrie lists *)
Lemma no_arrow_app a b : no_arrow (a ++ b) <-> no_arrow a /\ no_arrow b.
Proof. unfold no_arrow. rewrite not_elem_of_app. done. Qed.
Lemma no_arrow_drop w i : no_arrow w -> no_arrow (drop i w).
Proof. intros H. rewrite <- (take_drop i w) in H. by apply no_arrow_app in H as [_ H]. Qed.
Lemma split_none s : no_arrow s -> split_first ARROW s = s.
Proof.
  induction s as [|c s IH]; intros H; cbn [split_first]; rewrite bool_decide_eq_false_2; [done|done|f_equal; apply IH; intros ?; apply H; by right|].
  intros E. apply H. right. destruct s as [|d s]; [done|]. cbn in E. injection E as _ -> _. left.
Qed.
Lemma split_mark d r : no_arrow d -> split_first ARROW (d ++ MARK ++ r) = d ++ [36%N].
Proof.
  induction d as [|c d IH]; intros H; [done|]. cbn [app split_first]. rewrite bool_decide_eq_false_2.
  - f_equal. apply IH. intros ?. apply H. by right.
  - intros E. apply H. right. destruct d as [|e d]; [done|]. cbn in E. injection E as _ -> _. left.
Qed.
Lemma part_unique (p c : word) x y u v x' y' u' v' : x <> y -> x' <> y' ->
  p ++ x :: u = c ++ x' :: u' -> p ++ y :: v = c ++ y' :: v' -> p = c.
Proof.
  revert c. induction p as [|a p IH]; intros [|b c] H H' E1 E2; cbn in *.
  - done.
  - injection E1 as -> _. injection E2 as -> _. done.
  - injection E1 as <- _. injection E2 as <- _. done.
  - injection E1 as <- E1. injection E2 as E2. by rewrite (IH c).
Qed.
Lemma elem_ended w p : p ∈ ended_suffixes w <-> exists i, i <= length w /\ p = ended_suffix w i.
Proof.
  unfold ended_suffixes. rewrite elem_of_list_to_set, elem_of_list_fmap. setoid_rewrite elem_of_seq.
  split; [intros (i & -> & ?)|intros (i & ? & ->)]; exists i; (split; [|done || lia]); lia || done.
Qed.
Lemma label_ended w i : label w i = ended_suffix w i ++ [32; 10230; 32]%N ++ py_str_nat i.
Proof. unfold label, ended_suffix. by rewrite <- (assoc (++)). Qed.
Lemma part_labels w p : no_dollar w -> parting_point (labels w) p ->
  no_dollar p /\ (exists i, i <= length w /\ p `prefix_of` drop i w) /\ parting_point (ended_suffixes w) p.
Proof.
  intros Hw (Hne & x & y & u & v & Hxy & (i & Hi & Ei)%elem_labels & (j & Hj & Ej)%elem_labels).
  destruct (decide (i = j)) as [->|Hij]; [exfalso; rewrite <- Ei in Ej; apply app_inv_head in Ej; by injection Ej|].
  destruct (labels_part w i j Hw Hi Hj Hij) as (c & x' & y' & u' & v' & Ei' & Ej' & Hxy' & (H1 & H2 & _)).
  assert (p = c) as <- by (eapply (part_unique p c x y u v x' y' u' v'); congruence).
  split; [|split; [by exists i|]].
  { destruct H1 as [t Ht]. intros Hin. apply (no_dollar_drop w i Hw). rewrite Ht. apply elem_of_app. by left. }
  split; [done|]. destruct H1 as [t Ht], H2 as [t' Ht']. unfold label in Ei, Ej. rewrite Ht, <- (assoc (++)) in Ei. rewrite Ht', <- (assoc (++)) in Ej.
  apply app_inv_head in Ei, Ej.
  assert (forall x u t r, x :: u = t ++ MARK ++ r -> exists z, t ++ [36%N] = x :: z) as H.
  { clear. intros x u [|a t] r E; cbn in E; injection E as -> _; by eexists. }
  destruct (H _ _ _ _ Ei) as (z & Ez), (H _ _ _ _ Ej) as (z' & Ez'). exists x, y, z, z'. split; [done|]. rewrite !elem_ended. split.
  - exists i. split; [done|]. unfold ended_suffix. by rewrite Ht, <- (assoc (++)), Ez.
  - exists j. split; [done|]. unfold ended_suffix. by rewrite Ht', <- (assoc (++)), Ez'.
Qed.
Lemma part_ended w p : parting_point (ended_suffixes w) p -> parting_point (labels w) p.
Proof.
  intros (Hne & x & y & u & v & Hxy & (i & Hi & Ei)%elem_ended & (j & Hj & Ej)%elem_ended). split; [done|].
  exists x, y, (u ++ [32; 10230; 32]%N ++ py_str_nat i), (v ++ [32; 10230; 32]%N ++ py_str_nat j). split; [done|]. rewrite !elem_labels. split.
  - exists i. split; [done|]. rewrite label_ended, <- Ei, <- (assoc (++)). done.
  - exists j. split; [done|]. rewrite label_ended, <- Ej, <- (assoc (++)). done.
Qed.
Section listed.
Context (f : sfx) (w : word) (L : gmap nat word) (I : sinv f w L) (HA : no_arrow w).
Let S := i_shape _ _ _ I.
Let R := x_rep _ _ _ _ S.
Let HD := i_dollar _ _ _ I.
Let cut := split_first ARROW.
Lemma cut_label i : cut (label w i) = ended_suffix w i.
Proof. unfold cut, label. rewrite split_mark by (by apply no_arrow_drop). done. Qed.
Lemma no_arrow_part p : parting_point (labels w) p -> no_arrow p.
Proof. intros (_ & (i & _ & [t Ht]) & _)%part_labels; [|exact HD]. apply (no_arrow_drop w i) in HA. rewrite Ht in HA. by apply no_arrow_app in HA as [? _]. Qed.
Lemma live_class i p : L !! i = Some p -> p <> [] -> (exists k, k <= length w /\ p = label w k) \/ parting_point (labels w) p.
Proof. intros Hi Hne. rewrite <- elem_labels. destruct (i_branch _ _ _ I _ _ Hi) as [?|[?|?]]; [done|by left|right; by split]. Qed.
Lemma above_part j i q x : L !! j = Some q -> L !! i = Some (q ++ x) -> x <> [] -> q = [] \/ parting_point (labels w) q.
Proof.
  intros Hj Hi Hx. destruct (decide (q = [])) as [->|Hq]; [by left|]. right. destruct (live_class j q Hj Hq) as [(k & Hk & ->)|?]; [|done]. exfalso.
  destruct (ext' _ _ _ _ _ S Hi) as (t & Ht); [by destruct (label w k)|]. apply elem_labels in Ht as (k' & Hk' & Ht).
  assert (k = k') as <-. { apply (label_prefix w); [exact HD|done..|]. rewrite <- Ht, <- (assoc (++)). by eexists. }
  apply (f_equal length) in Ht. rewrite !app_length in Ht. destruct x; cbn in Ht; [done|lia].
Qed.
Lemma cut_step j i q x : L !! j = Some q -> L !! i = Some (q ++ x) -> x <> [] ->
  cut q = q /\ cut (q ++ x) = q ++ cut x /\ cut x <> [] /\ (last (cut x) = Some 36%N <-> q ++ x ∈ labels w).
Proof.
  intros Hj Hi Hx. assert (no_dollar q /\ no_arrow q) as [Dq Aq].
  { destruct (above_part j i q x Hj Hi Hx) as [->|Hq]; [split; intros ?%elem_of_nil; done|].
    split; [by apply part_labels in Hq as [? _]|by apply no_arrow_part]. }
  split; [by apply split_none|]. destruct (live_class i (q ++ x) Hi) as [(k & Hk & E)|Hp]; [by destruct q|..].
  - assert (q `prefix_of` drop k w) as [t Ht] by (apply label_pattern; [done|]; rewrite <- E; by eexists).
    assert (x = t ++ MARK ++ py_str_nat k) as -> by (unfold label in E; rewrite Ht, <- (assoc (++)) in E; by apply app_inv_head in E).
    assert (no_arrow t) by (apply (no_arrow_drop w k) in HA; rewrite Ht in HA; by apply no_arrow_app in HA as [_ ?]).
    rewrite E, cut_label. unfold cut. rewrite split_mark by done. unfold ended_suffix. rewrite Ht, <- (assoc (++)).
    split; [done|]. split; [by destruct t|]. rewrite last_snoc. split; [|done]. intros _. apply elem_labels. by exists k.
  - pose proof (no_arrow_part _ Hp) as Ap. apply part_labels in Hp as (Dp & _ & _); [|exact HD].
    pose proof Ap as [_ Ax]%no_arrow_app. unfold cut. rewrite !split_none by done. split_and!; [done..|]. split.
    + intros Hl. exfalso. apply Dp. apply elem_of_app. right. by apply last_Some_elem_of.
    + intros (k & Hk & E)%elem_labels. exfalso. apply Dp. rewrite E, label_cons. apply elem_of_app. right. left.
Qed.
Let s := f_rt f.
Let nodes := mjoin (the_levels s).
Lemma node_data i : i ∈ nodes -> exists j q, L !! j = Some q /\ L !! i = Some (q ++ datum s i) /\ datum s i <> [].
Proof.
  intros [[p Hp] Hne]%(levels_live s L _ R). destruct (r_node _ _ R _ _ Hp) as (n & Hn & _ & _ & [[? _]|(j & q & k & m & _ & Hj & Hpq & Hh & _)]); [done|].
  exists j, q. unfold datum, s. rewrite Hn. subst p. split_and!; try done. by destruct (n_data n).
Qed.
Lemma listed_ok : exists ls pss, suffix_to_list f = Ok (mjoin ls) s /\ spells pss ls /\ NoDup (mjoin pss) /\
  (forall p, p ∈ mjoin pss <-> p ∈ ended_suffixes w \/ parting_point (ended_suffixes w) p) /\
  ending_in_dollar (mjoin ls) = Datatypes.S (length w).
Proof.
  exists (map (map cut) (map (map (datum s)) (the_levels s))), (map (map cut) (map (map (path_of L)) (the_levels s))).
  assert (forall i j p q, L !! i = Some p -> p <> [] -> L !! j = Some q -> q <> [] -> cut p = cut q -> p = q) as Hinj.
  { intros i j p q Hi Hp Hj Hq E. destruct (live_class i p Hi Hp) as [(k & Hk & ->)|Pp], (live_class j q Hj Hq) as [(k' & Hk' & ->)|Pq].
    - rewrite !cut_label in E. unfold ended_suffix in E. apply app_inj_tail in E as [E _]. apply (f_equal length) in E. rewrite !drop_length in E.
      by replace k' with k by lia.
    - exfalso. rewrite cut_label in E. unfold cut in E. rewrite (split_none q) in E by (by apply no_arrow_part).
      apply part_labels in Pq as [Dq _]; [|exact HD]. apply Dq. rewrite <- E. apply elem_of_app. right. left.
    - exfalso. rewrite cut_label in E. unfold cut in E. rewrite (split_none p) in E by (by apply no_arrow_part).
      apply part_labels in Pp as [Dp _]; [|exact HD]. apply Dp. rewrite E. apply elem_of_app. right. left.
    - unfold cut in E. by rewrite !split_none in E by (by apply no_arrow_part). }
  assert (forall i, i ∈ nodes -> exists p, L !! i = Some p /\ p <> [] /\ path_of L i = p) as Hpath.
  { intros i (j & q & _ & Hi & Hd)%node_data. eexists. split; [exact Hi|]. split; [by destruct q|]. unfold path_of. by rewrite Hi. }
  split_and!.
  - unfold suffix_to_list. destruct (levels_any s L _ S) as (_ & _ & _ & E). change (f_rt f) with s. rewrite (bind_ok _ _ _ _ _ E). unfold ret. f_equal.
    by rewrite (mjoin_map (split_first ARROW)).
  - destruct (spells_ok s L R) as [Hlen Hsp]. split; [by rewrite !map_length|]. intros d ps l Hps Hl.
    rewrite !list_lookup_fmap in Hps, Hl. destruct (the_levels s !! d) as [ns|] eqn:Ed; [|done]. injection Hps as <-. injection Hl as <-.
    specialize (Hsp d (map (path_of L) ns) (map (datum s) ns)). rewrite !list_lookup_fmap, Ed in Hsp. specialize (Hsp eq_refl eq_refl).
    apply Forall2_fmap_r, Forall2_fmap_l. rewrite Forall2_fmap in Hsp. apply Forall2_fmap_r, Forall2_fmap_l.
    apply Forall_Forall2_diag, Forall_forall. intros i Hi.
    assert (i ∈ nodes) as Hin. { apply elem_of_list_join. exists ns. split; [done|]. by eapply elem_of_list_lookup_2. }
    apply elem_of_list_lookup in Hi as [a Ha]. destruct (Forall2_lookup_l _ _ _ _ _ Hsp Ha) as (i' & Ha' & Hx & q & Hq & Hup).
    rewrite Ha in Ha'. injection Ha' as <-. destruct (Hpath i Hin) as (p & Hp & _ & Ep). cbn. rewrite Ep in Hq |- *. rewrite Hq in Hp |- *.
    assert (exists j, L !! j = Some q) as (j & Hj).
    { destruct d as [|d]; [subst q; by exists (t_root s); apply (r_root _ _ R)|]. destruct Hup as (qs & Hqs & Hinq).
      rewrite list_lookup_fmap in Hqs. destruct (the_levels s !! d) as [ms|] eqn:Em; [|done]. injection Hqs as <-.
      apply elem_of_list_fmap in Hinq as (b & -> & Hb). assert (b ∈ nodes) as (z & Hz & _ & Ez)%Hpath.
      { apply elem_of_list_join. exists ms. split; [done|]. by eapply elem_of_list_lookup_2. } exists b. by rewrite Ez. }
    destruct (cut_step j i q (datum s i) Hj Hp Hx) as (Cq & Cp & Cx & _). split; [done|]. exists q. split; [done|].
    destruct d as [|d]; [done|]. destruct Hup as (qs & Hqs & Hinq). exists (map cut qs). rewrite list_lookup_fmap. split; [exact (f_equal (fmap (map cut)) Hqs)|].
    apply elem_of_list_fmap. by exists q.
  - rewrite (mjoin_map cut), (mjoin_map (path_of L)), map_map. apply NoDup_fmap_2_strong; [|by eapply nodup_levels].
    intros i j (p & Hp & Np & Ep)%Hpath (q & Hq & Nq & Eq)%Hpath. rewrite Ep, Eq. intros E.
    assert (p = q) as -> by (by apply (Hinj i j)). by eapply (r_inj _ _ R).
  - intros p. rewrite (mjoin_map cut), (mjoin_map (path_of L)), elem_of_list_fmap.
    assert (forall z, z ∈ map (path_of L) nodes <-> z ∈ labels w \/ parting_point (labels w) z) as HC by (intros z; apply (compact_nodes s L _ z S (i_branch _ _ _ I))).
    split.
    + intros (z & -> & [(k & Hk & ->)%elem_labels|Hz]%HC).
      * left. apply elem_ended. exists k. split; [done|apply cut_label].
      * right. unfold cut. rewrite split_none by (by apply no_arrow_part). by apply part_labels in Hz as (_ & _ & ?).
    + intros [(k & Hk & ->)%elem_ended|Hp%part_ended].
      * exists (label w k). split; [by rewrite cut_label|]. apply HC. left. apply elem_labels. by exists k.
      * exists p. split; [unfold cut; by rewrite split_none by (by apply no_arrow_part)|]. apply HC. by right.
  - rewrite (mjoin_map cut), (mjoin_map (datum s)), map_map. fold nodes. unfold ending_in_dollar.
    assert (forall ns, (forall i, i ∈ ns -> i ∈ nodes) -> length (filter (fun x => last x = Some 36%N) (map (fun i => cut (datum s i)) ns)) =
      length (filter (fun z => z ∈ labels w) (map (path_of L) ns))) as HLen.
    { induction ns as [|i ns IH]; intros H; [done|]. cbn [map]. destruct (node_data i) as (j & q & Hj & Hi & Hd); [apply H; left|].
      destruct (cut_step j i q _ Hj Hi Hd) as (_ & _ & _ & Hiff). specialize (IH (fun i Hi => H i ltac:(by right))).
      assert (path_of L i = q ++ datum s i) as Ep by (unfold path_of; by rewrite Hi). rewrite <- Ep in Hiff.
      destruct (decide (path_of L i ∈ labels w)) as [Hin|Hin].
      - rewrite !filter_cons_True; [|done|by apply Hiff]. cbn. by f_equal.
      - rewrite !filter_cons_False; [done|done|]. intros ?. apply Hin. by apply Hiff. }
    rewrite HLen by done. rewrite <- (seq_length (Datatypes.S (length w)) 0), <- (map_length (label w)). apply Permutation_length. apply NoDup_Permutation.
    + apply NoDup_filter. by apply paths_nodup.
    + apply NoDup_fmap_2_strong; [|apply NoDup_seq]. intros a b Ha%elem_of_seq Hb%elem_of_seq. apply label_inj; [exact HD|lia..].
    + intros z. rewrite elem_of_list_filter. pose proof (compact_nodes s L _ z S (i_branch _ _ _ I)) as HC. unfold nodes. rewrite HC.
      assert (z ∈ labels w <-> z ∈ map (label w) (seq 0 (Datatypes.S (length w)))) as -> by apply elem_of_list_to_set. split; [by intros [? _]|]. intros H. split; [done|by left].
Qed.
End listed.
