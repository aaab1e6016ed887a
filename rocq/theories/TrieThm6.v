(** * Tries: sizes and shapes *)
From stdpp Require Import gmap.
From Verif Require Import Base TrieModel TrieRep TrieSpec TrieSpec2 TrieThm TrieThm2 TrieThm3 TrieProps SuffixModel TrieThm4 SuffixSpec SuffixThm LevelModel TrieThm5.
Local Open Scope py_scope.

(** ** The nodes of a compressed trie are at most twice as many as its words *)
Definition parts (W : words) (p : word) : Prop :=
  set_Exists (fun a => set_Exists (fun b => p `prefix_of` a /\ p `prefix_of` b /\
    is_Some (a !! length p) /\ is_Some (b !! length p) /\ a !! length p <> b !! length p) W) W.
Lemma parting_iff W p : parting_point W p <-> p <> [] /\ parts W p.
Proof.
  unfold parting_point, parts. apply and_iff_compat_l. split.
  - intros (x & y & u & v & Hxy & Ha & Hb). exists (p ++ x :: u). split; [done|]. exists (p ++ y :: v). split; [done|].
    rewrite !list_lookup_middle by done. split_and!; [by eexists..|done|done|congruence].
  - intros (a & Ha & b & Hb & [ra ->] & [rb ->] & [x Hx] & [y Hy] & Hne).
    rewrite lookup_app_r, Nat.sub_diag in Hx, Hy, Hne by done. rewrite lookup_app_r, Nat.sub_diag in Hne by done.
    destruct ra as [|x' ra]; [done|]. destruct rb as [|y' rb]; [done|]. exists x', y', ra, rb. cbn in Hne. split; [congruence|done].
Qed.
Global Instance parting_dec W p : Decision (parting_point W p).
Proof. refine (cast_if (decide (p <> [] /\ parts W p))); by rewrite parting_iff. Defined.
Lemma parting_mono W W' p : W ⊆ W' -> parting_point W p -> parting_point W' p.
Proof. intros H (Hp & x & y & u & v & ? & ? & ?). split; [done|]. exists x, y, u, v. set_solver. Qed.
Lemma parting_singleton w p : ~ parting_point {[w]} p.
Proof.
  intros (_ & x & y & u & v & Hxy & Hx%elem_of_singleton & Hy%elem_of_singleton). rewrite <- Hy in Hx.
  apply app_inv_head in Hx. congruence.
Qed.
Lemma two_prefixes (p p' w : word) : p `prefix_of` w -> p' `prefix_of` w -> p `prefix_of` p' \/ p' `prefix_of` p.
Proof. apply prefix_weak_total. Qed.
(** Adding one word makes at most one new point of parting. *)
Lemma new_parting W w p : parting_point ({[w]} ∪ W) p -> ~ parting_point W p ->
  exists x y u v, x <> y /\ w = p ++ x :: u /\ p ++ y :: v ∈ W.
Proof.
  intros (Hp & x & y & u & v & Hxy & Hx & Hy) Hno. apply elem_of_union in Hx as [Hx%elem_of_singleton|Hx], Hy as [Hy%elem_of_singleton|Hy].
  - rewrite <- Hy in Hx. apply app_inv_head in Hx. congruence.
  - by exists x, y, u, v.
  - exists y, x, v, u. by split.
  - destruct Hno. split; [done|]. by exists x, y, u, v.
Qed.
Lemma new_parting_unique W w p p' : parting_point ({[w]} ∪ W) p -> ~ parting_point W p ->
  parting_point ({[w]} ∪ W) p' -> ~ parting_point W p' -> p = p'.
Proof.
  assert (forall p t, p <> [] -> t <> [] -> ~ parting_point W p ->
    (exists x y u v, x <> y /\ w = p ++ x :: u /\ p ++ y :: v ∈ W) ->
    (exists x y u v, x <> y /\ w = (p ++ t) ++ x :: u /\ (p ++ t) ++ y :: v ∈ W) -> False) as Haux.
  { intros q [|k t] Hq Ht Hno (x & y & u & v & Hxy & -> & Hy) (x' & y' & u' & v' & _ & E & Hy'); [done|].
    apply Hno. split; [done|]. rewrite <- !(assoc (++)) in E, Hy'. apply app_inv_head in E. injection E as <- E.
    exists x, y, (t ++ y' :: v'), v. done. }
  intros H1 H2 H3 H4. pose proof (new_parting _ _ _ H1 H2) as N1. pose proof (new_parting _ _ _ H3 H4) as N2.
  assert (p `prefix_of` w) as Pw by (destruct N1 as (x & y & u & v & _ & -> & _); by eexists).
  assert (p' `prefix_of` w) as Pw' by (destruct N2 as (x & y & u & v & _ & -> & _); by eexists).
  destruct H1 as [Hp _], H3 as [Hp' _].
  destruct (two_prefixes _ _ _ Pw Pw') as [[t ->]|[t ->]]; (destruct t as [|k t]; [by rewrite app_nil_r|exfalso]).
  - by eapply (Haux p (k :: t)).
  - by eapply (Haux p' (k :: t)).
Qed.
Lemma parting_bound W : forall o : list word, NoDup o -> (forall p, p ∈ o -> p ∈ W \/ parting_point W p) -> length o <= 2 * size W - 1.
Proof.
  induction W as [|w W Hw IH] using set_ind_L; intros o Hnd Ho.
  - destruct o as [|p o]; [cbn; lia|]. destruct (Ho p) as [H|(_ & x & y & u & v & _ & H & _)]; [left|set_solver..].
  - rewrite size_union, size_singleton by set_solver.
    destruct (decide (W = ∅)) as [->|HW].
    + rewrite size_empty. cbn. destruct o as [|p [|p' o]]; cbn; [lia|lia|]. exfalso. rewrite union_empty_r_L in Ho.
      assert (forall q, q ∈ p :: p' :: o -> q = w) as H.
      { intros q Hq. destruct (Ho q Hq) as [?|H]; [set_solver|]. by apply parting_singleton in H. }
      apply NoDup_cons in Hnd as [Hnd _]. apply Hnd. rewrite (H p), (H p'); [left|right; left|left].
    + set (old := filter (fun p => p ∈ W \/ parting_point W p) o). set (new := filter (fun p => ~ (p ∈ W \/ parting_point W p)) o).
      assert (length o = length old + length new) as ->.
      { unfold old, new. clear. induction o as [|p o IH]; [done|]. rewrite !filter_cons. cbn [length].
        destruct (decide (p ∈ W \/ parting_point W p)); [rewrite decide_False by tauto|rewrite decide_True by done]; cbn [length]; lia. }
      assert (length old <= 2 * size W - 1) as H1.
      { apply IH; [by apply NoDup_filter|]. by intros p [? _]%elem_of_list_filter. }
      assert (length new <= 2) as H2.
      { assert (NoDup new) as Hn by (by apply NoDup_filter).
        assert (forall p, p ∈ new -> p = w \/ (parting_point ({[w]} ∪ W) p /\ ~ parting_point W p)) as Hnew.
        { intros p [Hno Hp]%elem_of_list_filter. destruct (Ho p Hp) as [[->%elem_of_singleton|?]%elem_of_union|?]; [by left|tauto|right; tauto]. }
        destruct new as [|a [|b [|c l]]]; cbn; try lia. exfalso.
        apply NoDup_cons in Hn as [Ha Hn]. apply NoDup_cons in Hn as [Hb Hn].
        assert (a <> b /\ a <> c /\ b <> c) as (N1 & N2 & N3) by set_solver.
        destruct (Hnew a) as [->|[Pa Qa]]; [left| |];
        (destruct (Hnew b) as [->|[Pb Qb]]; [right; left| |]);
        (destruct (Hnew c) as [->|[Pc Qc]]; [right; right; left| |]); try done.
        - apply N3. by eapply new_parting_unique.
        - apply N2. by eapply new_parting_unique.
        - apply N1. by eapply new_parting_unique.
        - apply N1. by eapply new_parting_unique. }
      assert (size W <> 0). { intros E. apply HW. by apply leibniz_equiv, size_empty_iff. }
      lia.
Qed.

(** ** Paths of the levels *)
Definition path_of (L : gmap nat word) (i : nat) : word := default [] (L !! i).
Lemma below_unique s L i : rep s L -> forall d d', below s (t_root s) i d -> below s (t_root s) i d' -> d = d'.
Proof.
  intros R d. revert i. induction d as [|d IH]; intros i [|d'] H H'.
  - done.
  - inversion H; subst. apply below_last in H' as (m & n & k & Hb & Hn & Hin).
    destruct (below_live _ _ _ _ _ _ R (r_root _ _ R) Hb) as (t & Ht & _).
    destruct (child_of _ _ _ _ _ _ _ R Ht Hn Hin) as (m' & r & _ & _ & _ & HL). rewrite (r_root _ _ R) in HL. by destruct t.
  - inversion H'; subst. apply below_last in H as (m & n & k & Hb & Hn & Hin).
    destruct (below_live _ _ _ _ _ _ R (r_root _ _ R) Hb) as (t & Ht & _).
    destruct (child_of _ _ _ _ _ _ _ R Ht Hn Hin) as (m' & r & _ & _ & _ & HL). rewrite (r_root _ _ R) in HL. by destruct t.
  - apply below_last in H as (m & n & k & Hb & Hn & Hin), H' as (m' & n' & k' & Hb' & Hn' & Hin').
    destruct (below_live _ _ _ _ _ _ R (r_root _ _ R) Hb) as (t & Ht & _), (below_live _ _ _ _ _ _ R (r_root _ _ R) Hb') as (t' & Ht' & _).
    destruct (child_of _ _ _ _ _ _ _ R Ht Hn Hin) as (e & r & He & Hpe & _), (child_of _ _ _ _ _ _ _ R Ht' Hn' Hin') as (e' & r' & He' & Hpe' & _).
    rewrite He in He'. injection He' as <-. rewrite Hpe in Hpe'. injection Hpe' as <-. f_equal. by eapply IH.
Qed.
Lemma nodup_levels s L : rep s L -> NoDup (mjoin (the_levels s)).
Proof.
  intros R.
  assert (forall d d' l l' x, the_levels s !! d = Some l -> the_levels s !! d' = Some l' -> x ∈ l -> x ∈ l' -> d = d') as Hd.
  { intros d d' l l' x Hl Hl' Hx Hx'. assert (S d = S d') as [= ->]; [|done]. eapply (below_unique s L x R); apply (the_levels_below s L); eauto. }
  assert (forall l, l ∈ the_levels s -> NoDup l) as Hn by (intros; by eapply the_levels_nodup).
  revert Hd Hn. generalize (the_levels s). intros ls. induction ls as [|l ls IH]; intros Hd Hn; [constructor|].
  change (mjoin (l :: ls)) with (l ++ mjoin ls). apply NoDup_app. split; [apply Hn; left|]. split.
  - intros x Hx (l' & Hxl & Hl')%elem_of_list_join. apply elem_of_list_lookup in Hl' as (d & Hl').
    by pose proof (Hd 0 (S d) l l' x eq_refl Hl' Hx Hxl).
  - apply IH; [|intros; apply Hn; by right]. intros d d' l1 l2 x H1 H2 H3 H4. by pose proof (Hd (S d) (S d') l1 l2 x H1 H2 H3 H4) as [= ->].
Qed.
Lemma levels_live s L i : rep s L -> i ∈ mjoin (the_levels s) <-> is_Some (L !! i) /\ i <> t_root s.
Proof.
  intros R. rewrite elem_of_list_join. split.
  - intros (l & Hi & (d & Hd)%elem_of_list_lookup). assert (below s (t_root s) i (S d)) as Hb by (apply (the_levels_below s L); eauto).
    destruct (below_live _ _ _ _ _ _ R (r_root _ _ R) Hb) as (t & Ht & Hlen). split; [by eexists|]. intros ->.
    rewrite (r_root _ _ R) in Ht. injection Ht as E. rewrite <- E in Hlen. cbn in Hlen. lia.
  - intros [[p Hp] Hne]. destruct (root_below _ _ _ _ R Hp) as ([|d] & Hb & H1).
    + assert (p <> []) as H by (intros ->; by apply Hne, (path_root _ _ _ R)). apply H1 in H. lia.
    + apply (the_levels_below s L) in Hb as (l & Hl & Hi); [|done]. exists l. split; [done|]. by eapply elem_of_list_lookup_2.
Qed.
Lemma size_levels s L : rep s L -> size L = S (length (mjoin (the_levels s))).
Proof.
  intros R. rewrite <- (size_dom (D:=gset nat)).
  assert (dom L = {[t_root s]} ∪ list_to_set (mjoin (the_levels s))) as ->.
  { apply set_eq. intros i. rewrite elem_of_dom, elem_of_union, elem_of_singleton, elem_of_list_to_set, (levels_live s L i R).
    destruct (decide (i = t_root s)) as [->|]; [|naive_solver]. rewrite (r_root _ _ R). naive_solver. }
  rewrite size_union, size_singleton, size_list_to_set; [done|by eapply nodup_levels|].
  intros i ->%elem_of_singleton. rewrite elem_of_list_to_set, (levels_live s L _ R). by intros [_ ?].
Qed.
Lemma spells_ok s L : rep s L -> spells (map (map (path_of L)) (the_levels s)) (map (map (datum s)) (the_levels s)).
Proof.
  intros R. split; [by rewrite !map_length|]. intros d ps l Hps Hl.
  rewrite list_lookup_fmap in Hps, Hl. destruct (the_levels s !! d) as [ns|] eqn:Ed; [|done].
  injection Hps as <-. injection Hl as <-. apply Forall2_fmap, Forall_Forall2_diag, Forall_forall. intros i Hi.
  assert (below s (t_root s) i (S d)) as Hb by (apply (the_levels_below s L); eauto).
  apply below_last in Hb as (m & n & k & Hb & Hn & Hin). destruct (below_live _ _ _ _ _ _ R (r_root _ _ R) Hb) as (t & Ht & _).
  destruct (child_of _ _ _ _ _ _ _ R Ht Hn Hin) as (m' & r & Hm' & _ & Hr & HL). unfold datum, path_of. rewrite Hm', Hr, HL.
  split; [done|]. exists t. split; [done|]. destruct d as [|d].
  - inversion Hb; subst. rewrite (r_root _ _ R) in Ht. by injection Ht as <-.
  - apply (the_levels_below s L) in Hb as (l & Hl & Hml); [|done]. exists (map (path_of L) l). rewrite list_lookup_fmap, Hl. split; [done|].
    apply elem_of_list_fmap. exists m. split; [|done]. unfold path_of. by rewrite Ht.
Qed.
Lemma mjoin_map {A B} (f : A -> B) ls : mjoin (map (map f) ls) = map f (mjoin ls).
Proof. induction ls as [|l ls IH]; [done|]. change (map f l ++ mjoin (map (map f) ls) = map f (l ++ mjoin ls)). by rewrite IH, map_app. Qed.
Lemma paths_nodup s L : rep s L -> NoDup (map (path_of L) (mjoin (the_levels s))).
Proof.
  intros R. apply NoDup_fmap_2_strong; [|by eapply nodup_levels].
  intros i j [[p Hp] _]%(levels_live s L _ R) [[q Hq] _]%(levels_live s L _ R). unfold path_of. rewrite Hp, Hq. cbn. intros ->.
  by eapply (r_inj _ _ R).
Qed.
Lemma paths_elem s L p : rep s L -> p ∈ map (path_of L) (mjoin (the_levels s)) <-> p <> [] /\ exists i, L !! i = Some p.
Proof.
  intros R. rewrite elem_of_list_fmap. split.
  - intros (i & -> & [[q Hq] Hne]%(levels_live s L _ R)). unfold path_of. rewrite Hq. cbn. split; [|by exists i].
    intros ->. by apply Hne, (path_root _ _ _ R).
  - intros (Hne & i & Hi). exists i. split; [unfold path_of; by rewrite Hi|]. apply (levels_live s L); [done|]. split; [by eexists|].
    intros ->. rewrite (r_root _ _ R) in Hi. congruence.
Qed.

(** ** Compressed tries *)
Lemma compact_nodes {fl} s L W p : trepg fl s L W (t_root s) -> branching L W ->
  p ∈ map (path_of L) (mjoin (the_levels s)) <-> p ∈ W \/ parting_point W p.
Proof.
  intros T HB. pose proof (x_rep _ _ _ _ T) as R. rewrite (paths_elem s L p R). split.
  - intros (Hne & i & Hi). destruct (HB _ _ Hi) as [?|[?|?]]; [done|by left|by right].
  - intros [Hp|(Hne & x & y & u & v & Hxy & Hx & Hy)].
    + split; [|by apply (x_live _ _ _ _ T)]. intros ->. by apply (x_nil _ _ _ _ T).
    + split; [done|]. destruct (x_live _ _ _ _ T _ Hx) as (a & Ha), (x_live _ _ _ _ T _ Hy) as (b & Hb).
      by eapply (parting_live s L R (length p) (t_root s) [] p x y u v a b (Nat.le_refl _) Hxy (r_root _ _ R)).
Qed.
Lemma compact_count {fl} s L W : trepg fl s L W (t_root s) -> branching L W ->
  exists n, trie_len s = Ok (1 + Z.of_nat n)%Z s /\ counts (fun p => p ∈ W \/ parting_point W p) n /\ n <= 2 * size W - 1.
Proof.
  intros T HB. pose proof (x_rep _ _ _ _ T) as R.
  exists (length (map (path_of L) (mjoin (the_levels s)))). split; [|split].
  - unfold trie_len. rewrite (bind_ok _ _ _ s s) by done. unfold ret. rewrite (r_count _ _ R), (size_levels s L R), map_length. f_equal. lia.
  - eexists. split; [by apply paths_nodup|]. split; [|done]. intros p. by eapply compact_nodes.
  - apply parting_bound; [by apply paths_nodup|]. intros p Hp. by eapply compact_nodes.
Qed.
