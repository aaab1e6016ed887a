(** * Trie and RadixTrie: insert, remove, clear *)
From stdpp Require Import gmap.
From Verif Require Import Base TrieModel TrieRep TrieSpec TrieThm.
Local Open Scope py_scope.

(** ** Primitive updates *)
Definition upd_child (n : tnode) ch c := TN (n_data n) (n_parent n) (dset ch c (n_children n)) (n_word n).
Lemma set_child_eq s i ch c n m :
  t_nodes s !! i = Some n -> t_nodes s !! c = Some m -> i <> c ->
  set_child i ch c s = Ok tt (TS (<[c := TN (n_data m) (Some i) (n_children m) (n_word m)]>
    (<[i := upd_child n ch c]> (t_nodes s))) (t_root s) (t_count s)).
Proof.
  intros Hn Hm Hic. unfold set_child. rewrite (bind_ok _ _ _ _ _ (rd_eq _ _ _ Hn)).
  unfold wr at 1. unfold bind at 1. rewrite (bind_ok _ _ _ m
    (TS (<[i := upd_child n ch c]> (t_nodes s)) (t_root s) (t_count s))).
  - done.
  - apply rd_eq. cbn. by rewrite list_lookup_insert_ne.
Qed.
Lemma set_word_eq s i b n : t_nodes s !! i = Some n ->
  set_word i b s = Ok tt (TS (<[i := TN (n_data n) (n_parent n) (n_children n) b]> (t_nodes s)) (t_root s) (t_count s)).
Proof. intros Hn. unfold set_word. by rewrite (bind_ok _ _ _ _ _ (rd_eq _ _ _ Hn)). Qed.
Lemma set_data_eq s i d n : t_nodes s !! i = Some n ->
  set_data i d s = Ok tt (TS (<[i := TN d (n_parent n) (n_children n) (n_word n)]> (t_nodes s)) (t_root s) (t_count s)).
Proof. intros Hn. unfold set_data. by rewrite (bind_ok _ _ _ _ _ (rd_eq _ _ _ Hn)). Qed.

(** Setting the flag of node [i] makes its path a word. *)
Lemma mark_ok {fl} s L W i p n :
  trepg fl s L W i -> L !! i = Some p -> t_nodes s !! i = Some n -> p <> [] ->
  let s' := TS (<[i := TN (n_data n) (n_parent n) (n_children n) true]> (t_nodes s)) (t_root s) (t_count s) in
  trepg fl s' L ({[p]} ∪ W) (t_root s').
Proof.
  intros T Hi Hn Hp s'. destruct T as [R Hflag Hlive Hnil Hleaf]. split.
  - by apply rep_flag.
  - intros Hfl x q m Hx. cbn. destruct (decide (x = i)) as [->|Hne].
    + rewrite list_lookup_insert by (by eapply lookup_lt_Some). intros [= <-]. cbn.
      rewrite Hi in Hx. injection Hx as <-. symmetry. apply bool_decide_eq_true_2. set_solver.
    + rewrite list_lookup_insert_ne by done. intros Hm. rewrite (Hflag Hfl _ _ _ Hx Hm).
      apply bool_decide_ext. rewrite elem_of_union, elem_of_singleton. split; [by right|].
      intros [->|?]; [|done]. destruct Hne. by eapply (r_inj _ _ R).
  - intros q [->%elem_of_singleton|H]%elem_of_union; [by exists i|by apply Hlive].
  - rewrite not_elem_of_union, not_elem_of_singleton. by split.
  - intros x q m Hx. cbn. destruct (decide (x = i)) as [->|Hne].
    + intros _ _ _ _. rewrite Hi in Hx. injection Hx as <-. set_solver.
    + rewrite list_lookup_insert_ne by done. intros Hm Hc Hq _. apply elem_of_union. right. by eapply Hleaf.
Qed.
Lemma single_flag s L i n b : single s L -> t_nodes s !! i = Some n ->
  single (TS (<[i := TN (n_data n) (n_parent n) (n_children n) b]> (t_nodes s)) (t_root s) (t_count s)) L.
Proof.
  intros Hs Hn x p m Hx. cbn. destruct (decide (x = i)) as [->|Hne].
  - rewrite list_lookup_insert by (by eapply lookup_lt_Some). intros [= <-]. cbn. by eapply Hs.
  - rewrite list_lookup_insert_ne by done. by eapply Hs.
Qed.

(** ** Adding a leaf *)
Definition leaf_state (s : ts) (i : nat) (n : tnode) (k : N) (d : word) : ts :=
  TS (<[length (t_nodes s) := TN (k :: d) (Some i) [] false]>
       (<[i := upd_child n k (length (t_nodes s))]> (t_nodes s ++ [TN (k :: d) None [] false])))
     (t_root s) (t_count s + 1).
Lemma leaf_run {A} s i n k d (K : M ts A) :
  t_nodes s !! i = Some n ->
  (set_child i k (length (t_nodes s)) ;; add_count 1 ;; K)
    (TS (t_nodes s ++ [TN (k :: d) None [] false]) (t_root s) (t_count s)) = K (leaf_state s i n k d).
Proof.
  intros Hn. pose proof (lookup_lt_Some _ _ _ Hn) as Hlt.
  erewrite bind_ok; [|apply (set_child_eq _ i k (length (t_nodes s)) n (TN (k :: d) None [] false)); cbn].
  - done.
  - by rewrite lookup_app_l.
  - by rewrite lookup_app_r, Nat.sub_diag by lia.
  - lia.
Qed.
Lemma leaf_lookup s i n k d :
  t_nodes s !! i = Some n ->
  t_nodes (leaf_state s i n k d) !! i = Some (upd_child n k (length (t_nodes s))) /\
  t_nodes (leaf_state s i n k d) !! length (t_nodes s) = Some (TN (k :: d) (Some i) [] false) /\
  forall x, x <> length (t_nodes s) -> x <> i -> t_nodes (leaf_state s i n k d) !! x = t_nodes s !! x.
Proof.
  intros Hn. pose proof (lookup_lt_Some _ _ _ Hn) as Hlt. cbn. split_and!.
  - rewrite list_lookup_insert_ne by lia. apply list_lookup_insert. rewrite app_length. cbn. lia.
  - apply list_lookup_insert. rewrite insert_length, app_length. cbn. lia.
  - intros x H1 H2. rewrite list_lookup_insert_ne, list_lookup_insert_ne by done.
    destruct (decide (x < length (t_nodes s))) as [Hx|Hx]; [by rewrite lookup_app_l|].
    rewrite lookup_app_r by lia. rewrite list_lookup_singleton.
    rewrite (proj2 (lookup_ge_None (t_nodes s) x)) by lia.
    destruct (x - length (t_nodes s)) eqn:E; [lia|done].
Qed.
Lemma leaf_ok {fl} s L W x i p n k d :
  trepg fl s L W x -> L !! i = Some p -> t_nodes s !! i = Some n -> dget k (n_children n) = None ->
  (x = i \/ x = t_root s) ->
  let c := length (t_nodes s) in
  L !! c = None /\
  trepg fl (leaf_state s i n k d) (<[c := p ++ k :: d]> L) W c /\
  (single s L -> d = [] -> single (leaf_state s i n k d) (<[c := p ++ k :: d]> L)).
Proof.
  intros T Hi Hn Hd Hx c. pose proof (x_rep _ _ _ _ T) as R.
  destruct (leaf_lookup s i n k d Hn) as (Ei & Ec & Ex). fold c in Ei, Ec, Ex.
  pose proof (lookup_lt_Some _ _ _ Hn) as Hlt.
  assert (L !! c = None) as Hc by (apply (rep_fresh _ _ _ R); lia).
  assert (upd_child n k c = TN (n_data n) (n_parent n) (n_children n ++ [(k, c)]) (n_word n)) as Eu
    by (unfold upd_child; by rewrite dset_new).
  assert (forall y q, L !! y = Some q -> y <> c) as Hlive by (intros y q Hyq ->; congruence).
  split; [done|]. split.
  - split.
    + apply (rep_leaf s _ L i p n c k d); try done; [lia|..].
      * intros y ? ? _. by apply Ex.
      * by rewrite Ei, Eu.
    + intros Hfl y q m. rewrite lookup_insert_Some. intros [[<- <-]|[Hyc Hy]].
      * rewrite Ec. intros [= <-]. cbn. symmetry. apply bool_decide_eq_false_2.
        intros (b & Hb)%(x_live _ _ _ _ T). by destruct (nav_fresh _ _ _ _ _ _ _ _ R Hi Hn Hd Hb).
      * destruct (decide (y = i)) as [->|Hyi].
        -- rewrite Ei. intros [= <-]. cbn. by eapply (x_flagg _ _ _ _ T Hfl).
        -- rewrite Ex by done. by eapply (x_flagg _ _ _ _ T Hfl).
    + intros q Hq. destruct (x_live _ _ _ _ T _ Hq) as (b & Hb). exists b.
      rewrite lookup_insert_ne; [done|]. by apply not_eq_sym, (Hlive _ _ Hb).
    + apply (x_nil _ _ _ _ T).
    + intros y q m. rewrite lookup_insert_Some. intros [[<- <-]|[Hyc Hy]]; [done|].
      destruct (decide (y = i)) as [->|Hyi].
      * rewrite Ei. intros [= <-]. cbn. rewrite dset_new by done. intros ?%app_nil; naive_solver.
      * rewrite Ex by done. intros Hm Hcs Hq _. eapply (x_leaf _ _ _ _ T); try done.
        destruct Hx as [->| ->]; [done|]. intros ->. rewrite (r_root _ _ R) in Hy. congruence.
  - intros Hs -> y q m. rewrite lookup_insert_Some. intros [[<- <-]|[Hyc Hy]].
    + rewrite Ec. by intros [= <-].
    + destruct (decide (y = i)) as [->|Hyi].
      * rewrite Ei. intros [= <-]. cbn. by eapply Hs.
      * rewrite Ex by done. by eapply Hs.
Qed.

(** ** Trie.insert *)
Lemma insert_loop_ok W : forall rest s L x i p n,
  trepx s L W x -> L !! i = Some p -> t_nodes s !! i = Some n ->
  (x = i \/ x = t_root s) ->
  (forall k r, rest = k :: r -> dget k (n_children n) = None) ->
  exists s' L' j x', insert_loop (Some i) rest s = Ok (Some j) s' /\ trepx s' L' W x' /\
    (x' = j \/ x' = t_root s') /\ L' !! j = Some (p ++ rest) /\ (single s L -> single s' L').
Proof.
  induction rest as [|k rest IH]; intros s L x i p n T Hi Hn Hx Hk.
  - exists s, L, i, x. rewrite app_nil_r. done.
  - cbn [insert_loop]. unfold new_node at 1. unfold bind at 1.
    rewrite (bind_ok _ _ _ i (TS (t_nodes s ++ [TN [k] None [] false]) (t_root s) (t_count s))) by done.
    rewrite (leaf_run s i n k []) by done.
    destruct (leaf_ok s L W x i p n k [] T Hi Hn (Hk _ _ eq_refl) Hx) as (Hc & T' & Hs').
    destruct (leaf_lookup s i n k [] Hn) as (Ei & Ec & Ex).
    destruct (IH _ _ _ (length (t_nodes s)) (p ++ [k]) (TN [k] (Some i) [] false) T') as (s' & L' & j & x' & E & T'' & Hx' & Hj & Hs'').
    + apply lookup_insert.
    + exact Ec.
    + by left.
    + done.
    + exists s', L', j, x'. rewrite <- (assoc (++)) in Hj. split_and!; try done. intros H. by apply Hs'', Hs'.
Qed.
Lemma trepx_root {fl} s L W i : trepg fl s L W (t_root s) -> trepg fl s L W i.
Proof.
  intros [R H2 H3 H4 H5]. split; try done. intros j p n Hj Hn Hc Hp _. eapply H5; try done.
  intros ->. rewrite (r_root _ _ R) in Hj. congruence.
Qed.
Lemma stuck_single s L W j q k r n : trep s L W -> single s L -> L !! j = Some q -> t_nodes s !! j = Some n ->
  stuck s j (k :: r) -> dget k (n_children n) = None.
Proof.
  intros T Hs Hj Hn [?|(k' & r' & nj & [= <- <-] & Hnj & [[Hd _]|(c & m & Hd & Hm & Hno)])]; [done|congruence|].
  exfalso. rewrite Hn in Hnj. injection Hnj as <-. pose proof (x_rep _ _ _ _ T) as R.
  destruct (child_of _ _ _ _ _ _ _ R Hj Hn (dget_in _ _ _ Hd)) as (m' & r' & Hm' & _ & Hr & HL).
  rewrite Hm in Hm'. injection Hm' as <-.
  assert (length (n_data m) = 1) as H1 by (eapply Hs; [done..|]; by destruct q).
  apply Hno. rewrite Hr in H1 |- *. destruct r'; [|done]. by exists r.
Qed.
Lemma blank_nil w : blank w = false -> w <> [].
Proof. by destruct w. Qed.
Lemma trie_insert_ok s L W w : trep s L W -> single s L -> blank w = false ->
  (exists s' L', trie_insert (PStr w) s = Ok tt s' /\ trep s' L' ({[w]} ∪ W) /\ single s' L') \/
  (trie_insert (PStr w) s = Exc AttributeError s /\ exists q r, falls s L w q r).
Proof.
  intros T Hs Hb. pose proof (x_rep _ _ _ _ T) as R. unfold trie_insert, trie_validate. rewrite Hb.
  rewrite (bind_ok _ _ _ w s) by done.
  destruct (follow_ok s L w R) as [(j & q & rem & E & Hj & -> & Hst)|(q & r & Hf & E)].
  - left. rewrite (bind_ok _ _ _ _ _ E). destruct (x_node _ _ _ _ _ _ T Hj) as (n & Hn).
    destruct (insert_loop_ok W rem s L (t_root s) j q n T Hj Hn) as (s' & L' & i & x' & E' & T' & Hx' & Hi & Hs'); auto.
    { intros k r ->. by eapply stuck_single. }
    rewrite (bind_ok _ _ _ _ _ E'). rewrite (bind_ok _ _ _ i s') by done.
    destruct (x_node _ _ _ _ _ _ T' Hi) as (m & Hm). rewrite (set_word_eq _ _ _ _ Hm).
    eexists _, L'. split; [done|]. split.
    + apply mark_ok; [|done..|by apply blank_nil]. destruct Hx' as [->| ->]; [done|]. by apply trepx_root.
    + apply single_flag; auto.
  - right. split; [|by eauto]. destruct r as [|k r].
    + rewrite (bind_ok _ _ _ _ _ E). done.
    + by rewrite (bind_exc _ _ _ _ _ E).
Qed.

(** ** get_lcp *)
Lemma mismatch_spec : forall a b i j, mismatch a b i = Some j ->
  exists l x y a' b', a = l ++ x :: a' /\ b = l ++ y :: b' /\ x <> y /\ j = i + length l.
Proof.
  induction a as [|x a IH]; intros [|y b] i j; cbn; try done. destruct (N.eqb_spec x y) as [->|Hne].
  - intros (l & u & v & a' & b' & -> & -> & ? & ->)%IH. exists (y :: l), u, v, a', b'. cbn. split_and!; try done; lia.
  - intros [= <-]. exists [], x, y, a, b. split_and!; try done; cbn; lia.
Qed.
Lemma mismatch_none : forall a b i, mismatch a b i = None -> a `prefix_of` b \/ b `prefix_of` a.
Proof.
  induction a as [|x a IH]; intros [|y b] i; cbn; try done.
  - left. by exists [].
  - left. by eexists.
  - right. by eexists.
  - destruct (N.eqb_spec x y) as [->|Hne]; [|done]. intros [H|H]%IH; [left|right]; by apply prefix_cons.
Qed.
(** [get_lcp a b] is a common prefix after which the words differ or one ends. *)
Lemma get_lcp_spec a b : exists a' b', a = get_lcp a b ++ a' /\ b = get_lcp a b ++ b' /\
  (a' = [] \/ b' = [] \/ exists x y u v, a' = x :: u /\ b' = y :: v /\ x <> y).
Proof.
  unfold get_lcp. destruct (mismatch a b 0) as [i|] eqn:E.
  - apply mismatch_spec in E as (l & x & y & a' & b' & -> & -> & Hne & ->). cbn. rewrite take_app.
    exists (x :: a'), (y :: b'). split_and!; try done. right. right. by exists x, y, a', b'.
  - apply mismatch_none in E as [[t ->]|[t ->]].
    + rewrite app_length. destruct (Nat.ltb_spec (length a) (length a + length t)).
      * exists [], t. rewrite app_nil_r. split_and!; try done. by left.
      * assert (t = []) as -> by (destruct t; [done|cbn in *; lia]). rewrite app_nil_r.
        exists [], []. rewrite app_nil_r. split_and!; try done. by left.
    + rewrite app_length, (proj2 (Nat.ltb_ge _ _)) by lia.
      exists t, []. rewrite app_nil_r. split_and!; try done. right. by left.
Qed.
Lemma get_lcp_nil b : get_lcp [] b = [].
Proof. destruct (get_lcp_spec [] b) as (a' & b' & H & _). symmetry in H. by apply app_nil in H as [? _]. Qed.

(** ** RadixTrie._insert *)
Definition split_state (s : ts) (i : nat) (n : tnode) (c : nat) (m : tnode) (k : N) (d1 : word) (k2 : N) (d2 : word) : ts :=
  let b := length (t_nodes s) in
  TS (<[b := TN (k :: d1) (Some i) [(k2, c)] false]>
      (<[i := upd_child n k b]>
      (<[c := TN (k2 :: d2) (Some b) (n_children m) (n_word m)]>
      (<[b := TN (k :: d1) None [(k2, c)] false]>
      (<[c := TN (k2 :: d2) (n_parent m) (n_children m) (n_word m)]>
        (t_nodes s ++ [TN (k :: d1) None [] false]))))))
     (t_root s) (t_count s + 1).
Lemma split_run {A} s i n c m k d1 k2 d2 (K : M ts A) :
  t_nodes s !! i = Some n -> t_nodes s !! c = Some m -> c <> i ->
  (set_data c (k2 :: d2) ;; set_child (length (t_nodes s)) k2 c ;;
   set_child i k (length (t_nodes s)) ;; add_count 1 ;; K)
    (TS (t_nodes s ++ [TN (k :: d1) None [] false]) (t_root s) (t_count s))
  = K (split_state s i n c m k d1 k2 d2).
Proof.
  intros Hn Hm Hci. pose proof (lookup_lt_Some _ _ _ Hn) as Hlt. pose proof (lookup_lt_Some _ _ _ Hm) as Hlt'.
  erewrite bind_ok; [|apply (set_data_eq _ c (k2 :: d2) m); cbn; by rewrite lookup_app_l].
  cbn [t_nodes t_root t_count].
  erewrite bind_ok; [|apply (set_child_eq _ (length (t_nodes s)) k2 c (TN (k :: d1) None [] false)
    (TN (k2 :: d2) (n_parent m) (n_children m) (n_word m))); cbn].
  2:{ rewrite list_lookup_insert_ne by lia. by rewrite lookup_app_r, Nat.sub_diag by lia. }
  2:{ apply list_lookup_insert. rewrite app_length. cbn. lia. }
  2:{ lia. }
  cbn [t_nodes t_root t_count].
  erewrite bind_ok; [|apply (set_child_eq _ i k (length (t_nodes s)) n (TN (k :: d1) None [(k2, c)] false)); cbn].
  2:{ rewrite !list_lookup_insert_ne by lia. by rewrite lookup_app_l. }
  2:{ rewrite list_lookup_insert_ne by lia. apply list_lookup_insert. rewrite insert_length, app_length. cbn. lia. }
  2:{ lia. }
  done.
Qed.
Lemma split_lookup s i n c m k d1 k2 d2 :
  t_nodes s !! i = Some n -> t_nodes s !! c = Some m -> c <> i ->
  let b := length (t_nodes s) in let s' := split_state s i n c m k d1 k2 d2 in
  t_nodes s' !! i = Some (upd_child n k b) /\
  t_nodes s' !! b = Some (TN (k :: d1) (Some i) [(k2, c)] false) /\
  t_nodes s' !! c = Some (TN (k2 :: d2) (Some b) (n_children m) (n_word m)) /\
  forall x, x <> b -> x <> i -> x <> c -> t_nodes s' !! x = t_nodes s !! x.
Proof.
  intros Hn Hm Hci b s'. pose proof (lookup_lt_Some _ _ _ Hn) as Hlt. pose proof (lookup_lt_Some _ _ _ Hm) as Hlt'.
  unfold s', split_state. fold b. cbn. assert (b = length (t_nodes s)) as Eb by done. split_and!.
  - rewrite list_lookup_insert_ne by lia. apply list_lookup_insert. rewrite !insert_length, app_length. cbn. lia.
  - apply list_lookup_insert. rewrite !insert_length, app_length. cbn. lia.
  - rewrite !list_lookup_insert_ne by lia. apply list_lookup_insert. rewrite !insert_length, app_length. cbn. lia.
  - intros x H1 H2 H3. rewrite !list_lookup_insert_ne by done.
    destruct (decide (x < length (t_nodes s))) as [Hx|Hx]; [by rewrite lookup_app_l|].
    rewrite lookup_app_r by lia. rewrite list_lookup_singleton.
    rewrite (proj2 (lookup_ge_None (t_nodes s) x)) by lia.
    destruct (x - length (t_nodes s)) eqn:E; [lia|done].
Qed.
Lemma split_ok {fl} s L W i p n c m k d1 k2 d2 :
  trepg fl s L W (t_root s) -> L !! i = Some p -> t_nodes s !! i = Some n -> dget k (n_children n) = Some c ->
  t_nodes s !! c = Some m -> n_data m = (k :: d1) ++ k2 :: d2 ->
  let b := length (t_nodes s) in let s' := split_state s i n c m k d1 k2 d2 in
  L !! b = None /\ trepg fl s' (<[b := p ++ k :: d1]> L) W (t_root s').
Proof.
  intros T Hi Hn Hd Hm Hdm b s'. pose proof (x_rep _ _ _ _ T) as R.
  destruct (child_of _ _ _ _ _ _ _ R Hi Hn (dget_in _ _ _ Hd)) as (m' & r & Hm' & _ & Hr & HLc).
  assert (c <> i) as Hci.
  { intros ->. rewrite Hi in HLc. injection HLc as HLc. apply (f_equal length) in HLc.
    rewrite app_length in HLc. cbn in HLc. lia. }
  destruct (split_lookup s i n c m k d1 k2 d2 Hn Hm Hci) as (Ei & Eb & Ec & Ex). fold b s' in Ei, Eb, Ec, Ex.
  pose proof (lookup_lt_Some _ _ _ Hn) as Hlt. pose proof (lookup_lt_Some _ _ _ Hm) as Hlt'.
  assert (L !! b = None) as Hb by (apply (rep_fresh _ _ _ R); lia).
  assert (forall y q, L !! y = Some q -> y <> b) as Hlive by (intros y q Hyq ->; congruence).
  split; [done|].
  assert (rep s' (<[b := p ++ k :: d1]> L)) as R'.
  { apply (rep_split s s' L i p n c m k d1 k2 d2 b); try done; try lia. intros x ? ? ? _. by apply Ex. }
  split.
  - done.
  - intros Hfl y q my. rewrite lookup_insert_Some. intros [[<- <-]|[Hyc Hy]].
    + rewrite Eb. intros [= <-]. cbn. symmetry. apply bool_decide_eq_false_2.
      intros (x & Hx)%(x_live _ _ _ _ T). pose proof (Hlive _ _ Hx) as Hxb.
      destruct Hxb. apply (r_inj _ _ R' _ _ (p ++ k :: d1)); [|by rewrite lookup_insert].
      rewrite lookup_insert_ne; [done|]. intros <-. congruence.
    + destruct (decide (y = i)) as [->|Hyi]; [|destruct (decide (y = c)) as [->|Hyc']].
      * rewrite Ei. intros [= <-]. cbn. by eapply (x_flagg _ _ _ _ T Hfl).
      * rewrite Ec. intros [= <-]. cbn. by eapply (x_flagg _ _ _ _ T Hfl).
      * rewrite Ex by done. by eapply (x_flagg _ _ _ _ T Hfl).
  - intros q Hq. destruct (x_live _ _ _ _ T _ Hq) as (x & Hx). exists x.
    rewrite lookup_insert_ne; [done|]. by apply not_eq_sym, (Hlive _ _ Hx).
  - apply (x_nil _ _ _ _ T).
  - intros y q my. rewrite lookup_insert_Some. intros [[<- <-]|[Hyc Hy]].
    + rewrite Eb. by intros [= <-].
    + destruct (decide (y = i)) as [->|Hyi]; [|destruct (decide (y = c)) as [->|Hyc']].
      * rewrite Ei. intros [= <-]. cbn. intros H. exfalso.
        destruct (rep_get _ _ _ _ _ R Hi Hn) as (Hnd & _).
        assert ((k, b) ∈ dset k b (n_children n)) as Hin by (apply (dset_in k b c); auto).
        rewrite H in Hin. by apply elem_of_nil in Hin.
      * rewrite Ec. intros [= <-]. cbn. intros H Hq Hr'. exact (x_leaf _ _ _ _ T c q m Hy Hm H Hq Hr').
      * rewrite Ex by done. intros Hmy Hcs Hq Hr'. by eapply (x_leaf _ _ _ _ T).
Qed.

(** What an insertion of [w] adds to the live paths: [w] itself and possibly the point where
    it leaves an existing path. *)
Definition grows (L L' : gmap nat word) (w : word) : Prop :=
  forall i p, L' !! i = Some p -> L !! i = Some p \/ p = w \/
    exists x y u v j, x <> y /\ w = p ++ x :: u /\ L !! j = Some (p ++ y :: v).

(** One more character of fuel than characters is enough; splitting uses up at least one. *)
Lemma radix_leaf_run {fl} s L W x i p n k r fuel newn :
  trepg fl s L W x -> L !! i = Some p -> t_nodes s !! i = Some n -> dget k (n_children n) = None ->
  (x = i \/ x = t_root s) -> 2 <= fuel ->
  exists s' L', radix_loop fuel (Some i) newn (k :: r) s = Ok (Some (length (t_nodes s))) s' /\
    trepg fl s' L' W (length (t_nodes s)) /\ L ⊆ L' /\ L' !! length (t_nodes s) = Some (p ++ k :: r) /\
    (forall i' p', L' !! i' = Some p' -> L !! i' = Some p' \/ p' = p ++ k :: r).
Proof.
  intros T Hi Hn Hd Hx Hf. destruct fuel as [|[|fuel]]; [lia..|].
  destruct (leaf_ok s L W x i p n k r T Hi Hn Hd Hx) as (Hc & T' & _).
  cbn [radix_loop]. rewrite (bind_ok _ _ _ i s) by done.
  rewrite (bind_ok _ _ _ _ _ (get_child_eq _ _ _ k Hn)), Hd.
  rewrite (bind_ok (A:=pystr) _ _ _ [] s) by done. rewrite get_lcp_nil. cbn [length Nat.eqb].
  unfold new_node at 1. unfold bind at 1. rewrite (leaf_run s i n k r) by done.
  cbn [radix_loop]. eexists _, _. split; [done|]. split; [done|]. split; [|split].
  - by apply insert_subseteq.
  - by rewrite lookup_insert.
  - intros i' p' [[_ <-]|[_ H]]%lookup_insert_Some; [by right|by left].
Qed.
Lemma radix_loop_ok {fl} s L W j q rem fuel : trepg fl s L W (t_root s) -> L !! j = Some q -> stuck s j rem ->
  length rem < fuel ->
  exists s' L' i x, radix_loop fuel (Some j) None rem s = Ok (Some i) s' /\
    trepg fl s' L' W x /\ (x = i \/ x = t_root s') /\ L ⊆ L' /\ L' !! i = Some (q ++ rem) /\
    grows L L' (q ++ rem).
Proof.
  intros T Hj Hst Hf. pose proof (x_rep _ _ _ _ T) as R.
  destruct fuel as [|fuel]; [lia|].
  destruct rem as [|k r].
  { cbn. exists s, L, j, (t_root s). rewrite app_nil_r. split_and!; try done; [by right|]. intros i' p'. by left. }
  destruct (x_node _ _ _ _ _ _ T Hj) as (n & Hn).
  destruct Hst as [?|(k' & r' & nj & [= <- <-] & Hnj & [[Hd _]|(c & m & Hd & Hm & Hno)])]; [done|..].
  { rewrite Hn in Hnj. injection Hnj as <-.
    destruct (radix_leaf_run s L W (t_root s) j q n k r (S fuel) None T Hj Hn Hd) as (s' & L' & E & T' & HL & Hi & Hg);
      [by right|cbn in Hf; lia|].
    exists s', L', (length (t_nodes s)), (length (t_nodes s)). split_and!; try done; [by left|].
    intros i' p' [?|?]%Hg; [by left|right; by left]. }
  rewrite Hn in Hnj. injection Hnj as <-.
  destruct (child_of _ _ _ _ _ _ _ R Hj Hn (dget_in _ _ _ Hd)) as (m' & r0 & Hm' & _ & Hr & HLc).
  rewrite Hm in Hm'. injection Hm' as <-.
  assert (c <> j) as Hci.
  { intros ->. rewrite Hj in HLc. injection HLc as HLc. apply (f_equal length) in HLc.
    rewrite app_length in HLc. cbn in HLc. lia. }
  cbn [radix_loop]. rewrite (bind_ok _ _ _ j s) by done.
  rewrite (bind_ok _ _ _ _ _ (get_child_eq _ _ _ k Hn)), Hd.
  rewrite (bind_ok _ _ _ _ _ (data_or_eq _ _ _ _ Hm)).
  destruct (get_lcp_spec (n_data m) (k :: r)) as (a' & b' & Ha & Hb & Hdiff).
  remember (get_lcp (n_data m) (k :: r)) as l eqn:El.
  destruct l as [|k1 d1].
  { exfalso. cbn in Ha, Hb. rewrite Hr in Ha. subst a' b'.
    destruct Hdiff as [?|[?|(x & y & u & v & [= <- <-] & [= <- <-] & ?)]]; done. }
  assert (k1 = k) as -> by (by injection Hb).
  destruct a' as [|k2 d2].
  { exfalso. apply Hno. rewrite Ha, app_nil_r, Hb. by eexists. }
  assert (length (k :: d1) <= length (k :: r)) as Hle.
  { rewrite Hb, app_length. lia. }
  rewrite (proj2 (Nat.eqb_neq (length (k :: d1)) 0)) by (cbn; lia).
  rewrite (proj2 (Nat.leb_le _ _) Hle).
  rewrite (proj2 (Nat.eqb_neq (length (k :: d1)) (length (n_data m)))) by (rewrite Ha, app_length; cbn; lia).
  cbn [andb negb].
  replace (take (length (k :: d1)) (n_data m)) with (k :: d1) by (by rewrite Ha, take_app).
  replace (drop (length (k :: d1)) (n_data m)) with (k2 :: d2) by (by rewrite Ha, drop_app).
  replace (n_data m !! length (k :: d1)) with (Some k2)
    by (rewrite Ha, lookup_app_r, Nat.sub_diag by lia; done).
  replace (drop (length (k :: d1)) (k :: r)) with b' by (by rewrite Hb, drop_app).
  unfold new_node at 1. unfold bind at 1. rewrite (bind_ok _ _ _ c
     (TS (t_nodes s ++ [TN (k :: d1) None [] false]) (t_root s) (t_count s))) by done.
  rewrite Hr.
  match goal with |- context [bind (set_data c (k2 :: d2)) ?K] =>
    replace (bind (set_data c (k2 :: d2)) K) with
      (set_data c (k2 :: d2) ;; set_child (length (t_nodes s)) k2 c ;; set_child j k (length (t_nodes s)) ;;
       add_count 1 ;; radix_loop fuel (Some (length (t_nodes s))) (Some (length (t_nodes s))) b') by done end.
  rewrite (split_run s j n c m k d1 k2 d2) by done.
  destruct (split_ok s L W j q n c m k d1 k2 d2 T Hj Hn Hd Hm Ha) as (Hfr & T').
  destruct (split_lookup s j n c m k d1 k2 d2 Hn Hm Hci) as (_ & Eb & _).
  destruct b' as [|k3 b'].
  - destruct fuel as [|fuel]; [cbn in Hf; lia|]. cbn [radix_loop].
    eexists _, _, _, _. split; [done|]. split; [done|]. split; [by right|]. split; [by apply insert_subseteq|].
    rewrite lookup_insert. split; [by rewrite Hb, app_nil_r|].
    intros i' p' [[_ <-]|[_ H]]%lookup_insert_Some; [|by left]. right. left. by rewrite Hb, app_nil_r.
  - assert (k3 <> k2) as Hk3.
    { destruct Hdiff as [?|[?|(x & y & u & v & [= <- <-] & [= <- <-] & ?)]]; congruence. }
    destruct (radix_leaf_run _ _ W _ (length (t_nodes s)) (q ++ k :: d1) (TN (k :: d1) (Some j) [(k2, c)] false) k3 b' fuel
       (Some (length (t_nodes s))) T') as (s' & L' & E & T'' & HL & Hi & Hg).
    + by rewrite lookup_insert.
    + exact Eb.
    + cbn. destruct (N.eqb_spec k2 k3); [congruence|done].
    + by right.
    + rewrite Hb in Hf. cbn in Hf. rewrite app_length in Hf. cbn in Hf. lia.
    + eexists s', L', _, _. split; [exact E|]. split; [exact T''|]. split; [by left|]. split; [|split].
      * etrans; [by apply insert_subseteq|]. exact HL.
      * rewrite Hi. by rewrite <- (assoc (++)), <- Hb.
      * intros i' p' [[[_ <-]|[_ H]]%lookup_insert_Some| ->]%Hg; [|by left|].
        -- right. right. exists k3, k2, b', d2, c. split; [done|]. rewrite <- !(assoc (++)).
           rewrite HLc, <- Hr, Hb, Ha. done.
        -- right. left. by rewrite <- (assoc (++)), <- Hb.
Qed.
Lemma radix_insert_node_ok {fl} s L W w : trepg fl s L W (t_root s) -> w <> [] ->
  (exists s' L' i, radix_insert_node w s = Ok i s' /\ trepg fl s' L' ({[w]} ∪ W) (t_root s') /\ L ⊆ L' /\ L' !! i = Some w /\
     grows L L' w) \/
  (radix_insert_node w s = Exc AttributeError s /\ exists q r, falls s L w q r).
Proof.
  intros T Hw. pose proof (x_rep _ _ _ _ T) as R. unfold radix_insert_node.
  rewrite bool_decide_eq_false_2 by done. rewrite (bind_ok _ _ _ tt s) by done.
  destruct (follow_ok s L w R) as [(j & q & rem & E & Hj & -> & Hst)|(q & r & Hf & E)].
  - left. rewrite (bind_ok _ _ _ _ _ E).
    destruct (radix_loop_ok s L W j q rem (S (length (q ++ rem))) T Hj Hst) as (s' & L' & i & x' & E' & T' & Hx' & HL & Hi & Hg).
    { rewrite app_length. lia. }
    rewrite (bind_ok _ _ _ _ _ E'). rewrite (bind_ok _ _ _ i s') by done.
    destruct (x_node _ _ _ _ _ _ T' Hi) as (m & Hm). rewrite (bind_ok _ _ _ _ _ (set_word_eq _ _ _ _ Hm)).
    eexists _, L', i. split; [done|]. split; [|done].
    apply mark_ok; [|done..]. destruct Hx' as [->| ->]; [done|]. by apply trepx_root.
  - right. split; [|by eauto]. destruct r as [|k r].
    + rewrite (bind_ok _ _ _ _ _ E). done.
    + by rewrite (bind_exc _ _ _ _ _ E).
Qed.
Lemma radix_insert_ok s L W w : trep s L W -> blank w = false ->
  (exists s' L', radix_insert (PStr w) s = Ok tt s' /\ trep s' L' ({[w]} ∪ W)) \/
  (radix_insert (PStr w) s = Exc AttributeError s /\ exists q r, falls s L w q r).
Proof.
  intros T Hb. unfold radix_insert, trie_validate. rewrite Hb. rewrite (bind_ok _ _ _ w s) by done.
  destruct (radix_insert_node_ok s L W w T (blank_nil _ Hb)) as [(s' & L' & i & E & T' & _)|[E H]].
  - left. rewrite (bind_ok _ _ _ _ _ E). by exists s', L'.
  - right. by rewrite (bind_exc _ _ _ _ _ E).
Qed.

(** ** remove *)
Lemma unmark_ok s L W i p n :
  trep s L W -> L !! i = Some p -> t_nodes s !! i = Some n ->
  let s' := TS (<[i := TN (n_data n) (n_parent n) (n_children n) false]> (t_nodes s)) (t_root s) (t_count s) in
  trepx s' L (W ∖ {[p]}) i.
Proof.
  intros T Hi Hn s'. destruct T as [R Hflag Hlive Hnil Hleaf]. split.
  - by apply rep_flag.
  - intros _ x q m Hx. cbn. destruct (decide (x = i)) as [->|Hne].
    + rewrite list_lookup_insert by (by eapply lookup_lt_Some). intros [= <-]. cbn.
      rewrite Hi in Hx. injection Hx as <-. symmetry. apply bool_decide_eq_false_2. set_solver.
    + rewrite list_lookup_insert_ne by done. intros Hm. rewrite (Hflag I _ _ _ Hx Hm).
      apply bool_decide_ext. rewrite elem_of_difference, elem_of_singleton. split; [|by intros [? ?]].
      intros Hq. split; [done|]. intros ->. destruct Hne. by eapply (r_inj _ _ R).
  - intros q [H _]%elem_of_difference. by apply Hlive.
  - set_solver.
  - intros x q m Hx. cbn. intros Hm Hc Hq Hxi. rewrite list_lookup_insert_ne in Hm by done.
    apply elem_of_difference. split.
    + eapply Hleaf; try done. intros ->. rewrite (r_root _ _ R) in Hx. congruence.
    + intros ->%elem_of_singleton. destruct Hxi. by eapply (r_inj _ _ R).
Qed.
(** The shape does not depend on the flags. *)
Lemma shape_flag s L W x i n b :
  trepg False s L W x -> t_nodes s !! i = Some n ->
  trepg False (TS (<[i := TN (n_data n) (n_parent n) (n_children n) b]> (t_nodes s)) (t_root s) (t_count s)) L W x.
Proof.
  intros [R _ Hlive Hnil Hleaf] Hn. split; try done.
  - by apply rep_flag.
  - intros y q m Hy. cbn. destruct (decide (y = i)) as [->|Hne].
    + rewrite list_lookup_insert by (by eapply lookup_lt_Some). intros [= <-]. cbn. intros Hc. by eapply Hleaf.
    + rewrite list_lookup_insert_ne by done. by eapply Hleaf.
Qed.
Lemma trep_shape s L W x : trepx s L W x -> trepg False s L W x.
Proof. intros []. by split. Qed.
Lemma cut_ok s L W i p n j k d nj :
  trepx s L W i -> L !! i = Some p -> t_nodes s !! i = Some n -> n_word n = false -> n_children n = [] ->
  n_parent n = Some j -> n_data n = k :: d -> t_nodes s !! j = Some nj ->
  trepx (TS (<[j := TN (n_data nj) (n_parent nj) (ddel k (n_children nj)) (n_word nj)]> (t_nodes s))
          (t_root s) (t_count s + -1)) (delete i L) W j.
Proof.
  intros T Hi Hn Hw Hc Hp Hd Hnj. pose proof (x_rep _ _ _ _ T) as R.
  destruct (rep_cut s L i p n j k d nj R Hi Hn Hc Hp Hd Hnj) as (R' & _).
  assert (forall x m, <[j := TN (n_data nj) (n_parent nj) (ddel k (n_children nj)) (n_word nj)]> (t_nodes s) !! x = Some m ->
    exists m', t_nodes s !! x = Some m' /\ n_word m' = n_word m /\ (x <> j -> m' = m) /\ n_data m' = n_data m) as Hlk.
  { intros x m. destruct (decide (x = j)) as [->|Hne].
    - rewrite list_lookup_insert by (by eapply lookup_lt_Some). intros [= <-]. by exists nj.
    - rewrite list_lookup_insert_ne by done. intros Hm. by exists m. }
  split; cbn.
  - done.
  - intros _ x q m. rewrite lookup_delete_Some. intros [Hxi Hx] Hm. destruct (Hlk _ _ Hm) as (m' & Hm' & <- & _).
    by eapply (x_flag _ _ _ _ T).
  - intros q Hq. destruct (x_live _ _ _ _ T _ Hq) as (x & Hx). exists x. rewrite lookup_delete_ne; [done|].
    intros <-. pose proof (x_flag _ _ _ _ T _ _ _ Hx Hn) as Hf. rewrite Hw in Hf. symmetry in Hf.
    by apply bool_decide_eq_false in Hf.
  - apply (x_nil _ _ _ _ T).
  - intros x q m. rewrite lookup_delete_Some. intros [Hxi Hx] Hm Hcm Hq Hxj. destruct (Hlk _ _ Hm) as (m' & Hm' & _ & E & _).
    rewrite <- (E Hxj) in Hcm. by eapply (x_leaf _ _ _ _ T).
Qed.
Lemma single_cut s L i j nj k : single s L -> t_nodes s !! j = Some nj ->
  single (TS (<[j := TN (n_data nj) (n_parent nj) (ddel k (n_children nj)) (n_word nj)]> (t_nodes s))
          (t_root s) (t_count s + -1)) (delete i L).
Proof.
  intros Hs Hnj x q m. rewrite lookup_delete_Some. intros [_ Hx]. cbn.
  destruct (decide (x = j)) as [->|Hne].
  - rewrite list_lookup_insert by (by eapply lookup_lt_Some). intros [= <-]. cbn. by eapply Hs.
  - rewrite list_lookup_insert_ne by done. by eapply Hs.
Qed.
Lemma remove_loop_ok W : forall fuel s L i p,
  trepx s L W i -> L !! i = Some p -> size L < fuel ->
  exists s' L', remove_loop fuel i s = (if decide (W = ∅) then Exc AttributeError s' else Ok tt s') /\
    trep s' L' W /\ (single s L -> single s' L').
Proof.
  induction fuel as [|fuel IH]; intros s L i p T Hi Hf; [lia|].
  pose proof (x_rep _ _ _ _ T) as R. destruct (r_node _ _ R _ _ Hi) as (n & Hn & Hnok).
  cbn [remove_loop]. rewrite (bind_ok _ _ _ _ _ (rd_eq _ _ _ Hn)).
  destruct (n_word n) eqn:Hw; cbn [negb andb].
  { pose proof (x_flag _ _ _ _ T _ _ _ Hi Hn) as Hp. rewrite Hw in Hp. symmetry in Hp. apply bool_decide_eq_true in Hp.
    exists s, L. rewrite decide_False by (intros ->; by apply elem_of_empty in Hp).
    split; [done|]. split; [|done]. destruct T as [T1 T2 T3 T4 T5]. split; try done.
    intros x q m Hx Hm Hc Hq _. destruct (decide (x = i)) as [->|]; [congruence|]. by eapply T5. }
  case_bool_decide as Hc.
  - destruct Hnok as (_ & _ & [[-> Hpar]|(j & q & k & m & Hpar & Hj & Hpq & Hh & Hm & Hin)]).
    + (* the root *)
      destruct (r_rdata _ _ R) as (n' & Hn' & Hd). rewrite Hn in Hn'. injection Hn' as <-. rewrite Hd.
      rewrite (bind_ok _ _ _ 82%N s) by done. rewrite Hpar.
      exists s, L. split; [|done]. rewrite decide_True; [done|].
      apply set_eq. intros w. split; [|by intros ?%elem_of_empty]. intros Hw'. exfalso.
      destruct (x_live _ _ _ _ T _ Hw') as (b & Hb). destruct w as [|k w]; [by apply (x_nil _ _ _ _ T)|].
      destruct (nav _ _ R _ _ _ _ _ _ (r_root _ _ R) Hn Hb) as (c & m & Hin & _).
      rewrite Hc in Hin. by apply elem_of_nil in Hin.
    + apply head_cons in Hh as (d & Hd). rewrite Hd. rewrite (bind_ok _ _ _ k s) by done.
      rewrite Hpar. rewrite (bind_ok _ _ _ j s) by done. rewrite (bind_ok _ _ _ _ _ (rd_eq _ _ _ Hm)).
      destruct (rep_cut s L i p n j k d m R Hi Hn Hc Hpar Hd Hm) as (R' & -> & _).
      unfold wr at 1. unfold bind at 1. unfold add_count at 1. unfold bind at 1. cbn [t_nodes t_root t_count].
      assert (i <> j) as Hij.
      { intros ->. rewrite Hi in Hj. injection Hj as ->. apply (f_equal length) in Hpq. rewrite Hd, app_length in Hpq. cbn in Hpq. lia. }
      destruct (IH (TS (<[j := TN (n_data m) (n_parent m) (ddel k (n_children m)) (n_word m)]> (t_nodes s))
          (t_root s) (t_count s + -1)) (delete i L) j q) as (s' & L' & E & T' & Hs').
      * by eapply cut_ok.
      * by rewrite lookup_delete_ne.
      * pose proof (map_size_delete_Some i L ltac:(by eexists)).
        assert (size L <> 0). { intros H0. apply map_size_empty_inv in H0. by rewrite H0 in Hi. } lia.
      * exists s', L'. split_and!; try done. intros H. by apply Hs', single_cut.
  - exists s, L. rewrite decide_False.
    + split; [done|]. split; [|done]. destruct T as [T1 T2 T3 T4 T5]. split; try done.
      intros x q m Hx Hm Hcm Hq _. destruct (decide (x = i)) as [->|]; [congruence|]. by eapply T5.
    + intros ->. destruct (n_children n) as [|[k c] cs] eqn:Hcs; [done|].
      destruct (child_of _ _ _ _ _ k c R Hi Hn) as (m & r & Hm & _ & _ & HL); [rewrite Hcs; left|].
      destruct (ext s L ∅ i c (p ++ k :: r) T HL) as (t & ?%elem_of_empty); [by destruct p| |done].
      intros n' Hn' Hc' _. congruence.
Qed.
Lemma remove_ok s L W w : trep s L W ->
  (exists s' L', trie_remove (PStr w) s = (if decide (w ∈ W /\ W ∖ {[w]} = ∅) then Exc AttributeError s' else Ok false s') /\
    trep s' L' (W ∖ {[w]}) /\ (single s L -> single s' L')) \/
  (trie_remove (PStr w) s = Exc AttributeError s /\ exists q r, falls s L w q r).
Proof.
  intros T. pose proof (x_rep _ _ _ _ T) as R.
  assert (w ∉ W -> trep s L (W ∖ {[w]})) as Hsame by (intros H; by replace (W ∖ {[w]}) with W by set_solver).
  destruct (decide (w = [])) as [->|Hne].
  { left. pose proof (x_nil _ _ _ _ T). exists s, L. rewrite decide_False by (by intros [? _]). cbn. auto. }
  destruct w as [|k0 w0]; [done|]. cbn [trie_remove]. set (w := k0 :: w0) in *.
  destruct (follow_ok s L w R) as [(j & q & rem & E & Hj & Hw & Hst)|(q & r & Hf & E)].
  - left. rewrite (bind_ok _ _ _ _ _ E). destruct rem as [|k rem].
    + rewrite app_nil_r in Hw. rewrite <- Hw in Hj. rewrite (bind_ok _ _ _ j s) by done.
      destruct (x_node _ _ _ _ _ _ T Hj) as (n & Hn). rewrite (bind_ok _ _ _ _ _ (set_word_eq _ _ _ _ Hn)).
      pose proof (unmark_ok _ _ _ _ _ _ T Hj Hn) as T1. cbv zeta in T1.
      set (s1 := TS (<[j := _]> _) _ _) in *. rewrite (bind_ok _ _ _ s1 s1) by done.
      destruct (remove_loop_ok (W ∖ {[w]}) (S (length (t_nodes s1))) s1 L j w T1 Hj) as (s' & L' & E' & T' & Hs').
      { pose proof (size_le _ _ (x_rep _ _ _ _ T1)). lia. }
      exists s', L'. split; [|split; [done|]].
      * destruct (decide (W ∖ {[w]} = ∅)) as [He|He].
        -- rewrite (bind_exc _ _ _ _ _ E'). rewrite decide_True; [done|]. split; [|done].
           destruct (ext' _ _ _ _ _ T Hj Hne) as (t & Ht).
           destruct (decide (w ++ t = w)) as [E1|E1]; [by rewrite E1 in Ht|]. exfalso.
           apply (not_elem_of_empty (C:=words) (w ++ t)). rewrite <- He. apply elem_of_difference.
           by rewrite elem_of_singleton.
        -- rewrite (bind_ok _ _ _ _ _ E'). rewrite decide_False by (by intros [_ ?]). done.
      * intros H. apply Hs'. by apply single_flag.
    + exists s, L. assert (w ∉ W) as Hnot.
      { intros (b & Hb)%(x_live _ _ _ _ T). rewrite Hw in Hb.
        by pose proof (stuck_path _ _ _ _ _ _ R Hj Hst Hb). }
      rewrite decide_False by (by intros [? _]). split; [done|]. auto.
  - right. split; [|by eauto]. destruct r as [|k r].
    + rewrite (bind_ok _ _ _ _ _ E). done.
    + by rewrite (bind_exc _ _ _ _ _ E).
Qed.

(** ** clear, new, len *)
Lemma trep_new_gen s' L : rep s' L -> L = {[t_root s' := []]} ->
  t_nodes s' !! t_root s' = Some (TN ROOT None [] false) -> trep s' L ∅ /\ single s' L.
Proof.
  intros R EL Hr. subst L. split.
  - split; try done.
    + intros _ i p n [<- <-]%lookup_singleton_Some Hn. rewrite Hr in Hn. injection Hn as <-. done.
    + intros i p n [<- <-]%lookup_singleton_Some. done.
  - intros i p n [<- <-]%lookup_singleton_Some. done.
Qed.
Lemma trep_new : trep trie_new {[0 := []]} ∅ /\ single trie_new {[0 := []]}.
Proof. by apply trep_new_gen; [apply rep_new|..]. Qed.
Lemma clear_ok s : exists s' L', trie_clear s = Ok tt s' /\ trep s' L' ∅ /\ single s' L'.
Proof.
  eexists _, _. split; [done|]. apply (trep_new_gen _ _ (rep_init s)); [done|].
  cbn. by rewrite lookup_app_r, Nat.sub_diag by lia.
Qed.

(** Live paths of a trie whose nodes hold single characters: exactly the prefixes. *)
Lemma live_up s L : rep s L -> single s L -> forall q i p, L !! i = Some p -> q `prefix_of` p -> exists j, L !! j = Some q.
Proof.
  intros R Hs q i p. remember (length p) as N eqn:EN. revert i p EN.
  induction N as [|N IH]; intros i p EN Hi [t ->].
  - assert (q = []) as -> by (destruct q; [done|cbn in EN; lia]). exists (t_root s). apply (r_root _ _ R).
  - destruct t as [|y t _] using rev_ind; [exists i; by rewrite app_nil_r in Hi|].
    destruct (r_node _ _ R _ _ Hi) as (n & Hn & _ & _ & [[-> _]|(j & q' & k & m & Hpar & Hj & Hpq & Hh & Hm & Hin)]).
    { rewrite (r_root _ _ R) in Hi. injection Hi as Hi. rewrite (assoc (++)) in Hi. by destruct (q ++ t). }
    assert (length (n_data n) = 1) as H1.
    { apply (Hs _ _ _ Hi Hn). intros H. rewrite (assoc (++)) in H. by destruct (q ++ t). }
    apply head_cons in Hh as (r & Hr). rewrite Hr in H1, Hpq. destruct r; [|done].
    rewrite (assoc (++)) in Hpq. apply app_inj_tail in Hpq as [<- <-].
    eapply (IH j (q ++ t)); [|done|by eexists].
    rewrite !app_length in EN. rewrite app_length. cbn [length] in EN. lia.
Qed.
Lemma size_single s L W : trep s L W -> single s L -> size L = 1 + size (prefixes W).
Proof.
  intros T Hs. pose proof (x_rep _ _ _ _ T) as R.
  assert (set_map (fun i => default [] (L !! i)) (dom L : gset nat) = ({[ [] ]} ∪ prefixes W : words)) as E.
  { apply set_eq. intros p. rewrite elem_of_map, elem_of_union, elem_of_singleton, elem_of_prefixes. split.
    - intros (i & -> & [p0 Hp]%elem_of_dom). rewrite Hp. cbn.
      destruct (decide (p0 = [])) as [->|Hne]; [by left|]. right. split; [done|].
      destruct (live_prefix _ _ _ _ _ T Hp) as [?|?]; done.
    - intros H. assert (exists i, L !! i = Some p) as [i Hi].
      { destruct H as [->|(Hp & w & Hw & Hpre)]; [exists (t_root s); apply (r_root _ _ R)|].
        destruct (x_live _ _ _ _ T _ Hw) as (b & Hb). by eapply live_up. }
      exists i. rewrite Hi. split; [done|]. by eapply elem_of_dom_2. }
  rewrite <- (size_dom (D:=gset nat) L).
  replace (1 + size (prefixes W)) with (size ({[ [] ]} ∪ prefixes W : words)).
  2:{ rewrite size_union, size_singleton; [done|]. intros p ->%elem_of_singleton [? _]%elem_of_prefixes. done. }
  rewrite <- E. unfold set_map. rewrite size_list_to_set.
  - rewrite fmap_length. done.
  - apply NoDup_fmap_2_strong; [|apply NoDup_elements].
    intros x y [p Hx]%elem_of_elements%elem_of_dom [q Hy]%elem_of_elements%elem_of_dom.
    rewrite Hx, Hy. cbn. intros ->. by eapply (r_inj _ _ R).
Qed.
Lemma len_ok s L W : trep s L W -> single s L -> trie_len s = Ok (1 + Z.of_nat (size (prefixes W)))%Z s.
Proof.
  intros T Hs. unfold trie_len. rewrite (bind_ok _ _ _ s s) by done. unfold ret.
  rewrite (r_count _ _ (x_rep _ _ _ _ T)), (size_single _ _ _ T Hs). f_equal. lia.
Qed.
Lemma is_empty_ok {fl} s L W : trepg fl s L W (t_root s) -> trie_is_empty s = Ok (bool_decide (W = ∅)) s.
Proof.
  intros T. pose proof (x_rep _ _ _ _ T) as R. unfold trie_is_empty. rewrite (bind_ok _ _ _ s s) by done. unfold ret.
  rewrite (r_count _ _ R). f_equal. case_bool_decide as HW.
  - apply Z.eqb_eq. assert (L = {[t_root s := []]}) as ->; [|by rewrite map_size_singleton].
    apply map_eq. intros i. destruct (decide (i = t_root s)) as [->|Hne].
    + by rewrite lookup_singleton, (r_root _ _ R).
    + rewrite lookup_singleton_ne by done. destruct (L !! i) as [p|] eqn:Hi; [|done].
      destruct (ext' _ _ _ _ _ T Hi) as (t & Ht).
      * intros ->. destruct Hne. by apply (path_root _ _ _ R).
      * rewrite HW in Ht. by apply elem_of_empty in Ht.
  - apply Z.eqb_neq. intros H. apply HW, set_eq. intros w. split; [|by intros ?%elem_of_empty]. intros Hw.
    destruct (x_live _ _ _ _ T _ Hw) as (i & Hi).
    assert (i <> t_root s) as Hne. { intros ->. rewrite (r_root _ _ R) in Hi. injection Hi as <-. by apply (x_nil _ _ _ _ T). }
    pose proof (map_size_delete_Some (t_root s) L ltac:(rewrite (r_root _ _ R); by eexists)) as Hsz.
    assert (size (delete (t_root s) L) = 0) as H0 by lia. apply map_size_empty_inv in H0.
    assert (delete (t_root s) L !! i = Some w) as Hd by (by rewrite lookup_delete_ne).
    rewrite H0 in Hd. done.
Qed.
