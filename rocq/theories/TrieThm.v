(** * Trie and RadixTrie operations against sets of words *)
From stdpp Require Import gmap.
From Verif Require Import Base TrieModel TrieRep TrieSpec.
Local Open Scope py_scope.

(** ** Counting nodes *)
Definition deeper (L : gmap nat word) (n : nat) : nat :=
  size (filter (fun j => n < length (default [] (L !! j))) (dom L)).
Lemma deeper_lt L i q n : L !! i = Some q -> n < length q -> deeper L (length q) < deeper L n.
Proof.
  intros Hi Hn. apply subset_size. split.
  - intros j. rewrite !elem_of_filter. intros [? ?]. split; [lia|done].
  - intros H. assert (i ∈ filter (fun j => length q < length (default [] (L !! j))) (dom L)) as Hin.
    { apply H. apply elem_of_filter. rewrite Hi. split; [done|]. by apply elem_of_dom_2 in Hi. }
    apply elem_of_filter in Hin as [Hin _]. rewrite Hi in Hin. cbn in Hin. lia.
Qed.
Lemma size_le s L : rep s L -> size L <= length (t_nodes s).
Proof.
  intros R. rewrite <- (size_dom (D:=gset nat) L).
  rewrite <- (size_set_seq (C := gset nat) 0 (length (t_nodes s))).
  apply subseteq_size. intros i [p Hi]%elem_of_dom. apply elem_of_set_seq.
  apply (rep_lt _ _ _ _ R) in Hi. lia.
Qed.
Lemma deeper_le s L n : rep s L -> deeper L n <= length (t_nodes s).
Proof.
  intros R. pose proof (size_le _ _ R). rewrite <- (size_dom (D:=gset nat) L) in H.
  assert (deeper L n <= size (dom L)); [|lia].
  apply subseteq_size. intros j. rewrite elem_of_filter. by intros [_ ?].
Qed.

(** ** The trie invariant: live paths and the set of words.  [x] is the one node exempt
    from "a leaf is a word". *)
(** With [fl] the word flags are right as well; without it only the shape is described. *)
Record trepg {fl : Prop} (s : ts) (L : gmap nat word) (W : words) (x : nat) : Prop := {
  x_rep : rep s L;
  x_flagg : fl -> forall i p n, L !! i = Some p -> t_nodes s !! i = Some n -> n_word n = bool_decide (p ∈ W);
  x_live : forall p, p ∈ W -> exists i, L !! i = Some p;
  x_nil : [] ∉ W;
  x_leaf : forall i p n, L !! i = Some p -> t_nodes s !! i = Some n -> n_children n = [] ->
    p <> [] -> i <> x -> p ∈ W;
}.
Global Arguments trepg : clear implicits.
Notation trepx := (trepg True).
Notation trep s L W := (trepx s L W (t_root s)).
Lemma x_flag s L W x : trepx s L W x -> forall i p n, L !! i = Some p -> t_nodes s !! i = Some n -> n_word n = bool_decide (p ∈ W).
Proof. intros T. by apply (x_flagg _ _ _ _ T). Qed.
(** Trie nodes hold one character each. *)
Definition single (s : ts) (L : gmap nat word) : Prop :=
  forall i p n, L !! i = Some p -> t_nodes s !! i = Some n -> p <> [] -> length (n_data n) = 1.

Lemma x_node {fl} s L W x i p : trepg fl s L W x -> L !! i = Some p -> exists n, t_nodes s !! i = Some n.
Proof. intros T Hi. destruct (r_node _ _ (x_rep _ _ _ _ T) _ _ Hi) as (n & ? & _). by exists n. Qed.
Lemma path_root s L i : rep s L -> L !! i = Some [] <-> i = t_root s.
Proof.
  intros R. split.
  - intros H. eapply (r_inj _ _ R); [done|apply (r_root _ _ R)].
  - intros ->. apply (r_root _ _ R).
Qed.

(** Every live path other than the root's extends to a stored word. *)
Lemma ext {fl} s L W x i p :
  trepg fl s L W x -> L !! i = Some p -> p <> [] ->
  (forall n, t_nodes s !! x = Some n -> n_children n = [] -> is_Some (L !! x) -> x = t_root s) ->
  exists t, p ++ t ∈ W.
Proof.
  intros T Hi Hp Hx. pose proof (x_rep _ _ _ _ T) as R.
  remember (deeper L (length p)) as N eqn:EN. assert (deeper L (length p) <= N) as HN by lia. clear EN.
  revert i p Hi Hp HN. induction N as [|N IH]; intros i p Hi Hp HN.
  - destruct (x_node _ _ _ _ _ _ T Hi) as (n & Hn). destruct (n_children n) as [|[k c] cs] eqn:Hc.
    + exists []. rewrite app_nil_r. apply (x_leaf _ _ _ _ T _ _ _ Hi Hn Hc Hp). intros ->.
      rewrite (Hx n) in Hi; [|done|done|by eexists]. rewrite (r_root _ _ R) in Hi. congruence.
    + destruct (child_of _ _ _ _ _ k c R Hi Hn) as (m & r & Hm & _ & _ & HL); [rewrite Hc; left|].
      pose proof (deeper_lt L c _ (length p) HL). rewrite app_length in H. cbn in H. lia.
  - destruct (x_node _ _ _ _ _ _ T Hi) as (n & Hn). destruct (n_children n) as [|[k c] cs] eqn:Hc.
    + exists []. rewrite app_nil_r. apply (x_leaf _ _ _ _ T _ _ _ Hi Hn Hc Hp). intros ->.
      rewrite (Hx n) in Hi; [|done|done|by eexists]. rewrite (r_root _ _ R) in Hi. congruence.
    + destruct (child_of _ _ _ _ _ k c R Hi Hn) as (m & r & Hm & _ & _ & HL); [rewrite Hc; left|].
      destruct (IH c (p ++ k :: r)) as (t & Ht); [done|by destruct p|..].
      { pose proof (deeper_lt L c _ (length p) HL) as H.
        assert (length p < length (p ++ k :: r)) by (rewrite app_length; cbn; lia). lia. }
      exists ((k :: r) ++ t). by rewrite (assoc (++)).
Qed.
Lemma ext' {fl} s L W i p : trepg fl s L W (t_root s) -> L !! i = Some p -> p <> [] -> exists t, p ++ t ∈ W.
Proof. intros T Hi Hp. by eapply ext; eauto. Qed.
Lemma live_prefix {fl} s L W i p : trepg fl s L W (t_root s) -> L !! i = Some p -> is_prefix W p.
Proof.
  intros T Hi. destruct (decide (p = [])) as [->|Hp]; [by left|]. right.
  destruct (ext' _ _ _ _ _ T Hi Hp) as (t & Ht). exists (p ++ t). split; [done|]. by eexists.
Qed.

(** ** _follow_path *)
Lemma prefix_test (d w : word) : d = take (length d) w <-> d `prefix_of` w.
Proof.
  split.
  - intros H. exists (drop (length d) w). rewrite H at 1. by rewrite take_drop.
  - intros [t ->]. by rewrite take_app.
Qed.
(** Why the descent stops at node [j] with [rem] left over. *)
Definition stuck (s : ts) (j : nat) (rem : word) : Prop :=
  rem = [] \/ exists k r nj, rem = k :: r /\ t_nodes s !! j = Some nj /\
    ((dget k (n_children nj) = None /\ k <> RBRACE) \/
     exists c m, dget k (n_children nj) = Some c /\ t_nodes s !! c = Some m /\ ~ n_data m `prefix_of` rem).
(** The descent falls off the trie: after the live path [q] comes a ["}"] that no child of
    its node carries. *)
Definition falls (s : ts) (L : gmap nat word) (w q r : word) : Prop :=
  w = q ++ RBRACE :: r /\
  exists j nj, L !! j = Some q /\ t_nodes s !! j = Some nj /\ dget RBRACE (n_children nj) = None.
Definition fall_result (s : ts) (r : word) : res ts (option nat * word) :=
  match r with [] => Ok (None, []) s | _ => Exc AttributeError s end.

Lemma rd_eq s i n : t_nodes s !! i = Some n -> rd i s = Ok n s.
Proof. unfold rd. by intros ->. Qed.
Lemma get_child_eq s i n ch : t_nodes s !! i = Some n -> get_child i ch s = Ok (dget ch (n_children n)) s.
Proof. intros H. unfold get_child. by rewrite (bind_ok _ _ _ _ _ (rd_eq _ _ _ H)). Qed.
Lemma data_or_eq s c m d : t_nodes s !! c = Some m -> data_or (Some c) d s = Ok (n_data m) s.
Proof. intros H. cbn. by rewrite (bind_ok _ _ _ _ _ (rd_eq _ _ _ H)). Qed.

Lemma follow_loop_ok s L : rep s L -> forall fuel i p w,
  L !! i = Some p -> length w < fuel ->
  (exists j q rem, follow_loop fuel (Some i) w s = Ok (Some j, rem) s /\ L !! j = Some q /\
     p ++ w = q ++ rem /\ stuck s j rem) \/
  (exists q r, falls s L (p ++ w) q r /\ follow_loop fuel (Some i) w s = fall_result s r).
Proof.
  intros R. induction fuel as [|fuel IH]; intros i p w Hi Hf; [lia|].
  destruct w as [|k w].
  { left. exists i, p, []. cbn. split_and!; try done. by left. }
  cbn [follow_loop]. destruct (r_node _ _ R _ _ Hi) as (n & Hn & Hnd & _).
  rewrite (bind_ok _ _ _ i s) by done. rewrite (bind_ok _ _ _ _ _ (get_child_eq _ _ _ k Hn)).
  destruct (dget k (n_children n)) as [c|] eqn:Hd.
  - destruct (child_of _ _ _ _ _ _ _ R Hi Hn (dget_in _ _ _ Hd)) as (m & r & Hm & Hpar & Hr & HL).
    rewrite (bind_ok _ _ _ _ _ (data_or_eq _ _ _ _ Hm)). case_bool_decide as Hpre.
    + apply prefix_test in Hpre as [t Ht]. rewrite Hr in Ht. injection Ht as ->.
      replace (drop (length (n_data m)) (k :: r ++ t)) with t
        by (rewrite Hr; cbn [drop length]; by rewrite drop_app).
      destruct (IH c (p ++ k :: r) t HL) as [(j & q & rem & E & Hj & Hq & Hst)|(q & r' & Hfall & E)].
      { cbn in Hf. rewrite app_length in Hf. lia. }
      * left. exists j, q, rem. split_and!; try done. rewrite <- Hq, <- (assoc (++)). done.
      * right. exists q, r'. split; [|done]. by rewrite <- (assoc (++)) in Hfall.
    + left. exists i, p, (k :: w). split_and!; try done. right. exists k, w, n. split_and!; try done.
      right. exists c, m. split_and!; try done. intros H. destruct Hpre. by apply prefix_test.
  - rewrite (bind_ok _ _ _ [RBRACE] s) by done. cbn [length take drop]. case_bool_decide as Hk.
    + injection Hk as <-. right. exists p, w. split.
      * split; [done|]. by exists i, n.
      * destruct fuel as [|fuel]; [cbn in Hf; lia|]. destruct w as [|k w]; cbn [follow_loop drop]; done.
    + left. exists i, p, (k :: w). split_and!; try done. right. exists k, w, n. split_and!; try done.
      left. split; [done|]. intros ->. done.
Qed.
Lemma follow_ok s L w : rep s L ->
  (exists j q rem, follow_path w s = Ok (Some j, rem) s /\ L !! j = Some q /\ w = q ++ rem /\ stuck s j rem) \/
  (exists q r, falls s L w q r /\ follow_path w s = fall_result s r).
Proof.
  intros R. unfold follow_path. rewrite (bind_ok _ _ _ s s) by done.
  destruct (follow_loop_ok s L R (S (length w)) (t_root s) [] w) as [H|H]; [apply (r_root _ _ R)|lia|by left|by right].
Qed.
(** A stuck descent: is the word a live path, or the beginning of one? *)
Lemma stuck_path s L j q rem b : rep s L -> L !! j = Some q -> stuck s j rem -> L !! b = Some (q ++ rem) -> rem = [].
Proof.
  intros R Hj [?|(k & r & nj & -> & Hnj & [[Hd _]|(c & m & Hd & Hm & Hno)])] Hb; [done|..].
  - by destruct (nav_fresh _ _ _ _ _ _ _ _ R Hj Hnj Hd Hb).
  - exfalso. apply Hno.
    destruct (child_data_split _ _ _ _ _ _ _ _ _ R Hj Hnj (dget_in _ _ _ Hd) Hb) as (m' & r' & Hm' & Hr & _ & Hpre).
    rewrite Hm in Hm'. injection Hm' as <-. rewrite Hr. by apply prefix_cons.
Qed.
Lemma stuck_below s L j q k r nj b t : rep s L -> L !! j = Some q -> t_nodes s !! j = Some nj ->
  stuck s j (k :: r) -> L !! b = Some (q ++ (k :: r) ++ t) ->
  exists c m, dget k (n_children nj) = Some c /\ t_nodes s !! c = Some m /\ k :: r `prefix_of` n_data m.
Proof.
  intros R Hj Hnj [?|(k' & r' & nj' & [= <- <-] & Hnj' & [[Hd _]|(c & m & Hd & Hm & Hno)])] Hb; [done|..];
    rewrite Hnj in Hnj'; injection Hnj' as <-.
  - by destruct (nav_fresh _ _ _ _ _ _ _ _ R Hj Hnj Hd Hb).
  - exists c, m. split_and!; try done.
    destruct (child_data_split _ _ _ _ _ _ _ _ _ R Hj Hnj (dget_in _ _ _ Hd) Hb) as (m' & r' & Hm' & Hr & _ & Hpre).
    rewrite Hm in Hm'. injection Hm' as <-. rewrite Hr in Hno |- *.
    destruct (prefix_weak_total r' r (r ++ t)) as [H|H]; [done|by eexists|..].
    + destruct Hno. by apply prefix_cons.
    + by apply prefix_cons.
Qed.
Lemma falls_path s L w q r b t : rep s L -> falls s L w q r -> L !! b <> Some (w ++ t).
Proof.
  intros R [-> (j & nj & Hj & Hnj & Hd)] Hb. rewrite <- (assoc (++)) in Hb.
  by destruct (nav_fresh _ _ _ _ _ _ _ _ R Hj Hnj Hd Hb).
Qed.
Lemma falls_brace s L w q r : falls s L w q r -> ~ no_brace w.
Proof. intros [-> _] H. apply H. apply elem_of_app. right. left. Qed.
Lemma falls_not_prefix {fl} s L W x w q r : trepg fl s L W x -> falls s L w q r ->
  (forall v, v ∈ W -> ~ w `prefix_of` v).
Proof.
  intros T Hf v Hv [t ->]. destruct (x_live _ _ _ _ T _ Hv) as (i & Hi).
  by eapply falls_path; [apply (x_rep _ _ _ _ T)|..].
Qed.

(** ** Queries *)
Lemma contains_ok s L W w : trep s L W ->
  trie_contains (PStr w) s = Ok (bool_decide (w ∈ W)) s \/
  (trie_contains (PStr w) s = Exc AttributeError s /\ exists q r, falls s L w q r).
Proof.
  intros T. pose proof (x_rep _ _ _ _ T) as R. unfold trie_contains.
  destruct (follow_ok s L w R) as [(j & q & rem & E & Hj & -> & Hst)|(q & r & Hf & E)].
  - left. rewrite (bind_ok _ _ _ _ _ E). destruct rem as [|k rem].
    + rewrite app_nil_r. unfold is_word. rewrite (bind_ok _ _ _ j s) by done.
      destruct (x_node _ _ _ _ _ _ T Hj) as (n & Hn). rewrite (bind_ok _ _ _ _ _ (rd_eq _ _ _ Hn)).
      by rewrite (x_flag _ _ _ _ T _ _ _ Hj Hn).
    + rewrite bool_decide_eq_false_2; [done|]. intros (b & Hb)%(x_live _ _ _ _ T).
      by pose proof (stuck_path _ _ _ _ _ _ R Hj Hst Hb).
  - right. split; [|by eauto]. destruct r as [|k r].
    + rewrite (bind_ok _ _ _ _ _ E). done.
    + by rewrite (bind_exc _ _ _ _ _ E).
Qed.
Lemma is_prefix_dec W p : Decision (is_prefix W p).
Proof.
  destruct (decide (p = [] \/ p ∈ prefixes W)) as [H|H].
  - left. destruct H as [->|H%elem_of_prefixes]; [by left|]. right. naive_solver.
  - right. intros [->|?]; apply H; [by left|]. destruct (decide (p = [])); [by left|]. right.
    by apply elem_of_prefixes.
Qed.
Lemma has_prefix_ok {fl} s L W w : trepg fl s L W (t_root s) ->
  (exists b, trie_has_prefix (PStr w) s = Ok b s /\ (b = true <-> is_prefix W w)) \/
  (exists q r, falls s L w q r /\
     trie_has_prefix (PStr w) s = match r with [] => Ok true s | _ => Exc AttributeError s end).
Proof.
  intros T. pose proof (x_rep _ _ _ _ T) as R. unfold trie_has_prefix.
  destruct (follow_ok s L w R) as [(j & q & rem & E & Hj & -> & Hst)|(q & r & Hf & E)].
  - left. rewrite (bind_ok _ _ _ _ _ E). destruct rem as [|k rem].
    + exists true. split; [done|]. split; [|done]. intros _. rewrite app_nil_r.
      by eapply live_prefix.
    + rewrite (bind_ok _ _ _ j s) by done.
      destruct (x_node _ _ _ _ _ _ T Hj) as (n & Hn). rewrite (bind_ok _ _ _ _ _ (get_child_eq _ _ _ k Hn)).
      destruct (dget k (n_children n)) as [c|] eqn:Hd.
      * destruct (child_of _ _ _ _ _ _ _ R Hj Hn (dget_in _ _ _ Hd)) as (m & r & Hm & Hpar & Hr & HL).
        rewrite (bind_ok _ _ _ _ _ (data_or_eq _ _ _ _ Hm)). eexists. split; [done|].
        rewrite bool_decide_eq_true. split.
        -- intros Ht. symmetry in Ht. apply prefix_test in Ht as [t Ht]. right.
           destruct (ext' _ _ _ _ _ T HL) as (t' & Ht'); [by destruct q|].
           eexists. split; [done|]. rewrite <- Hr, Ht. exists (t ++ t'). by rewrite <- !(assoc (++)).
        -- intros [?|(w & Hw & t & ->)]; [by destruct q|].
           destruct (x_live _ _ _ _ T _ Hw) as (b & Hb). rewrite <- (assoc (++)) in Hb.
           destruct (stuck_below _ _ _ _ _ _ _ _ _ R Hj Hn Hst Hb) as (c' & m' & Hd' & Hm' & Hpre).
           symmetry. apply prefix_test. congruence.
      * rewrite (bind_ok (A:=pystr) _ _ _ [] s) by done. eexists. split; [done|]. cbn.
        rewrite bool_decide_eq_false_2 by done. split; [done|].
        intros [?|(w & Hw & t & ->)]; [by destruct q|].
        destruct (x_live _ _ _ _ T _ Hw) as (b & Hb). rewrite <- (assoc (++)) in Hb.
        by destruct (nav_fresh _ _ _ _ _ _ _ _ R Hj Hn Hd Hb).
  - right. exists q, r. split; [done|]. destruct r as [|k r].
    + by rewrite (bind_ok _ _ _ _ _ E).
    + by rewrite (bind_exc _ _ _ _ _ E).
Qed.

(** ** auto_complete *)
Lemma extend_map_ok {A B} (f : A -> M ts (list B)) (l : list A) s (P : B -> A -> Prop) :
  NoDup l ->
  (forall x y b, P b x -> P b y -> x = y) ->
  (forall x, x ∈ l -> exists o, f x s = Ok o s /\ NoDup o /\ forall b, b ∈ o <-> P b x) ->
  exists o, extend_map f l s = Ok o s /\ NoDup o /\ forall b, b ∈ o <-> exists x, x ∈ l /\ P b x.
Proof.
  intros Hnd HP. induction l as [|x l IH]; intros H.
  - exists []. split; [done|]. split; [constructor|]. intros b. split; [by intros ?%elem_of_nil|].
    by intros (x & ?%elem_of_nil & _).
  - apply NoDup_cons in Hnd as [Hx Hnd].
    destruct (H x) as (o & Eo & Hno & Ho); [left|].
    destruct (IH Hnd) as (r & Er & Hnr & Hr); [intros; apply H; by right|].
    exists (o ++ r).
    change (extend_map f (x :: l)) with (bind (f x) (fun o => bind (extend_map f l) (fun r => ret (o ++ r)))).
    rewrite (bind_ok _ _ _ _ _ Eo).
    rewrite (bind_ok _ _ _ _ _ Er). split; [done|]. split.
    + apply NoDup_app. split; [done|]. split; [|done]. intros b Hb%Ho (y & Hy & Hby)%Hr.
      destruct Hx. by rewrite (HP _ _ _ Hb Hby).
    + intros b. rewrite elem_of_app, Ho, Hr. setoid_rewrite elem_of_cons. naive_solver.
Qed.
(** The words below the children of a node. *)
Lemma children_part s L i p n : rep s L -> L !! i = Some p -> t_nodes s !! i = Some n ->
  NoDup (map snd (n_children n)) /\
  forall c, c ∈ map snd (n_children n) <-> exists k m r, dget k (n_children n) = Some c /\
     t_nodes s !! c = Some m /\ n_data m = k :: r /\ L !! c = Some (p ++ k :: r).
Proof.
  intros R Hi Hn. destruct (rep_get _ _ _ _ _ R Hi Hn) as (Hnd & _). split.
  - assert (forall k k' c, (k, c) ∈ n_children n -> (k', c) ∈ n_children n -> k = k') as Hu.
    { intros k k' c H H'. destruct (child_of _ _ _ _ _ _ _ R Hi Hn H) as (m & r & Hm & _ & Hr & _).
      destruct (child_of _ _ _ _ _ _ _ R Hi Hn H') as (m' & r' & Hm' & _ & Hr' & _). congruence. }
    apply nodup_fst in Hnd. revert Hu Hnd. generalize (n_children n). intros l.
    induction l as [|[k c] l IH]; cbn; [constructor|]. intros Hu [Hx Hnd]%NoDup_cons.
    apply NoDup_cons. split.
    + intros ([k' c'] & -> & Hin)%elem_of_list_fmap. cbn in *. destruct Hx.
      rewrite (Hu k k' c'); [done|by left|by right].
    + apply IH; [|done]. intros k1 k2 c1 H1 H2. eapply Hu; by right.
  - intros c. split.
    + intros ([k c'] & -> & Hin)%elem_of_list_fmap. cbn.
      destruct (child_of _ _ _ _ _ _ _ R Hi Hn Hin) as (m & r & Hm & _ & Hr & HL).
      exists k, m, r. split_and!; try done. by apply in_dget.
    + intros (k & m & r & Hd & _). apply elem_of_list_fmap. exists (k, c). split; [done|]. by apply dget_in.
Qed.
(** [c] is the child of [i] through which the word [w] goes. *)
Lemma below_child {fl} s L W i p n w : trepg fl s L W (t_root s) -> L !! i = Some p -> t_nodes s !! i = Some n -> w ∈ W ->
  p `prefix_of` w <-> w = p \/
    exists c, c ∈ map snd (n_children n) /\ exists q, L !! c = Some q /\ q `prefix_of` w.
Proof.
  intros T Hi Hn Hw. pose proof (x_rep _ _ _ _ T) as R.
  destruct (children_part _ _ _ _ _ R Hi Hn) as [_ Hc]. split.
  - intros [t ->]. destruct t as [|k t]; [left; by rewrite app_nil_r|]. right.
    destruct (x_live _ _ _ _ T _ Hw) as (b & Hb).
    destruct (nav _ _ R _ _ _ _ _ _ Hi Hn Hb) as (c & m & Hin & Hm & Hpre).
    destruct (child_of _ _ _ _ _ _ _ R Hi Hn Hin) as (m' & r & Hm' & _ & Hr & HL).
    rewrite Hm in Hm'. injection Hm' as <-. exists c. split.
    + apply elem_of_list_fmap. by exists (k, c).
    + exists (p ++ k :: r). split; [done|]. rewrite <- Hr. by apply prefix_app.
  - intros [->|(c & Hin & q & Hq & Hpre)]; [done|].
    apply Hc in Hin as (k & m & r & Hd & Hm & Hr & HL). rewrite HL in Hq. injection Hq as <-.
    destruct Hpre as [t ->]. exists ((k :: r) ++ t). by rewrite <- (assoc (++)).
Qed.
Lemma siblings s L i p n c c' q q' w : rep s L -> L !! i = Some p -> t_nodes s !! i = Some n ->
  c ∈ map snd (n_children n) -> c' ∈ map snd (n_children n) ->
  L !! c = Some q -> L !! c' = Some q' -> q `prefix_of` w -> q' `prefix_of` w -> c = c'.
Proof.
  intros R Hi Hn Hc Hc' Hq Hq' [t ->] [t' Ht'].
  destruct (children_part _ _ _ _ _ R Hi Hn) as [_ H].
  apply H in Hc as (k & m & r & Hd & Hm & Hr & HL). rewrite HL in Hq. injection Hq as <-.
  apply H in Hc' as (k' & m' & r' & Hd' & Hm' & Hr' & HL'). rewrite HL' in Hq'. injection Hq' as <-.
  rewrite <- !(assoc (++)) in Ht'. apply app_inv_head in Ht'. injection Ht' as ->. congruence.
Qed.

Lemma mjoin_app_ {A} (a b : list (list A)) : mjoin (a ++ b) = mjoin a ++ mjoin b.
Proof.
  induction a as [|x a IH]; [done|]. change (x ++ mjoin (a ++ b) = (x ++ mjoin a) ++ mjoin b).
  by rewrite IH, (assoc (++)).
Qed.
Lemma candidates_ok s L W : trep s L W -> forall fuel i p n prev,
  L !! i = Some p -> t_nodes s !! i = Some n -> mjoin prev ++ n_data n = p ->
  deeper L (length p) < fuel ->
  exists o, get_candidates fuel i prev s = Ok o s /\ NoDup o /\ forall w, w ∈ o <-> w ∈ W /\ p `prefix_of` w.
Proof.
  intros T. pose proof (x_rep _ _ _ _ T) as R.
  induction fuel as [|fuel IH]; intros i p n prev Hi Hn Hp Hf; [lia|].
  destruct (children_part _ _ _ _ _ R Hi Hn) as [Hnd Hc].
  assert (mjoin (prev ++ [n_data n]) = p) as Hj. { rewrite mjoin_app_. change (mjoin [n_data n]) with (n_data n ++ []). by rewrite app_nil_r. }
  cbn [get_candidates]. rewrite (bind_ok _ _ _ _ _ (rd_eq _ _ _ Hn)).
  destruct (extend_map_ok (fun child => get_candidates fuel child (prev ++ [n_data n])) (map snd (n_children n)) s
     (fun w c => w ∈ W /\ c ∈ map snd (n_children n) /\ exists q, L !! c = Some q /\ q `prefix_of` w)) as (o & Eo & Hno & Ho).
  - done.
  - intros x y w (Hw & Hx & q & Hq & Hpq) (_ & Hy & q' & Hq' & Hpq'). by apply (siblings _ _ _ _ _ _ _ _ _ _ R Hi Hn Hx Hy Hq Hq' Hpq Hpq').
  - intros c Hin. pose proof Hin as Hin'. apply Hc in Hin' as (k & m & r & Hd & Hm & Hr & HL).
    destruct (IH c (p ++ k :: r) m (prev ++ [n_data n])) as (o & Eo & Hno & Ho); try done.
    { by rewrite Hj, Hr. }
    { pose proof (deeper_lt L c _ (length p) HL) as H. rewrite !app_length in *. cbn in *. lia. }
    exists o. split_and!; try done. intros w. rewrite Ho. split.
    + intros [? ?]. split_and!; try done. by eexists.
    + intros (Hw & _ & q & Hq & Hpre). rewrite HL in Hq. injection Hq as <-. done.
  - rewrite (bind_ok _ _ _ _ _ Eo). eexists. split; [done|]. rewrite Hj.
    rewrite (x_flag _ _ _ _ T _ _ _ Hi Hn). split.
    + apply NoDup_app. split; [case_bool_decide; [apply NoDup_singleton|constructor]|]. split; [|done].
      intros w Hw (c & Hin & _ & _ & q & Hq & Hpre)%Ho.
      case_bool_decide; [|by apply elem_of_nil in Hw]. apply elem_of_list_singleton in Hw as ->.
      apply Hc in Hin as (k & m & r & Hd & Hm & Hr & HL). rewrite HL in Hq. injection Hq as <-.
      apply prefix_length in Hpre. rewrite app_length in Hpre. cbn in Hpre. lia.
    + intros w. rewrite elem_of_app, Ho. split.
      * intros [Hw|(c & Hin & Hw & _ & q & Hq & Hpre)].
        -- case_bool_decide; [|by apply elem_of_nil in Hw]. apply elem_of_list_singleton in Hw as ->. done.
        -- split; [done|]. eapply below_child; eauto 10.
      * intros [Hw Hpre]. eapply below_child in Hpre as [->|(c & Hin & q & Hq & Hpre)]; try done.
        -- left. rewrite bool_decide_eq_true_2 by done. left.
        -- right. exists c. split_and!; try done. by exists q.
Qed.
Lemma complete_ok s L W i p : trep s L W -> L !! i = Some p ->
  exists o, complete_from (Some i) p s = Ok o s /\ NoDup o /\ forall w, w ∈ o <-> w ∈ W /\ p `prefix_of` w.
Proof.
  intros T Hi. pose proof (x_rep _ _ _ _ T) as R. destruct (x_node _ _ _ _ _ _ T Hi) as (n & Hn).
  destruct (children_part _ _ _ _ _ R Hi Hn) as [Hnd Hc].
  unfold complete_from, is_word. rewrite (bind_ok _ _ _ (n_word n) s)
    by (rewrite (bind_ok _ _ _ i s) by done; by rewrite (bind_ok _ _ _ _ _ (rd_eq _ _ _ Hn))).
  rewrite (bind_ok _ _ _ i s) by done. rewrite (bind_ok _ _ _ _ _ (rd_eq _ _ _ Hn)).
  rewrite (bind_ok _ _ _ s s) by done.
  destruct (extend_map_ok (fun child => get_candidates (S (length (t_nodes s))) child [p]) (map snd (n_children n)) s
     (fun w c => w ∈ W /\ c ∈ map snd (n_children n) /\ exists q, L !! c = Some q /\ q `prefix_of` w)) as (o & Eo & Hno & Ho).
  - done.
  - intros x y w (Hw & Hx & q & Hq & Hpq) (_ & Hy & q' & Hq' & Hpq'). by apply (siblings _ _ _ _ _ _ _ _ _ _ R Hi Hn Hx Hy Hq Hq' Hpq Hpq').
  - intros c Hin. pose proof Hin as Hin'. apply Hc in Hin' as (k & m & r & Hd & Hm & Hr & HL).
    destruct (candidates_ok s L W T (S (length (t_nodes s))) c (p ++ k :: r) m [p]) as (o & Eo & Hno & Ho); try done.
    { cbn. by rewrite app_nil_r, Hr. }
    { pose proof (deeper_le s L (length (p ++ k :: r)) R). lia. }
    exists o. split_and!; try done. intros w. rewrite Ho. split.
    + intros [? ?]. split_and!; try done. by eexists.
    + intros (Hw & _ & q & Hq & Hpre). rewrite HL in Hq. injection Hq as <-. done.
  - rewrite (bind_ok _ _ _ _ _ Eo). eexists. split; [done|].
    rewrite (x_flag _ _ _ _ T _ _ _ Hi Hn). split.
    + apply NoDup_app. split; [case_bool_decide; [apply NoDup_singleton|constructor]|]. split; [|done].
      intros w Hw (c & Hin & _ & _ & q & Hq & Hpre)%Ho.
      case_bool_decide; [|by apply elem_of_nil in Hw]. apply elem_of_list_singleton in Hw as ->.
      apply Hc in Hin as (k & m & r & Hd & Hm & Hr & HL). rewrite HL in Hq. injection Hq as <-.
      apply prefix_length in Hpre. rewrite app_length in Hpre. cbn in Hpre. lia.
    + intros w. rewrite elem_of_app, Ho. split.
      * intros [Hw|(c & Hin & Hw & _ & q & Hq & Hpre)].
        -- case_bool_decide; [|by apply elem_of_nil in Hw]. apply elem_of_list_singleton in Hw as ->. done.
        -- split; [done|]. eapply below_child; eauto 10.
      * intros [Hw Hpre]. eapply below_child in Hpre as [->|(c & Hin & q & Hq & Hpre)]; try done.
        -- left. rewrite bool_decide_eq_true_2 by done. left.
        -- right. exists c. split_and!; try done. by exists q.
Qed.
(** Trie.auto_complete: the whole prefix must be a path, because nodes hold one character. *)
Lemma trie_complete_ok s L W w : trep s L W -> single s L ->
  (exists o, trie_auto_complete (PStr w) s = Ok o s /\ NoDup o /\ forall v, v ∈ o <-> v ∈ W /\ w `prefix_of` v) \/
  (trie_auto_complete (PStr w) s = Exc AttributeError s /\ exists q r, falls s L w q r).
Proof.
  intros T Hs. pose proof (x_rep _ _ _ _ T) as R. unfold trie_auto_complete.
  rewrite (bind_ok _ _ _ w s) by done.
  destruct (follow_ok s L w R) as [(j & q & rem & E & Hj & -> & Hst)|(q & r & Hf & E)].
  - left. rewrite (bind_ok _ _ _ _ _ E). destruct rem as [|k rem].
    + rewrite app_nil_r. by eapply complete_ok.
    + exists []. split; [done|]. split; [constructor|]. intros v. split; [by intros ?%elem_of_nil|].
      intros [Hv [t ->]]. exfalso. destruct (x_live _ _ _ _ T _ Hv) as (b & Hb).
      destruct (x_node _ _ _ _ _ _ T Hj) as (n & Hn).
      rewrite <- (assoc (++)) in Hb. destruct (stuck_below _ _ _ _ _ _ _ _ _ R Hj Hn Hst Hb) as (c & m & Hd & Hm & Hpre).
      destruct (child_of _ _ _ _ _ _ _ R Hj Hn (dget_in _ _ _ Hd)) as (m' & r & Hm' & _ & Hr & HL).
      rewrite Hm in Hm'. injection Hm' as <-.
      assert (length (n_data m) = 1) as H1 by (eapply Hs; [done..|]; by destruct q).
      assert (rem = []) as ->. { apply prefix_length in Hpre. cbn in Hpre. destruct rem; [done|]. cbn in Hpre. lia. }
      assert (r = []) as -> by (rewrite Hr in H1; destruct r; done).
      by pose proof (stuck_path _ _ _ _ _ _ R Hj Hst HL).
  - right. split; [|by eauto]. destruct r as [|k r].
    + rewrite (bind_ok _ _ _ _ _ E). done.
    + by rewrite (bind_exc _ _ _ _ _ E).
Qed.
Lemma radix_complete_ok s L W w : trep s L W ->
  (exists o, radix_auto_complete (PStr w) s = Ok o s /\ NoDup o /\ forall v, v ∈ o <-> v ∈ W /\ w `prefix_of` v) \/
  (radix_auto_complete (PStr w) s = Exc AttributeError s /\ exists q r, falls s L w q r).
Proof.
  intros T. pose proof (x_rep _ _ _ _ T) as R. unfold radix_auto_complete.
  rewrite (bind_ok _ _ _ w s) by done.
  destruct (follow_ok s L w R) as [(j & q & rem & E & Hj & -> & Hst)|(q & r & Hf & E)].
  - left. rewrite (bind_ok _ _ _ _ _ E). destruct rem as [|k rem].
    + rewrite app_nil_r. by eapply complete_ok.
    + rewrite (bind_ok _ _ _ j s) by done. destruct (x_node _ _ _ _ _ _ T Hj) as (n & Hn).
      rewrite (bind_ok _ _ _ _ _ (get_child_eq _ _ _ k Hn)).
      assert (take (length (q ++ k :: rem) - length (k :: rem)) (q ++ k :: rem) = q) as Htk.
      { rewrite app_length. replace (length q + _ - _) with (length q) by lia. by rewrite take_app. }
      destruct (dget k (n_children n)) as [c|] eqn:Hd.
      * destruct (child_of _ _ _ _ _ _ _ R Hj Hn (dget_in _ _ _ Hd)) as (m & r & Hm & Hpar & Hr & HL).
        rewrite (bind_ok _ _ _ _ _ (data_or_eq _ _ _ _ Hm)).
        destruct (decide (k :: rem `prefix_of` n_data m)) as [Hpre|Hpre].
        -- rewrite bool_decide_eq_true_2 by (symmetry; by apply prefix_test).
           rewrite (proj2 (Nat.ltb_ge _ _)) by (by apply prefix_length). cbn [orb negb].
           rewrite Htk, Hr. destruct (complete_ok _ _ _ _ _ T HL) as (o & Eo & Hno & Ho).
           exists o. split_and!; try done. intros v. rewrite Ho. rewrite Hr in Hpre. split.
           ++ intros [Hv Hp']. split; [done|]. etrans; [|done]. by apply prefix_app.
           ++ intros [Hv [t ->]]. split; [done|]. destruct (x_live _ _ _ _ T _ Hv) as (b & Hb).
              rewrite <- (assoc (++)) in Hb |- *.
              destruct (child_data_split _ _ _ _ _ _ _ _ _ R Hj Hn (dget_in _ _ _ Hd) Hb) as (m' & r' & Hm' & Hr' & _ & Hp').
              rewrite Hm in Hm'. injection Hm' as <-. rewrite Hr in Hr'. injection Hr' as <-.
              apply prefix_app. cbn. by apply prefix_cons.
        -- rewrite (bool_decide_eq_false_2 (take _ _ = _)).
           2:{ intros H. apply Hpre. apply prefix_test. by symmetry. }
           rewrite orb_true_r. exists []. split; [done|]. split; [constructor|].
           intros v. split; [by intros ?%elem_of_nil|]. intros [Hv [t ->]]. exfalso.
           destruct (x_live _ _ _ _ T _ Hv) as (b & Hb). rewrite <- (assoc (++)) in Hb.
           destruct (stuck_below _ _ _ _ _ _ _ _ _ R Hj Hn Hst Hb) as (c' & m' & Hd' & Hm' & Hp').
           congruence.
      * rewrite (bind_ok (A:=pystr) _ _ _ [] s) by done. cbn. exists []. split; [done|]. split; [constructor|].
        intros v. split; [by intros ?%elem_of_nil|]. intros [Hv [t ->]]. exfalso.
        destruct (x_live _ _ _ _ T _ Hv) as (b & Hb). rewrite <- (assoc (++)) in Hb.
        by destruct (nav_fresh _ _ _ _ _ _ _ _ R Hj Hn Hd Hb).
  - right. split; [|by eauto]. destruct r as [|k r].
    + rewrite (bind_ok _ _ _ _ _ E). done.
    + by rewrite (bind_exc _ _ _ _ _ E).
Qed.
