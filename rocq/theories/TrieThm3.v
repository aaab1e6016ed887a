(** * Tries: counting leaves, walking up *)
From stdpp Require Import gmap.
From Verif Require Import Base TrieModel TrieRep TrieSpec TrieThm TrieThm2.
Local Open Scope py_scope.

(** ** _count_leaf_nodes *)
Definition sum_each {A} (f : A -> M ts nat) : list A -> M ts nat :=
  fix go l := match l with
              | [] => ret 0
              | c :: l' => let! x := f c in let! r := go l' in ret (x + r)
              end.
Lemma sum_each_ok {A B} (f : A -> M ts nat) (l : list A) s (P : B -> A -> Prop) :
  NoDup l ->
  (forall x y b, P b x -> P b y -> x = y) ->
  (forall x, x ∈ l -> exists o, f x s = Ok (length o) s /\ NoDup o /\ forall b, b ∈ o <-> P b x) ->
  exists o, sum_each f l s = Ok (length o) s /\ NoDup o /\ forall b, b ∈ o <-> exists x, x ∈ l /\ P b x.
Proof.
  intros Hnd HP. induction l as [|x l IH]; intros H.
  - exists []. split; [done|]. split; [constructor|]. intros b. split; [by intros ?%elem_of_nil|].
    by intros (x & ?%elem_of_nil & _).
  - apply NoDup_cons in Hnd as [Hx Hnd].
    destruct (H x) as (o & Eo & Hno & Ho); [left|].
    destruct (IH Hnd) as (r & Er & Hnr & Hr); [intros; apply H; by right|].
    exists (o ++ r).
    change (sum_each f (x :: l)) with (bind (f x) (fun o => bind (sum_each f l) (fun r => ret (o + r)))).
    rewrite (bind_ok _ _ _ _ _ Eo).
    rewrite (bind_ok _ _ _ _ _ Er), app_length. split; [done|]. split.
    + apply NoDup_app. split; [done|]. split; [|done]. intros b Hb%Ho (y & Hy & Hby)%Hr.
      destruct Hx. by rewrite (HP _ _ _ Hb Hby).
    + intros b. rewrite elem_of_app, Ho, Hr. setoid_rewrite elem_of_cons. naive_solver.
Qed.
(** The words that begin no other word. *)
Definition leafword (W : words) (w : word) : Prop := w ∈ W /\ forall v, v ∈ W -> w `prefix_of` v -> v = w.
Lemma leaves_ok {fl} s L W : trepg fl s L W (t_root s) -> forall fuel i p n,
  L !! i = Some p -> t_nodes s !! i = Some n -> (p <> [] \/ n_children n <> []) ->
  deeper L (length p) < fuel ->
  exists o, leaves_from fuel i s = Ok (length o) s /\ NoDup o /\
    forall w, w ∈ o <-> leafword W w /\ p `prefix_of` w.
Proof.
  intros T. pose proof (x_rep _ _ _ _ T) as R.
  induction fuel as [|fuel IH]; intros i p n Hi Hn Hne Hf; [lia|].
  destruct (children_part _ _ _ _ _ R Hi Hn) as [Hnd Hc].
  cbn [leaves_from]. rewrite (bind_ok _ _ _ _ _ (rd_eq _ _ _ Hn)).
  destruct (n_children n) as [|kc cs] eqn:Ecs.
  - destruct Hne as [Hp|]; [|done]. exists [p]. split; [done|]. split; [apply NoDup_singleton|].
    assert (forall v, v ∈ W -> p `prefix_of` v -> v = p) as Hext.
    { intros v Hv Hpre. apply (below_child _ _ _ _ _ _ _ T Hi Hn Hv) in Hpre as [->|(c & Hin & _)]; [done|].
      rewrite Ecs in Hin. by apply elem_of_nil in Hin. }
    intros w. rewrite elem_of_list_singleton. split.
    + intros ->. split; [|done]. split; [|done]. apply (x_leaf _ _ _ _ T _ _ _ Hi Hn Ecs Hp).
      intros ->. rewrite (r_root _ _ R) in Hi. congruence.
    + intros [[Hw _] Hpre]. by apply Hext.
  - clear Hne. rewrite <- Ecs in Hnd, Hc |- *.
    destruct (sum_each_ok (leaves_from fuel) (map snd (n_children n)) s
     (fun w c => leafword W w /\ c ∈ map snd (n_children n) /\ exists q, L !! c = Some q /\ q `prefix_of` w)) as (o & Eo & Hno & Ho).
    + done.
    + intros x y w (Hw & Hx & q & Hq & Hpq) (_ & Hy & q' & Hq' & Hpq'). by apply (siblings _ _ _ _ _ _ _ _ _ _ R Hi Hn Hx Hy Hq Hq' Hpq Hpq').
    + intros c Hin. pose proof Hin as Hin'. apply Hc in Hin' as (k & m & r & Hd & Hm & Hr & HL).
      destruct (IH c (p ++ k :: r) m) as (o & Eo & Hno & Ho); try done.
      { left. by destruct p. }
      { pose proof (deeper_lt L c _ (length p) HL) as H. rewrite !app_length in *. cbn in *. lia. }
      exists o. split_and!; try done. intros w. rewrite Ho. split.
      * intros [? ?]. split_and!; try done. by eexists.
      * intros (Hw & _ & q & Hq & Hpre). rewrite HL in Hq. injection Hq as <-. done.
    + exists o. split; [exact Eo|]. split; [done|]. intros w. rewrite Ho. split.
      * intros (c & Hin & Hw & _ & q & Hq & Hpre). split; [done|]. destruct Hw as [Hw _].
        eapply below_child; eauto 10.
      * intros [Hw Hpre]. pose proof Hw as [Hw' Hmax].
        eapply below_child in Hpre as [->|(c & Hin & q & Hq & Hpre)]; try done.
        -- exfalso. destruct kc as [k c].
           destruct (child_of _ _ _ _ _ k c R Hi Hn) as (m & r & Hm & _ & Hr & HL); [rewrite Ecs; left|].
           destruct (ext' _ _ _ _ _ T HL) as (t & Ht); [by destruct p|].
           assert ((p ++ k :: r) ++ t = p) as E. { apply Hmax; [done|]. exists ((k :: r) ++ t). by rewrite (assoc (++)). }
           apply (f_equal length) in E. rewrite !app_length in E. cbn in E. lia.
        -- exists c. split_and!; try done. by exists q.
Qed.
Lemma count_leaves_ok {fl} s L W i p n : trepg fl s L W (t_root s) ->
  L !! i = Some p -> t_nodes s !! i = Some n -> (p <> [] \/ n_children n <> []) ->
  exists o, count_leaves_below i s = Ok (length o) s /\ NoDup o /\
    forall w, w ∈ o <-> leafword W w /\ p `prefix_of` w.
Proof.
  intros T Hi Hn Hne. unfold count_leaves_below. rewrite (bind_ok _ _ _ s s) by done.
  apply (leaves_ok s L W T _ i p n); try done.
  pose proof (deeper_le s L (length p) (x_rep _ _ _ _ T)). lia.
Qed.
Lemma leaves_total_ok {fl} s L W : trepg fl s L W (t_root s) ->
  exists o, trie_leaves s = Ok (length o) s /\ NoDup o /\ forall w, w ∈ o <-> leafword W w.
Proof.
  intros T. pose proof (x_rep _ _ _ _ T) as R. unfold trie_leaves.
  rewrite (bind_ok _ _ _ _ _ (is_empty_ok s L W T)). case_bool_decide as HW.
  - subst W. exists []. split; [done|]. split; [constructor|]. intros w. split; [by intros ?%elem_of_nil|].
    intros [H _]. set_solver.
  - rewrite (bind_ok _ _ _ s s) by done.
    destruct (r_node _ _ R _ _ (r_root _ _ R)) as (n & Hn & _).
    destruct (count_leaves_ok s L W (t_root s) [] n T (r_root _ _ R) Hn) as (o & E & Hno & Ho).
    { right. intros Hc. apply HW. apply set_eq. intros w. split; [|set_solver]. intros Hw. exfalso.
      assert (([] : word) `prefix_of` w) as Hpre by apply prefix_nil.
      apply (below_child _ _ _ _ _ _ _ T (r_root _ _ R) Hn Hw) in Hpre as [->|(c & Hin & _)].
      - by apply (x_nil _ _ _ _ T).
      - rewrite Hc in Hin. by apply elem_of_nil in Hin. }
    exists o. split_and!; try done. intros w. rewrite Ho. split; [by intros []|]. intros H. split; [done|]. apply prefix_nil.
Qed.

(** ** Walking up *)
Definition shallower (L : gmap nat word) (n : nat) : nat :=
  size (filter (fun j => length (default [] (L !! j)) < n) (dom L)).
Lemma shallower_lt L i q n : L !! i = Some q -> length q < n -> shallower L (length q) < shallower L n.
Proof.
  intros Hi Hn. apply subset_size. split.
  - intros j. rewrite !elem_of_filter. intros [? ?]. split; [lia|done].
  - intros H. assert (i ∈ filter (fun j => length (default [] (L !! j)) < length q) (dom L)) as Hin.
    { apply H. apply elem_of_filter. rewrite Hi. split; [done|]. by apply elem_of_dom_2 in Hi. }
    apply elem_of_filter in Hin as [Hin _]. rewrite Hi in Hin. cbn in Hin. lia.
Qed.
Lemma shallower_le s L n : rep s L -> shallower L n <= length (t_nodes s).
Proof.
  intros R. pose proof (size_le _ _ R). rewrite <- (size_dom (D:=gset nat) L) in H.
  assert (shallower L n <= size (dom L)); [|lia].
  apply subseteq_size. intros j. rewrite elem_of_filter. by intros [_ ?].
Qed.
(** The parent of a live node that is not the root. *)
Lemma parent_of s L i p n : rep s L -> L !! i = Some p -> t_nodes s !! i = Some n -> p <> [] ->
  exists j q m k, n_parent n = Some j /\ L !! j = Some q /\ t_nodes s !! j = Some m /\
    (k, i) ∈ n_children m /\ head (n_data n) = Some k /\ p = q ++ n_data n /\
    forall a z, L !! a = Some z -> z `prefix_of` p -> z = p \/ z `prefix_of` q.
Proof.
  intros R Hi Hn Hp. destruct (rep_get _ _ _ _ _ R Hi Hn) as (_ & _ & [[-> ?]|(j & q & k & m & Hpar & Hj & -> & Hh & Hm & Hin)]).
  { rewrite (r_root _ _ R) in Hi. congruence. }
  exists j, q, m, k. split_and!; try done. intros a z Ha Hz.
  destruct (prefix_weak_total z q (q ++ n_data n)) as [H|H]; [done|by eexists|by right|].
  destruct H as [t ->]. destruct t as [|k' t]; [right; by rewrite app_nil_r|]. left.
  apply head_cons in Hh as (r & Hr).
  apply prefix_app_inv in Hz as Hz'. rewrite Hr in Hz'. apply prefix_cons_inv_1 in Hz' as Hk. subst k'.
  destruct (child_data_split _ _ _ _ _ _ _ _ _ R Hj Hm Hin Ha) as (m' & r' & Hm' & Hr' & _ & Hpre).
  rewrite Hn in Hm'. injection Hm' as <-. rewrite Hr in Hr'. injection Hr' as <-.
  f_equal. rewrite Hr. apply prefix_cons_inv_2 in Hz'. f_equal. by apply (anti_symm prefix).
Qed.
(** The point where two live paths part is live. *)
Lemma parting s L a b c x y u v : rep s L -> L !! a = Some (c ++ x :: u) -> L !! b = Some (c ++ y :: v) ->
  x <> y -> exists j, L !! j = Some c.
Proof.
  intros R Ha Hb Hxy.
  assert (forall N j q d, length d <= N -> c = q ++ d -> L !! j = Some q -> exists j', L !! j' = Some c) as H;
    [|by apply (H (length c) (t_root s) [] c); [lia|done|apply (r_root _ _ R)]].
  induction N as [|N IH]; intros j q d HN -> Hj.
  { destruct d; [|cbn in HN; lia]. rewrite app_nil_r. by exists j. }
  destruct d as [|k d]; [rewrite app_nil_r; by exists j|].
  destruct (r_node _ _ R _ _ Hj) as (n & Hn & Hnd & _).
  rewrite <- !(assoc (++)) in Ha, Hb. cbn in Ha, Hb.
  destruct (nav _ _ R _ _ _ _ _ _ Hj Hn Ha) as (e & m & Hin & Hm & Hpre).
  destruct (nav _ _ R _ _ _ _ _ _ Hj Hn Hb) as (e' & m' & Hin' & Hm' & Hpre').
  rewrite (key_unique _ _ _ _ Hnd Hin' Hin) in Hm'. rewrite Hm in Hm'. injection Hm' as <-.
  destruct (child_of _ _ _ _ _ _ _ R Hj Hn Hin) as (m' & r & Hm' & _ & Hr & HL).
  rewrite Hm in Hm'. injection Hm' as <-. rewrite Hr in Hpre, Hpre'.
  apply prefix_cons_inv_2 in Hpre. apply prefix_cons_inv_2 in Hpre'.
  assert (r `prefix_of` d) as [t ->].
  { destruct (prefix_weak_total r d (d ++ x :: u)) as [H|[t ->]]; [done|by eexists|done|].
    destruct t as [|z t]; [by rewrite app_nil_r|].
    apply prefix_app_inv in Hpre. apply prefix_app_inv in Hpre'.
    apply prefix_cons_inv_1 in Hpre. apply prefix_cons_inv_1 in Hpre'. congruence. }
  apply (IH e (q ++ k :: r) t); [|by rewrite <- (assoc (++))|done].
  cbn in HN. rewrite app_length in HN. lia.
Qed.
