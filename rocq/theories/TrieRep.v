(** * Tries as sets of paths: the representation invariant and the store updates

    [L] maps each live node to its path, the concatenation of the data on the way down
    from the root. *)
From stdpp Require Import gmap.
From Verif Require Import Base TrieModel.

(** ** Dictionaries *)
Lemma dget_in ch d c : dget ch d = Some c -> (ch, c) ∈ d.
Proof.
  induction d as [|[k v] d IH]; cbn; [done|]. destruct (N.eqb_spec k ch) as [->|].
  - intros [= ->]. left.
  - intros H. right. by apply IH.
Qed.
Lemma in_dget ch d c : NoDup d.*1 -> (ch, c) ∈ d -> dget ch d = Some c.
Proof.
  induction d as [|[k v] d IH]; cbn; [by intros _ ?%elem_of_nil|].
  intros [Hk Hnd]%NoDup_cons [Hin|Hin]%elem_of_cons.
  - injection Hin as <- <-. by rewrite N.eqb_refl.
  - destruct (N.eqb_spec k ch) as [->|]; [|by apply IH].
    destruct Hk. apply elem_of_list_fmap. by exists (ch, c).
Qed.
Lemma dget_none ch d : dget ch d = None <-> ch ∉ d.*1.
Proof.
  induction d as [|[k v] d IH]; cbn.
  - split; [by intros _ ?%elem_of_nil|done].
  - rewrite not_elem_of_cons. destruct (N.eqb_spec k ch) as [->|]; [by split; [|intros []]|].
    rewrite IH. naive_solver.
Qed.
Lemma dset_new ch x d : dget ch d = None -> dset ch x d = d ++ [(ch, x)].
Proof.
  induction d as [|[k v] d IH]; cbn; [done|]. destruct (N.eqb k ch); [done|].
  intros H. by rewrite IH.
Qed.
Lemma dset_keys ch x y d : dget ch d = Some y -> (dset ch x d).*1 = d.*1.
Proof.
  induction d as [|[k v] d IH]; cbn; [done|]. destruct (N.eqb k ch); [done|].
  intros H. cbn. by rewrite IH.
Qed.
Lemma dset_in ch x y d k c :
  NoDup d.*1 -> dget ch d = Some y ->
  (k, c) ∈ dset ch x d <-> (k = ch /\ c = x) \/ (k <> ch /\ (k, c) ∈ d).
Proof.
  induction d as [|[k' v] d IH]; cbn; [done|].
  intros [Hk Hnd]%NoDup_cons. destruct (N.eqb_spec k' ch) as [->|Hne].
  - intros [= ->]. rewrite !elem_of_cons. split.
    + intros [[= -> ->]|Hin]; [by left|]. right. split; [|by right].
      intros ->. destruct Hk. apply elem_of_list_fmap. by exists (ch, c).
    + intros [[-> ->]|[Hn [[= -> ->]|Hin]]]; [by left|done|by right].
  - intros H. rewrite !elem_of_cons, IH by done. split.
    + intros [[= -> ->]|[[-> ->]|[? ?]]]; [right; by split; [|left]|by left|]. right. by split; [|right].
    + intros [[-> ->]|[Hn [[= -> ->]|Hin]]]; [by right; left|by left|by right; right].
Qed.
Lemma ddel_in ch d k c : NoDup d.*1 -> (k, c) ∈ ddel ch d <-> k <> ch /\ (k, c) ∈ d.
Proof.
  induction d as [|[k' v] d IH]; cbn.
  - intros _. rewrite elem_of_nil. naive_solver.
  - intros [Hk Hnd]%NoDup_cons. destruct (N.eqb_spec k' ch) as [->|Hne].
    + rewrite elem_of_cons. split.
      * intros Hin. split; [|by right]. intros ->. destruct Hk. apply elem_of_list_fmap. by exists (ch, c).
      * intros [Hn [[= -> ->]|Hin]]; done.
    + rewrite !elem_of_cons, IH by done. naive_solver.
Qed.
Lemma ddel_keys ch d x : x ∈ (ddel ch d).*1 -> x ∈ d.*1.
Proof.
  induction d as [|[k v] d IH]; cbn; [done|]. destruct (N.eqb k ch); cbn.
  - intros H. by right.
  - intros [->|H]%elem_of_cons; [left|]. right. by apply IH.
Qed.
Lemma ddel_nodup ch d : NoDup d.*1 -> NoDup (ddel ch d).*1.
Proof.
  induction d as [|[k v] d IH]; cbn; [done|]. intros [Hk Hnd]%NoDup_cons.
  destruct (N.eqb k ch); cbn; [done|]. apply NoDup_cons. split; [|by apply IH].
  intros H%ddel_keys. done.
Qed.
Lemma nodup_fst {A B} (l : list (A * B)) : NoDup l.*1 -> NoDup l.
Proof. apply NoDup_fmap_1. Qed.
Lemma key_unique (d : list (N * nat)) k (c c' : nat) : NoDup d.*1 -> (k, c) ∈ d -> (k, c') ∈ d -> c = c'.
Proof. intros Hn H%in_dget H'%in_dget; [congruence|done..]. Qed.

(** ** The invariant *)
(** Node [i], at path [p], with record [n]: its children have distinct keys, point back to
    it and extend its path; it is the root or listed by its parent. *)
Definition nok (s : ts) (L : gmap nat (list N)) (i : nat) (p : list N) (n : tnode) : Prop :=
  NoDup (n_children n).*1 /\
  (forall k c, (k, c) ∈ n_children n -> exists m,
     t_nodes s !! c = Some m /\ n_parent m = Some i /\ head (n_data m) = Some k /\
     L !! c = Some (p ++ n_data m)) /\
  ((i = t_root s /\ n_parent n = None) \/
   (exists j q k m, n_parent n = Some j /\ L !! j = Some q /\ p = q ++ n_data n /\
      head (n_data n) = Some k /\ t_nodes s !! j = Some m /\ (k, i) ∈ n_children m)).
Record rep (s : ts) (L : gmap nat (list N)) : Prop := {
  r_root : L !! t_root s = Some [];
  r_rdata : exists n, t_nodes s !! t_root s = Some n /\ n_data n = ROOT;
  r_inj : forall i j p, L !! i = Some p -> L !! j = Some p -> i = j;
  r_node : forall i p, L !! i = Some p -> exists n, t_nodes s !! i = Some n /\ nok s L i p n;
  r_count : t_count s = Z.of_nat (size L);
}.

Lemma rep_get s L i p n : rep s L -> L !! i = Some p -> t_nodes s !! i = Some n -> nok s L i p n.
Proof. intros R Hi Hn. destruct (r_node _ _ R _ _ Hi) as (n' & Hn' & H). congruence. Qed.
Lemma rep_lt s L i p : rep s L -> L !! i = Some p -> i < length (t_nodes s).
Proof. intros R Hi. destruct (r_node _ _ R _ _ Hi) as (n' & Hn' & H). by eapply lookup_lt_Some. Qed.
Lemma rep_fresh s L i : rep s L -> length (t_nodes s) <= i -> L !! i = None.
Proof.
  intros R Hi. destruct (L !! i) eqn:E; [|done]. apply (rep_lt _ _ _ _ R) in E. lia.
Qed.

Lemma prefix_split (a b c d : list N) :
  a ++ b = c ++ d -> (exists t, a = c ++ t /\ d = t ++ b) \/ (exists t, c = a ++ t /\ b = t ++ d).
Proof.
  revert c. induction a as [|x a IH]; intros c H.
  - right. exists c. done.
  - destruct c as [|y c].
    + left. exists (x :: a). done.
    + injection H as -> H. destruct (IH _ H) as [(t & -> & ->)|(t & -> & ->)].
      * left. by exists t.
      * right. by exists t.
Qed.
Lemma head_cons {A} (l : list A) k : head l = Some k -> exists r, l = k :: r.
Proof. destruct l; [done|]. intros [= ->]. eauto. Qed.

(** From any node, a live path strictly below it goes through one of its children. *)
Lemma nav s L : rep s L ->
  forall a p n b k d, L !! a = Some p -> t_nodes s !! a = Some n -> L !! b = Some (p ++ k :: d) ->
  exists c m, (k, c) ∈ n_children n /\ t_nodes s !! c = Some m /\ n_data m `prefix_of` k :: d.
Proof.
  intros R. assert (forall N a p n b k d, length (p ++ k :: d) <= N ->
    L !! a = Some p -> t_nodes s !! a = Some n -> L !! b = Some (p ++ k :: d) ->
    exists c m, (k, c) ∈ n_children n /\ t_nodes s !! c = Some m /\ n_data m `prefix_of` k :: d) as H;
    [|intros; by eapply (H (length (p ++ k :: d)))].
  induction N as [|N IH]; intros a p n b k d HN Ha Hn Hb.
  { rewrite app_length in HN. cbn in HN. lia. }
  destruct (r_node _ _ R _ _ Hb) as (nb & Hnb & Hndb & Hch & Hup).
  destruct Hup as [[-> ?]|(j & q & k' & m & Hpar & Hj & Hpq & Hh & Hm & Hin)].
  { rewrite (r_root _ _ R) in Hb. destruct p; done. }
  apply head_cons in Hh as (r & Hr).
  destruct (prefix_split _ _ _ _ Hpq) as [(t & -> & Ht)|(t & -> & Ht)].
  - (* q is a prefix of p *)
    destruct t as [|x t].
    + cbn in Ht. rewrite app_nil_r in Ha. rewrite (r_inj _ _ R _ _ _ Ha Hj) in Hn.
      rewrite Hm in Hn. injection Hn as <-. exists b, nb. rewrite Ht in Hr. injection Hr as -> ->.
      split; [done|]. split; [done|]. by rewrite Ht.
    + exfalso. destruct (IH j q m a x t) as (c & mc & Hinc & Hmc & Hpre); try done.
      { rewrite !app_length in HN. cbn in HN. rewrite app_length. cbn. lia. }
      rewrite Ht in Hr. injection Hr as <- <-.
      destruct (rep_get _ _ _ _ _ R Hj Hm) as (Hnd & _).
      rewrite (key_unique _ _ _ _ Hnd Hin Hinc) in Hnb. rewrite Hmc in Hnb. injection Hnb as ->.
      rewrite Ht in Hpre. apply prefix_length in Hpre. rewrite app_length in Hpre. cbn in Hpre. lia.
  - destruct t as [|x t].
    + cbn in Ht. rewrite app_nil_r in Hj. rewrite (r_inj _ _ R _ _ _ Ha Hj) in Hn.
      rewrite Hm in Hn. injection Hn as <-. exists b, nb. rewrite <- Ht in Hr. injection Hr as -> ->.
      split; [done|]. split; [done|]. by rewrite Ht.
    + injection Ht as -> Ht.
      destruct (IH a p n j x t) as (c & mc & Hinc & Hmc & Hpre); try done.
      { rewrite !app_length in HN. cbn in HN. rewrite Ht, Hr, app_length in HN. cbn in HN.
        rewrite !app_length. cbn. lia. }
      exists c, mc. split; [done|]. split; [done|].
      destruct Hpre as [z Hz]. exists (z ++ n_data nb). rewrite Ht.
      change (x :: t ++ n_data nb) with ((x :: t) ++ n_data nb). by rewrite Hz, (assoc (++)).
Qed.
Lemma nav_fresh s L a p n k d b :
  rep s L -> L !! a = Some p -> t_nodes s !! a = Some n -> dget k (n_children n) = None ->
  L !! b <> Some (p ++ k :: d).
Proof.
  intros R Ha Hn Hd Hb. destruct (nav _ _ R _ _ _ _ _ _ Ha Hn Hb) as (c & m & Hin & _).
  apply dget_none in Hd. destruct Hd. apply elem_of_list_fmap. by exists (k, c).
Qed.
(** A child, seen from its parent. *)
Lemma child_of s L i p n k c :
  rep s L -> L !! i = Some p -> t_nodes s !! i = Some n -> (k, c) ∈ n_children n ->
  exists m r, t_nodes s !! c = Some m /\ n_parent m = Some i /\ n_data m = k :: r /\
    L !! c = Some (p ++ k :: r).
Proof.
  intros R Hi Hn Hin. destruct (rep_get _ _ _ _ _ R Hi Hn) as (_ & Hch & _).
  destruct (Hch _ _ Hin) as (m & Hm & Hp & Hh & HL). apply head_cons in Hh as (r & Hr).
  exists m, r. rewrite <- Hr. done.
Qed.
Lemma child_data_split s L i p n k c b d :
  rep s L -> L !! i = Some p -> t_nodes s !! i = Some n -> (k, c) ∈ n_children n ->
  L !! b = Some (p ++ k :: d) ->
  exists m r, t_nodes s !! c = Some m /\ n_data m = k :: r /\ L !! c = Some (p ++ k :: r) /\ r `prefix_of` d.
Proof.
  intros R Hi Hn Hin Hb. destruct (nav _ _ R _ _ _ _ _ _ Hi Hn Hb) as (c' & m & Hin' & Hm & Hpre).
  destruct (rep_get _ _ _ _ _ R Hi Hn) as (Hnd & _).
  assert (c' = c) as -> by (by eapply key_unique).
  destruct (child_of _ _ _ _ _ _ _ R Hi Hn Hin) as (m' & r & Hm' & Hp & Hr & HL).
  exists m', r. rewrite Hm in Hm'. injection Hm' as ->. rewrite Hr in Hpre.
  by apply prefix_cons_inv_2 in Hpre.
Qed.

(** ** Store updates that preserve the invariant *)
(** Changing the word flag of a node. *)
Lemma rep_flag s L i n b :
  rep s L -> t_nodes s !! i = Some n ->
  rep (TS (<[i := TN (n_data n) (n_parent n) (n_children n) b]> (t_nodes s)) (t_root s) (t_count s)) L.
Proof.
  intros R Hn.
  assert (forall x m, t_nodes s !! x = Some m -> exists b', <[i := TN (n_data n) (n_parent n) (n_children n) b]> (t_nodes s) !! x
     = Some (TN (n_data m) (n_parent m) (n_children m) b')) as Hlk.
  { intros x m Hx. destruct (decide (x = i)) as [->|Hne].
    - rewrite list_lookup_insert by (by eapply lookup_lt_Some). exists b. congruence.
    - rewrite list_lookup_insert_ne by done. exists (n_word m). by destruct m. }
  destruct R as [R1 R2 R3 R4 R5]. split; cbn; try done.
  - destruct R2 as (m & Hm & Hd). destruct (Hlk _ _ Hm) as (b' & Hb'). by eexists.
  - intros x p Hx. destruct (R4 _ _ Hx) as (m & Hm & Hnd & Hch & Hup).
    destruct (Hlk _ _ Hm) as (b' & Hb'). eexists. split; [done|]. split; [done|]. split.
    + cbn. intros k c Hin. destruct (Hch _ _ Hin) as (mc & Hmc & ? & ? & ?).
      destruct (Hlk _ _ Hmc) as (b'' & Hb''). by eexists.
    + cbn. destruct Hup as [?|(j & q & k & mj & ? & ? & ? & ? & Hmj & ?)]; [by left|]. right.
      destruct (Hlk _ _ Hmj) as (b'' & Hb''). by exists j, q, k, (TN (n_data mj) (n_parent mj) (n_children mj) b'').
Qed.

(** Adding a leaf [c], fresh, below [i]. *)
Lemma rep_leaf s s' L i p n c k d :
  rep s L -> L !! i = Some p -> t_nodes s !! i = Some n -> dget k (n_children n) = None ->
  L !! c = None -> c <> i ->
  (forall x, x <> c -> x <> i -> is_Some (t_nodes s !! x) -> t_nodes s' !! x = t_nodes s !! x) ->
  t_nodes s' !! i = Some (TN (n_data n) (n_parent n) (n_children n ++ [(k, c)]) (n_word n)) ->
  t_nodes s' !! c = Some (TN (k :: d) (Some i) [] false) ->
  t_root s' = t_root s -> t_count s' = (t_count s + 1)%Z ->
  rep s' (<[c := p ++ k :: d]> L).
Proof.
  intros R Hi Hn Hd Hc Hci Hx Hi' Hc' Hroot Hcnt.
  pose proof (nav_fresh s L i p n k d) as Hfresh.
  assert (forall x q, L !! x = Some q -> x <> c) as Hlive by (intros x q Hxq ->; congruence).
  assert (forall x m, is_Some (L !! x) -> t_nodes s !! x = Some m -> exists cs, t_nodes s' !! x =
     Some (TN (n_data m) (n_parent m) cs (n_word m)) /\
     (x <> i -> cs = n_children m) /\ (x = i -> cs = n_children n ++ [(k, c)])) as Hlk.
  { intros x m [q Hq] Hm. destruct (decide (x = i)) as [->|Hne].
    - exists (n_children n ++ [(k, c)]). split; [congruence|split; done].
    - exists (n_children m). rewrite Hx; [|by eapply Hlive|done|by eexists]. rewrite Hm. by destruct m. }
  assert (forall x m cs, t_nodes s !! x = Some m -> (x <> i -> cs = n_children m) -> (x = i -> cs = n_children n ++ [(k, c)]) ->
    forall e, e ∈ n_children m -> e ∈ cs) as Hsub.
  { intros x m cs Hm H1 H2 e He. destruct (decide (x = i)) as [->|Hne].
    - rewrite H2 by done. apply elem_of_app. left. congruence.
    - by rewrite H1. }
  pose proof R as [R1 R2 R3 R4 R5]. split.
  - rewrite Hroot, lookup_insert_ne; [done|]. by apply not_eq_sym, (Hlive _ _ R1).
  - rewrite Hroot. destruct R2 as (m & Hm & Hdm).
    destruct (Hlk _ _ ltac:(by eexists) Hm) as (cs & E & _). by eexists.
  - intros x y q. rewrite !lookup_insert_Some.
    intros [[-> Hq]|[Hxc Hq]] [[Hyc Hq']|[Hyc Hq']]; subst; try done.
    + destruct (Hfresh y); done.
    + destruct (Hfresh x); done.
    + by eapply R3.
  - intros x q. rewrite lookup_insert_Some. intros [[<- <-]|[Hxc Hq]].
    + eexists. split; [done|]. split; [constructor|]. split; [by intros ?? ?%elem_of_nil|].
      right. exists i, p, k, (TN (n_data n) (n_parent n) (n_children n ++ [(k, c)]) (n_word n)).
      rewrite lookup_insert_ne by done. split_and!; try done.
      apply elem_of_app. right. by apply elem_of_list_singleton.
    + destruct (R4 _ _ Hq) as (m & Hm & Hnd & Hch & Hup).
      destruct (Hlk _ _ ltac:(by eexists) Hm) as (cs & E & Hcs1 & Hcs2).
      eexists. split; [done|]. cbn. split; [|split].
      * cbn. destruct (decide (x = i)) as [->|Hne]; [|by rewrite Hcs1].
        rewrite Hcs2 by done. rewrite fmap_app. assert (n = m) as <- by congruence.
        apply NoDup_app. split; [done|]. split; [|apply NoDup_singleton].
        intros y Hy ->%elem_of_list_singleton. apply dget_none in Hd. done.
      * cbn. intros k' c' Hin.
        assert ((k', c') ∈ n_children m \/ (x = i /\ k' = k /\ c' = c)) as [Hold|(-> & -> & ->)].
        { destruct (decide (x = i)) as [->|Hne]; [|left; by rewrite <- Hcs1].
          rewrite Hcs2 in Hin by done. assert (n = m) as <- by congruence.
          apply elem_of_app in Hin as [Hin|Hin]; [by left|]. apply elem_of_list_singleton in Hin.
          injection Hin as -> ->. by right. }
        -- destruct (Hch _ _ Hold) as (mc & Hmc & Hpar & Hh & HL).
           destruct (Hlk _ _ ltac:(by eexists) Hmc) as (cs' & E' & _).
           eexists. split; [done|]. cbn. rewrite lookup_insert_ne; [done|]. by apply not_eq_sym, (Hlive _ _ HL).
        -- eexists. split; [done|]. cbn. rewrite lookup_insert. assert (p = q) as -> by (rewrite Hi in Hq; by injection Hq). done.
      * cbn. destruct Hup as [[-> ?]|(j & q' & k' & mj & ? & Hj & ? & ? & Hmj & Hin)]; [by left|]. right.
        destruct (Hlk _ _ ltac:(by eexists) Hmj) as (cs' & E' & Hc1 & Hc2).
        exists j, q', k', (TN (n_data mj) (n_parent mj) cs' (n_word mj)).
        rewrite lookup_insert_ne by (by apply not_eq_sym, (Hlive _ _ Hj)). split_and!; try done.
        by eapply Hsub.
  - rewrite Hcnt, R5, map_size_insert_None by done. lia.
Qed.

(** Splitting the child [c] of [i] with a fresh node [b]. *)
Lemma rep_split s s' L i p n c m k d1 k2 d2 b :
  rep s L -> L !! i = Some p -> t_nodes s !! i = Some n -> dget k (n_children n) = Some c ->
  t_nodes s !! c = Some m -> n_data m = (k :: d1) ++ k2 :: d2 ->
  L !! b = None -> b <> i -> b <> c ->
  (forall x, x <> b -> x <> i -> x <> c -> is_Some (t_nodes s !! x) -> t_nodes s' !! x = t_nodes s !! x) ->
  t_nodes s' !! i = Some (TN (n_data n) (n_parent n) (dset k b (n_children n)) (n_word n)) ->
  t_nodes s' !! b = Some (TN (k :: d1) (Some i) [(k2, c)] false) ->
  t_nodes s' !! c = Some (TN (k2 :: d2) (Some b) (n_children m) (n_word m)) ->
  t_root s' = t_root s -> t_count s' = (t_count s + 1)%Z ->
  rep s' (<[b := p ++ k :: d1]> L).
Proof.
  intros R Hi Hn Hd Hm Hdm Hb Hbi Hbc Hx Hi' Hb' Hc' Hroot Hcnt.
  assert ((k, c) ∈ n_children n) as Hkc by (by apply dget_in).
  destruct (rep_get _ _ _ _ _ R Hi Hn) as (Hndn & _).
  assert (forall x, L !! x <> Some (p ++ k :: d1)) as Hfresh.
  { intros x Hxp. destruct (child_data_split _ _ _ _ _ _ _ _ _ R Hi Hn Hkc Hxp) as (m' & r & Hm' & Hr & _ & Hpre).
    rewrite Hm in Hm'. injection Hm' as <-. rewrite Hdm in Hr. injection Hr as <-.
    apply prefix_length in Hpre. rewrite app_length in Hpre. cbn in Hpre. lia. }
  assert (forall x q, L !! x = Some q -> x <> b) as Hlive by (intros x q Hxq ->; congruence).
  destruct (child_of _ _ _ _ _ _ _ R Hi Hn Hkc) as (m' & r & Hm' & Hmp & Hr & HLc).
  rewrite Hm in Hm'. injection Hm' as <-.
  assert (c <> i) as Hci.
  { intros ->. rewrite Hi in HLc. injection HLc as HLc. apply (f_equal length) in HLc.
    rewrite app_length in HLc. cbn in HLc. lia. }
  assert (c <> t_root s) as Hcr.
  { intros ->. rewrite (r_root _ _ R) in HLc. by destruct p. }
  (* what a live node other than c looks like *)
  assert (forall x mx, x <> c -> is_Some (L !! x) -> t_nodes s !! x = Some mx -> exists cs, t_nodes s' !! x =
     Some (TN (n_data mx) (n_parent mx) cs (n_word mx)) /\
     (x <> i -> cs = n_children mx) /\ (x = i -> cs = dset k b (n_children n))) as Hlk.
  { intros x mx Hxc [q Hq] Hmx. destruct (decide (x = i)) as [->|Hne].
    - exists (dset k b (n_children n)). split; [congruence|split; done].
    - exists (n_children mx). rewrite Hx; [|by eapply Hlive|done|done|by eexists]. rewrite Hmx. by destruct mx. }
  pose proof R as [R1 R2 R3 R4 R5]. split.
  - rewrite Hroot, lookup_insert_ne; [done|]. by apply not_eq_sym, (Hlive _ _ R1).
  - rewrite Hroot. destruct R2 as (mr & Hmr & Hdr).
    destruct (Hlk (t_root s) mr ltac:(done) ltac:(by eexists) Hmr) as (cs & E & _). by eexists.
  - intros x y q. rewrite !lookup_insert_Some.
    intros [[-> Hq]|[Hxc Hq]] [[Hyc Hq']|[Hyc Hq']]; subst; try done.
    + destruct (Hfresh y); done.
    + destruct (Hfresh x); done.
    + by eapply R3.
  - intros x q. rewrite lookup_insert_Some. intros [[<- <-]|[Hxb Hq]].
    + (* the new node *)
      eexists. split; [done|]. split; [apply NoDup_singleton|]. split.
      * cbn. intros k' c' Hin%elem_of_list_singleton. injection Hin as -> ->.
        eexists. split; [done|]. cbn. rewrite lookup_insert_ne by done.
        rewrite HLc, <- Hr, Hdm. by rewrite <- (assoc (++)).
      * cbn. right. exists i, p, k, (TN (n_data n) (n_parent n) (dset k b (n_children n)) (n_word n)).
        rewrite lookup_insert_ne by done. split_and!; try done.
        apply (dset_in k b c); auto.
    + destruct (R4 _ _ Hq) as (mx & Hmx & Hnd & Hch & Hup).
      destruct (decide (x = c)) as [->|Hxc].
      * (* the child *)
        assert (mx = m) as -> by congruence. eexists. split; [done|]. split; [done|]. split.
        -- cbn. intros k' c' Hin. destruct (Hch _ _ Hin) as (mc & Hmc & Hpar & Hh & HL).
           assert (c' <> c). { intros ->. rewrite HL in Hq. injection Hq as Hq. apply head_cons in Hh as (? & Hh).
             rewrite Hh in Hq. apply (f_equal length) in Hq. rewrite app_length in Hq. cbn in Hq. lia. }
           destruct (Hlk c' mc ltac:(done) ltac:(by eexists) Hmc) as (cs & E & _).
           eexists. split; [done|]. cbn. rewrite lookup_insert_ne by (by apply not_eq_sym, (Hlive _ _ HL)). done.
        -- cbn. right. exists b, (p ++ k :: d1), k2, (TN (k :: d1) (Some i) [(k2, c)] false).
           rewrite lookup_insert. split_and!; try done.
           ++ assert (q = p ++ k :: r) as -> by (rewrite HLc in Hq; by injection Hq). rewrite <- Hr, Hdm. by rewrite <- (assoc (++)).
           ++ by apply elem_of_list_singleton.
      * destruct (Hlk x mx ltac:(done) ltac:(by eexists) Hmx) as (cs & E & Hcs1 & Hcs2).
        eexists. split; [done|]. split; [|split].
        -- cbn. destruct (decide (x = i)) as [->|Hne]; [|by rewrite Hcs1].
           rewrite Hcs2 by done. by rewrite (dset_keys _ _ c).
        -- cbn. intros k' c' Hin.
           assert (((k', c') ∈ n_children mx /\ c' <> c) \/ (x = i /\ k' = k /\ c' = b)) as [[Hold Hcc]|(-> & -> & ->)].
           { destruct (decide (x = i)) as [->|Hne].
             - rewrite Hcs2 in Hin by done. assert (mx = n) as -> by congruence.
               apply (dset_in k b c) in Hin; try done. destruct Hin as [[-> ->]|[Hkk Hin]]; [by right|].
               left. split; [done|]. intros ->.
               destruct (Hch _ _ Hin) as (m1 & Hm1 & _ & Hh1 & _). rewrite Hm in Hm1. injection Hm1 as <-.
               rewrite Hr in Hh1. cbn in Hh1. congruence.
             - rewrite Hcs1 in Hin by done. left. split; [done|]. intros ->.
               destruct (Hch _ _ Hin) as (m1 & Hm1 & Hp1 & _). rewrite Hm in Hm1. injection Hm1 as <-.
               congruence. }
           ++ destruct (Hch _ _ Hold) as (mc & Hmc & Hpar & Hh & HL).
              destruct (Hlk c' mc ltac:(done) ltac:(by eexists) Hmc) as (cs' & E' & _).
              eexists. split; [done|]. cbn. rewrite lookup_insert_ne by (by apply not_eq_sym, (Hlive _ _ HL)). done.
           ++ eexists. split; [done|]. cbn. rewrite lookup_insert. assert (p = q) as -> by (rewrite Hi in Hq; by injection Hq). done.
        -- cbn. destruct Hup as [[-> ?]|(j & q' & k' & mj & ? & Hj & ? & Hh & Hmj & Hin)]; [by left|]. right.
           destruct (decide (j = c)) as [->|Hjc].
           ++ exists c, q', k', (TN (k2 :: d2) (Some b) (n_children m) (n_word m)).
              rewrite lookup_insert_ne by (by apply not_eq_sym, (Hlive _ _ Hj)). split_and!; try done.
              cbn. congruence.
           ++ destruct (Hlk j mj ltac:(done) ltac:(by eexists) Hmj) as (cs' & E' & Hc1 & Hc2).
              exists j, q', k', (TN (n_data mj) (n_parent mj) cs' (n_word mj)).
              rewrite lookup_insert_ne by (by apply not_eq_sym, (Hlive _ _ Hj)). split_and!; try done.
              cbn. destruct (decide (j = i)) as [->|Hji]; [|by rewrite Hc1].
              rewrite Hc2 by done. assert (mj = n) as -> by congruence.
              apply (dset_in k b c); try done. right. split; [|done].
              intros ->. by rewrite (key_unique _ _ _ _ Hndn Hin Hkc) in Hxc.
  - rewrite Hcnt, R5, map_size_insert_None by done. lia.
Qed.

(** Cutting the leaf [i] off its parent [j]. *)
Lemma rep_cut s L i p n j k d nj :
  rep s L -> L !! i = Some p -> t_nodes s !! i = Some n -> n_children n = [] ->
  n_parent n = Some j -> n_data n = k :: d -> t_nodes s !! j = Some nj ->
  rep (TS (<[j := TN (n_data nj) (n_parent nj) (ddel k (n_children nj)) (n_word nj)]> (t_nodes s))
          (t_root s) (t_count s + -1)) (delete i L) /\
  dget k (n_children nj) = Some i /\ exists q, L !! j = Some q /\ p = q ++ k :: d.
Proof.
  intros R Hi Hn Hleaf Hpar Hd Hnj.
  destruct (rep_get _ _ _ _ _ R Hi Hn) as (_ & _ & [[? ?]|(j' & q & k' & m & Hpar' & Hj & Hp & Hh & Hm & Hin)]); [congruence|].
  rewrite Hpar in Hpar'. injection Hpar' as <-. rewrite Hnj in Hm. injection Hm as <-.
  rewrite Hd in Hh. injection Hh as <-. rewrite Hd in Hp.
  destruct (rep_get _ _ _ _ _ R Hj Hnj) as (Hndj & _).
  assert (i <> j) as Hij.
  { intros ->. rewrite Hi in Hj. injection Hj as ->. apply (f_equal length) in Hp. rewrite app_length in Hp. cbn in Hp. lia. }
  split; [|split; [by apply in_dget|by exists q]].
  assert (forall x mx, t_nodes s !! x = Some mx -> exists cs, 
     <[j := TN (n_data nj) (n_parent nj) (ddel k (n_children nj)) (n_word nj)]> (t_nodes s) !! x =
     Some (TN (n_data mx) (n_parent mx) cs (n_word mx)) /\
     (x <> j -> cs = n_children mx) /\ (x = j -> cs = ddel k (n_children nj))) as Hlk.
  { intros x mx Hmx. destruct (decide (x = j)) as [->|Hne].
    - rewrite list_lookup_insert by (by eapply lookup_lt_Some). exists (ddel k (n_children nj)). split; [congruence|split; done].
    - rewrite list_lookup_insert_ne by done. exists (n_children mx). rewrite Hmx. by destruct mx. }
  pose proof R as [R1 R2 R3 R4 R5]. split; cbn.
  - rewrite lookup_delete_ne; [done|]. intros ->. rewrite R1 in Hi. injection Hi as <-. by destruct q.
  - destruct R2 as (mr & Hmr & Hdr). destruct (Hlk _ _ Hmr) as (cs & E & _). by eexists.
  - intros x y r. rewrite !lookup_delete_Some. intros [_ ?] [_ ?]. by eapply R3.
  - intros x r. rewrite lookup_delete_Some. intros [Hxi Hr].
    destruct (R4 _ _ Hr) as (mx & Hmx & Hnd & Hch & Hup).
    destruct (Hlk _ _ Hmx) as (cs & E & Hc1 & Hc2). eexists. split; [done|].
    assert (forall k' c', (k', c') ∈ cs -> (k', c') ∈ n_children mx /\ c' <> i) as Hsub.
    { intros k' c' H'. destruct (decide (x = j)) as [->|Hne].
      - rewrite Hc2 in H' by done. assert (mx = nj) as -> by congruence.
        apply ddel_in in H' as [Hk H']; [|done]. split; [done|]. intros ->.
        destruct (Hch _ _ H') as (m1 & Hm1 & _ & Hh1 & _). rewrite Hn in Hm1. injection Hm1 as <-.
        rewrite Hd in Hh1. cbn in Hh1. congruence.
      - rewrite Hc1 in H' by done. split; [done|]. intros ->.
        destruct (Hch _ _ H') as (m1 & Hm1 & Hp1 & _). rewrite Hn in Hm1. injection Hm1 as <-. congruence. }
    split; [|split].
    + cbn. destruct (decide (x = j)) as [->|Hne]; [|by rewrite Hc1]. rewrite Hc2 by done. by apply ddel_nodup.
    + cbn. intros k' c' H'. destruct (Hsub _ _ H') as [Hold Hci].
      destruct (Hch _ _ Hold) as (mc & Hmc & ? & ? & HL). destruct (Hlk _ _ Hmc) as (cs' & E' & _).
      eexists. split; [done|]. cbn. by rewrite lookup_delete_ne.
    + cbn. destruct Hup as [?|(j' & q' & k' & mj & ? & Hj' & ? & Hh & Hmj & Hin')]; [by left|]. right.
      destruct (Hlk _ _ Hmj) as (cs' & E' & Hd1 & Hd2).
      assert (j' <> i) as Hji. { intros ->. rewrite Hn in Hmj. injection Hmj as <-. rewrite Hleaf in Hin'. by apply elem_of_nil in Hin'. }
      exists j', q', k', (TN (n_data mj) (n_parent mj) cs' (n_word mj)).
      rewrite lookup_delete_ne by done. split_and!; try done. cbn.
      destruct (decide (j' = j)) as [->|Hne]; [|by rewrite Hd1].
      rewrite Hd2 by done. apply ddel_in; [done|]. assert (mj = nj) as -> by congruence. split; [|done].
      intros ->. by rewrite (key_unique _ _ _ _ Hndj Hin' Hin) in Hxi.
  - rewrite R5. pose proof (map_size_delete_Some i L ltac:(by eexists)).
    assert (size L <> 0). { intros H0. apply map_size_empty_inv in H0. by rewrite H0 in Hi. } lia.
Qed.

(** A fresh trie. *)
Lemma rep_new : rep trie_new {[0 := []]}.
Proof.
  split; cbn.
  - by rewrite lookup_singleton.
  - by eexists.
  - intros i j p [<- _]%lookup_singleton_Some [<- _]%lookup_singleton_Some. done.
  - intros i p [<- <-]%lookup_singleton_Some. eexists. split; [done|]. split; [constructor|].
    split; [by intros ?? ?%elem_of_nil|]. by left.
  - by rewrite map_size_singleton.
Qed.
Lemma rep_init s : rep (TS (t_nodes s ++ [TN ROOT None [] false]) (length (t_nodes s)) 1)
                       {[length (t_nodes s) := []]}.
Proof.
  split; cbn.
  - by rewrite lookup_singleton.
  - eexists. by rewrite lookup_app_r, Nat.sub_diag by lia.
  - intros i j p [<- _]%lookup_singleton_Some [<- _]%lookup_singleton_Some. done.
  - intros i p [<- <-]%lookup_singleton_Some. eexists. rewrite lookup_app_r, Nat.sub_diag by lia.
    split; [done|]. split; [constructor|].
    split; [by intros ?? ?%elem_of_nil|]. by left.
  - by rewrite map_size_singleton.
Qed.
