(** * Proofs about the printed form of tries *)
From Coq Require Import Sorted.
From stdpp Require Import gmap.
From Verif Require Import Base TreeModel TreeThm PrintModel PrintSpec PrintThm TrieModel TrieRep TrieSpec TrieThm TrieThm2
  SuffixModel SuffixSpec SuffixThm TriePrintModel TriePrintSpec.
Local Open Scope py_scope.

(** ** The printed text determines the tree, whatever the texts that end where they seem to *)
Section determined.
Context {A : Type} (show : A -> pystr) (P : A -> Prop).
Hypothesis ends : forall x y r r', P x -> P y -> show x ++ 10%N :: r = show y ++ 10%N :: r' -> show x = show y.
Definition everywhere (t : tree A) : Prop := forall p n, node_of t p = Some n -> P (get_data n).
Definition everywhere_below (t : tree A) : Prop := forall i p n, node_of t (i :: p) = Some n -> P (get_data n).
Lemma everywhere_child d cs c : everywhere_below (TNode d cs) -> c ∈ cs -> everywhere c.
Proof. intros H [i Hi]%elem_of_list_lookup p n Hn. apply (H i p n). cbn. by rewrite Hi. Qed.
Lemma everywhere_split t : everywhere t -> P (get_data t) /\ everywhere_below t.
Proof. intros H. split; [by apply (H [])|]. intros i p n. apply H. Qed.
Definition cat (l : list pystr) : pystr := flat_map (fun x => x ++ [10%N]) l.
Lemma cat_app l l' : cat (l ++ l') = cat l ++ cat l'.
Proof. apply flat_map_app. Qed.
Lemma join_cat x l : join s_newline (x :: l) ++ [10%N] = cat (x :: l).
Proof.
  revert x. induction l as [|y l IH]; intros x; [cbn; by rewrite app_nil_r|].
  change (join s_newline (x :: y :: l)) with (x ++ 10%N :: join s_newline (y :: l)).
  change (cat (x :: y :: l)) with ((x ++ [10%N]) ++ cat (y :: l)). rewrite <- IH. by rewrite <- !(assoc (++)).
Qed.
Lemma block_cat t : forall pre b t' b' r r', everywhere t -> everywhere t' ->
  cat (block show t pre b) ++ r = cat (block show t' pre b') ++ r' ->
  b = b' /\ tree_map show t = tree_map show t' /\ r = r'.
Proof.
  induction t as [d cs IH] using tree_ind'. intros pre b [d' cs'] b' r r' Ht Ht'. rewrite !block_eq.
  apply everywhere_split in Ht as [Pd Hb], Ht' as [Pd' Hb']. cbn [get_data] in Pd, Pd'.
  change (cat (?x :: ?l)) with ((x ++ [10%N]) ++ cat l). rewrite <- !(assoc (++)). intros E1.
  apply app_inv_head in E1. assert (b = b') as <- by (by destruct b, b'). apply app_inv_head in E1.
  assert (nilb cs = nilb cs' /\ show d ++ 10%N :: cat (forest show (pre ++ cell b) cs) ++ r = show d' ++ 10%N :: cat (forest show (pre ++ cell b) cs') ++ r') as [EN E2].
  { destruct cs, cs'; cbn [tip] in E1; first [discriminate|split; [done|]; by apply app_inv_head in E1]. }
  pose proof (ends _ _ _ _ Pd Pd' E2) as ED. rewrite ED in E2. apply app_inv_head in E2. injection E2 as E2.
  split; [done|]. cbn [tree_map]. rewrite ED. clear E1 ED Pd Pd'.
  assert (forall cs', nilb cs = nilb cs' -> (forall c, c ∈ cs -> everywhere c) -> (forall c, c ∈ cs' -> everywhere c) ->
    cat (forest show (pre ++ cell b) cs) ++ r = cat (forest show (pre ++ cell b) cs') ++ r' ->
    map (tree_map show) cs = map (tree_map show) cs' /\ r = r') as H.
  { clear E2 EN Hb' Hb cs'. revert IH. generalize (pre ++ cell b). induction cs as [|c cs IHc]; intros q IH [|c' cs'] EN Hcs Hcs' E; try done.
    apply Forall_cons in IH as [Hc IH]. cbn [forest] in E. rewrite !cat_app, <- !(assoc (++)) in E.
    apply Hc in E as (EN' & ET & E); [|apply Hcs; by left|apply Hcs'; by left].
    destruct (IHc q IH cs' EN') as [EM ->]; [intros x Hx; apply Hcs; by right|intros x Hx; apply Hcs'; by right|done|]. cbn [map]. by rewrite ET, EM. }
  destruct (H cs' EN) as [EM ->]; [intros c Hc; exact (everywhere_child _ _ _ Hb Hc)|intros c Hc; exact (everywhere_child _ _ _ Hb' Hc)|done|]. by rewrite EM.
Qed.
Lemma forest_cat cs : forall cs', (forall c, c ∈ cs -> everywhere c) -> (forall c, c ∈ cs' -> everywhere c) ->
  cat (forest show [] cs) = cat (forest show [] cs') -> map (tree_map show) cs = map (tree_map show) cs'.
Proof.
  assert (HN : forall t b r, cat (block show t [] b) ++ r <> []).
  { intros [d l] b r. rewrite block_eq. intros E. apply (f_equal length) in E. change (cat (?x :: ?l)) with ((x ++ [10%N]) ++ cat l) in E.
    rewrite !app_length in E. cbn in E. lia. }
  induction cs as [|c cs IH]; intros [|c' cs'] H H' E; [done|..]; cbn [forest] in E; rewrite ?cat_app in E.
  - symmetry in E. by apply HN in E.
  - by apply HN in E.
  - apply block_cat in E as (_ & ET & E); [|apply H; by left|apply H'; by left]. cbn [map]. rewrite ET. f_equal.
    apply IH; [intros x Hx; apply H; by right|intros x Hx; apply H'; by right|done].
Qed.
Lemma repr_determines t t' : show (get_data t) = show (get_data t') -> everywhere_below t -> everywhere_below t' ->
  tree_repr show (Some t) = tree_repr show (Some t') -> map (tree_map show) (get_children t) = map (tree_map show) (get_children t').
Proof.
  intros Hr H H' E. rewrite !repr_lines in E. apply (f_equal (fun x => x ++ [10%N])) in E. rewrite !join_cat in E.
  change (cat (?x :: ?l)) with ((x ++ [10%N]) ++ cat l) in E. rewrite Hr in E. apply app_inv_head in E.
  destruct t as [d cs], t' as [d' cs']. apply forest_cat; [intros c Hc; exact (everywhere_child _ _ _ H Hc)|intros c Hc; exact (everywhere_child _ _ _ H' Hc)|done].
Qed.
End determined.

(** ** Reaching nodes *)
Lemma node_reach {B} (q : list nat) : forall (t n : tree (word * B)) k, node_of t (k :: q) = Some n -> exists w, reach t w n.
Proof.
  induction q as [|k' q IH]; intros [d cs] n k H; cbn [node_of get_children] in H; destruct (cs !! k) as [c|] eqn:Ec; try done;
    apply elem_of_list_lookup_2 in Ec.
  - injection H as <-. eexists. by constructor.
  - destruct (IH c n k' H) as (w & Hw). eexists. by eapply reach_below.
Qed.
Lemma reach_map {X Z : Type} (show : word * X -> Z) (P : word * X -> Prop) :
  (forall x y, P x -> P y -> show x = show y -> x = y) ->
  forall (t : tree (word * X)) w n, reach t w n -> forall t', everywhere_below P t -> everywhere_below P t' ->
  map (tree_map show) (get_children t) = map (tree_map show) (get_children t') ->
  exists n', reach t' w n' /\ get_data n' = get_data n /\ map (tree_map show) (get_children n) = map (tree_map show) (get_children n').
Proof.
  intros HP. assert (forall (t : tree (word * X)) t' c, everywhere_below P t -> everywhere_below P t' -> c ∈ get_children t ->
    map (tree_map show) (get_children t) = map (tree_map show) (get_children t') ->
    exists c', c' ∈ get_children t' /\ get_data c' = get_data c /\ map (tree_map show) (get_children c) = map (tree_map show) (get_children c') /\
      everywhere_below P c /\ everywhere_below P c') as H.
  { intros [d cs] [d' cs'] c He He' Hc E. cbn [get_children] in *. pose proof Hc as [i Hi]%elem_of_list_lookup.
    assert (map (tree_map show) cs' !! i = Some (tree_map show c)) as Hi' by (rewrite <- E, list_lookup_fmap, Hi; done).
    rewrite list_lookup_fmap in Hi'. destruct (cs' !! i) as [c'|] eqn:Ec'; [|done]. injection Hi' as Hi'. apply elem_of_list_lookup_2 in Ec'.
    pose proof (everywhere_split _ _ (everywhere_child _ _ _ _ He Hc)) as [P1 B1].
    pose proof (everywhere_split _ _ (everywhere_child _ _ _ _ He' Ec')) as [P2 B2].
    destruct c as [e es], c' as [e' es']. cbn [tree_map get_data get_children] in *. injection Hi' as E1 E2.
    exists (TNode e' es'). split; [done|]. cbn [get_data get_children]. split; [by apply HP|]. split_and!; done. }
  induction 1 as [d cs c Hc|d cs c w n Hc Hr IH]; intros t' He He' E.
  - destruct (H _ _ c He He' Hc E) as (c' & Hc' & Ed & Em & _). exists c'. split; [|done]. rewrite <- Ed. destruct t'. by constructor.
  - destruct (H _ _ c He He' Hc E) as (c' & Hc' & Ed & Em & B1 & B2). destruct (IH c' B1 B2 Em) as (n' & Hr' & Hd & Hm).
    exists n'. split; [|done]. rewrite <- Ed. destruct t'. by apply reach_below.
Qed.

(** ** The nodes of a trie, as printed *)
Lemma collect_ok {A B} (f : A -> M ts B) (P : A -> B -> Prop) l s :
  (forall x, x ∈ l -> exists t, f x s = Ok t s /\ P x t) ->
  exists o, extend_map (fun x => let! t := f x in ret [t]) l s = Ok o s /\ Forall2 P l o.
Proof.
  induction l as [|x l IH]; intros H.
  - exists []. split; [done|constructor].
  - destruct (H x) as (t & E & Ht); [left|]. destruct IH as (o & Eo & Ho); [intros; apply H; by right|].
    exists (t :: o). split; [|by constructor].
    change (extend_map (fun x => let! t := f x in ret [t]) (x :: l)) with
      (bind (let! t := f x in ret [t]) (fun o => bind (extend_map (fun x => let! t := f x in ret [t]) l) (fun r => ret (o ++ r)))).
    rewrite (bind_ok _ _ _ [t] s) by (by rewrite (bind_ok _ _ _ _ _ E)). by rewrite (bind_ok _ _ _ _ _ Eo).
Qed.
Definition shows (s : ts) (L : gmap nat word) (p : word) (n : tnode) (T : tree (word * bool)) : Prop :=
  get_data T = (n_data n, n_word n) /\ (get_children T = [] <-> n_children n = []) /\
  (forall w x, reach T w x -> w <> [] /\ exists j m, L !! j = Some (p ++ w) /\ t_nodes s !! j = Some m /\
     get_data x = (n_data m, n_word m) /\ (get_children x = [] <-> n_children m = [])) /\
  (forall w j, w <> [] -> L !! j = Some (p ++ w) -> exists x, reach T w x) /\
  forks T.
Lemma snapshot_ok s L : rep s L -> forall fuel i p n, L !! i = Some p -> t_nodes s !! i = Some n -> deeper L (length p) < fuel ->
  exists T, trie_snapshot fuel i s = Ok T s /\ shows s L p n T.
Proof.
  intros R. induction fuel as [|fuel IH]; intros i p n Hi Hn Hf; [lia|].
  destruct (children_part _ _ _ _ _ R Hi Hn) as [Hnd Hc]. cbn [trie_snapshot]. rewrite (bind_ok _ _ _ _ _ (rd_eq _ _ _ Hn)).
  destruct (collect_ok (trie_snapshot fuel) (fun c t => exists m, t_nodes s !! c = Some m /\ L !! c = Some (p ++ n_data m) /\ n_data m <> [] /\
     shows s L (p ++ n_data m) m t) (map snd (n_children n)) s) as (o & Eo & Ho).
  { intros c Hin. apply Hc in Hin as (k & m & r & Hd & Hm & Hr & HL).
    destruct (IH c (p ++ k :: r) m HL Hm) as (T & ET & HT).
    { pose proof (deeper_lt L c _ (length p) HL) as H. rewrite !app_length in *. cbn in *. lia. }
    exists T. split; [done|]. exists m. rewrite Hr. done. }
  rewrite (bind_ok _ _ _ _ _ Eo). eexists. split; [done|].
  assert (forall t, t ∈ o -> exists c m, c ∈ map snd (n_children n) /\ t_nodes s !! c = Some m /\ L !! c = Some (p ++ n_data m) /\ n_data m <> [] /\
     shows s L (p ++ n_data m) m t) as Hot.
  { intros t [j Hj]%elem_of_list_lookup. destruct (Forall2_lookup_r _ _ _ _ _ Ho Hj) as (c & Hcj & m & ?). exists c, m. split; [|done].
    by eapply elem_of_list_lookup_2. }
  unfold shows at 1. cbn [get_data get_children]. split; [done|]. split.
  { apply Forall2_length in Ho. rewrite map_length in Ho. by destruct o, (n_children n). }
  split; [|split].
  - intros w x Hr. inversion Hr as [d cs c Hin|d cs c w' x' Hin Hr']; subst.
    + destruct (Hot x Hin) as (j & m & _ & Hm & HL & Hne & Ed & Ech & _). rewrite Ed. cbn [fst]. split; [done|]. exists j, m. done.
    + destruct (Hot c Hin) as (j & m & _ & Hm & HL & Hne & Ed & _ & Hd & _). rewrite Ed. cbn [fst].
      destruct (Hd _ _ Hr') as (Hw' & j' & m' & HL' & Hm' & ?). split; [by destruct (n_data m)|].
      exists j', m'. rewrite (assoc (++)). done.
  - intros w j Hw Hj. destruct w as [|k w]; [done|]. destruct (nav _ _ R _ _ _ _ _ _ Hi Hn Hj) as (c & m & Hin & Hm & [t Ht]).
    assert (c ∈ map snd (n_children n)) as [a Ha]%elem_of_list_lookup by (apply elem_of_list_fmap; by exists (k, c)).
    destruct (Forall2_lookup_l _ _ _ _ _ Ho Ha) as (T & HT & m' & Hm' & HL & Hne & Ed & _ & _ & Hd & _).
    rewrite Hm in Hm'. injection Hm' as <-. apply elem_of_list_lookup_2 in HT. rewrite Ht in Hj |- *.
    destruct t as [|k' t].
    + rewrite app_nil_r. exists T. replace (n_data m) with (fst (get_data T)) by (by rewrite Ed). by constructor.
    + destruct (Hd (k' :: t) j) as (x & Hx); [done|by rewrite <- (assoc (++))|].
      exists x. replace (n_data m) with (fst (get_data T)) by (by rewrite Ed). by apply reach_below.
  - intros q x Hq. destruct q as [|a q].
    + injection Hq as <-. cbn [get_children]. split.
      * apply Forall_forall. intros t Ht. destruct (Hot t Ht) as (j & m & _ & _ & _ & Hne & Ed & _). by rewrite Ed.
      * assert (map (fun c => head (fst (get_data c))) o = map Some (n_children n).*1) as ->.
        { assert (Forall2 (fun c (t : tree (word * bool)) => forall m, t_nodes s !! c = Some m -> head (fst (get_data t)) = head (n_data m)) (map snd (n_children n)) o) as Ho'.
          { eapply Forall2_impl; [exact Ho|]. intros c t (m & Hm & _ & _ & Ed & _) m' Hm'. rewrite Ed. cbn. congruence. }
          destruct (rep_get _ _ _ _ _ R Hi Hn) as (_ & Hch & _). revert Ho' Hch. clear. revert o. generalize (n_children n).
          intros l. induction l as [|[k c] l IH]; intros o Ho Hch; apply Forall2_cons_inv_l in Ho || apply Forall2_nil_inv_l in Ho; [by subst|].
          destruct Ho as (t & o' & Ht & Ho & ->). cbn. f_equal; [|apply IH; [done|intros; eapply Hch; by right]].
          destruct (Hch k c) as (m & Hm & _ & Hk & _); [left|]. by rewrite (Ht m Hm). }
        apply NoDup_fmap_2; [by intros ?? [=]|]. by destruct (rep_get _ _ _ _ _ R Hi Hn).
    + cbn [node_of get_children] in Hq. destruct (o !! a) as [t|] eqn:Ea; [|done]. apply elem_of_list_lookup_2 in Ea.
      destruct (Hot t Ea) as (j & m & _ & _ & _ & _ & _ & _ & _ & _ & Hd). by apply (Hd q).
Qed.

(** The printed form of a trie, given what its nodes are. *)
Lemma root_data {fl} s L W : trepg fl s L W (t_root s) -> exists n, t_nodes s !! t_root s = Some n /\ n_data n = ROOT.
Proof. intros T. apply (r_rdata _ _ (x_rep _ _ _ _ T)). Qed.
Lemma trie_repr_empty {fl} s L W : trepg fl s L W (t_root s) -> W = ∅ -> trie_repr s = Ok s_dashes s.
Proof.
  intros T HW. unfold trie_repr. pose proof (is_empty_ok s L _ T) as He. rewrite bool_decide_eq_true_2 in He by done.
  by rewrite (bind_ok _ _ _ _ _ He).
Qed.
Lemma trie_repr_ok {fl} s L W : trepg fl s L W (t_root s) -> W <> ∅ -> exists T n,
  trie_repr s = Ok (tree_repr trie_text (Some T)) s /\ t_nodes s !! t_root s = Some n /\ get_data T = (ROOT, n_word n) /\ shows s L [] n T.
Proof.
  intros T HW. unfold trie_repr. pose proof (is_empty_ok s L _ T) as He. rewrite bool_decide_eq_false_2 in He by done.
  rewrite (bind_ok _ _ _ _ _ He), (bind_ok _ _ _ s s) by done. pose proof (x_rep _ _ _ _ T) as R.
  destruct (root_data s L W T) as (n & Hn & Hd).
  destruct (snapshot_ok s L R (S (length (t_nodes s))) (t_root s) [] n (r_root _ _ R) Hn) as (t & Et & Ht).
  { pose proof (deeper_le s L 0 R). cbn. lia. }
  rewrite (bind_ok _ _ _ _ _ Et). exists t, n. split; [done|]. split; [done|]. split; [|done]. destruct Ht as [-> _]. by rewrite Hd.
Qed.
Lemma shows_holds s L W n T : trep s L W -> shows s L [] n T -> forall w, holds T w <-> w ∈ W.
Proof.
  intros HT (_ & _ & H1 & H2 & _) w. split.
  - intros (x & Hx & Hm). destruct (H1 _ _ Hx) as (Hw & j & m & HL & Hj & Hd & _). rewrite Hd in Hm. cbn in Hm.
    rewrite (x_flag _ _ _ _ HT _ _ _ HL Hj) in Hm. by apply bool_decide_eq_true in Hm.
  - intros Hw. destruct (x_live _ _ _ _ HT _ Hw) as (j & Hj). destruct (H2 w j) as (x & Hx); [intros ->; by apply (x_nil _ _ _ _ HT)|done|].
    exists x. split; [done|]. destruct (H1 _ _ Hx) as (_ & j' & m & HL & Hj' & -> & _). cbn.
    rewrite (x_flag _ _ _ _ HT _ _ _ HL Hj'). by apply bool_decide_eq_true.
Qed.
Lemma shows_leads {fl} s L W n T : trepg fl s L W (t_root s) -> shows s L [] n T -> forall w, leads T w -> w ∈ W.
Proof.
  intros HT (_ & _ & H1 & _) w (x & Hx & Hl). destruct (H1 _ _ Hx) as (Hw & j & m & HL & Hj & _ & Hc).
  eapply (x_leaf _ _ _ _ HT); [exact HL|exact Hj|by apply Hc|done|]. intros ->. rewrite (r_root _ _ (x_rep _ _ _ _ HT)) in HL. by injection HL as <-.
Qed.
Lemma shows_below s L n T (P : word * bool -> Prop) : shows s L [] n T ->
  (forall j q m, L !! j = Some q -> q <> [] -> t_nodes s !! j = Some m -> P (n_data m, n_word m)) -> everywhere_below P T.
Proof.
  intros (_ & _ & H1 & _) HP i p x (w & Hw)%node_reach. destruct (H1 _ _ Hw) as (Hne & j & m & HL & Hj & -> & _). by eapply HP.
Qed.
