(** * Tries: levels and height *)
From stdpp Require Import gmap.
From Verif Require Import Base TrieModel TrieRep TrieSpec TrieThm TrieThm2 TrieThm3 SuffixModel.
Local Open Scope py_scope.

(** [below s i j d]: [j] is [d] steps below [i]. *)
Inductive below (s : ts) : nat -> nat -> nat -> Prop :=
| below_0 i : below s i i 0
| below_S i n k c j d : t_nodes s !! i = Some n -> (k, c) ∈ n_children n -> below s c j d -> below s i j (S d).
Lemma below_app s i j k d e : below s i j d -> below s j k e -> below s i k (d + e).
Proof. induction 1 as [|i n kk c j d Hn Hin Hb IH]; intros H; [done|]. cbn. eapply below_S; [done..|]. by apply IH. Qed.
Lemma below_child_1 s i n k c : t_nodes s !! i = Some n -> (k, c) ∈ n_children n -> below s i c 1.
Proof. intros Hn Hin. eapply below_S; [done..|]. apply below_0. Qed.
(** The last step. *)
Lemma below_last s i j d : below s i j (S d) -> exists m n k, below s i m d /\ t_nodes s !! m = Some n /\ (k, j) ∈ n_children n.
Proof.
  revert i. induction d as [|d IH]; intros i H; inversion H as [|? n k c ? ? Hn Hin Hb]; subst.
  - inversion Hb; subst. exists i, n, k. split; [apply below_0|done].
  - destruct (IH _ Hb) as (m & n' & k' & H1 & H2 & H3). exists m, n', k'. split; [|done]. by eapply below_S.
Qed.
Lemma below_live s L i j d p : rep s L -> L !! i = Some p -> below s i j d -> exists t, L !! j = Some (p ++ t) /\ d <= length t.
Proof.
  intros R Hi H. revert p Hi. induction H as [|i n k c j d Hn Hin Hb IH]; intros p Hi.
  - exists []. by rewrite app_nil_r.
  - destruct (child_of _ _ _ _ _ _ _ R Hi Hn Hin) as (m & r & _ & _ & _ & HL).
    destruct (IH _ HL) as (t & Ht & Hd). exists ((k :: r) ++ t). rewrite (assoc (++)). split; [done|]. rewrite app_length. cbn. lia.
Qed.
(** A live path below another is reached step by step. *)
Lemma live_below s L : rep s L -> forall N i j p t, length t <= N -> L !! i = Some p -> L !! j = Some (p ++ t) ->
  exists d, below s i j d /\ (t <> [] -> 1 <= d).
Proof.
  intros R. induction N as [|N IH]; intros i j p t HN Hi Hj.
  { destruct t; [|cbn in HN; lia]. rewrite app_nil_r in Hj. rewrite (r_inj _ _ R _ _ _ Hi Hj). exists 0. split; [apply below_0|done]. }
  destruct t as [|k t].
  { rewrite app_nil_r in Hj. rewrite (r_inj _ _ R _ _ _ Hi Hj). exists 0. split; [apply below_0|done]. }
  destruct (r_node _ _ R _ _ Hi) as (n & Hn & _).
  destruct (nav _ _ R _ _ _ _ _ _ Hi Hn Hj) as (c & m & Hin & Hm & [t' Ht']).
  destruct (child_of _ _ _ _ _ _ _ R Hi Hn Hin) as (m' & r & Hm' & _ & Hr & HL).
  rewrite Hm in Hm'. injection Hm' as <-. rewrite Hr in Ht'. injection Ht' as ->.
  destruct (IH c j (p ++ k :: r) t') as (d & Hd & _); [|done|by rewrite <- (assoc (++))|].
  { cbn in HN. rewrite app_length in HN. lia. }
  exists (S d). split; [by eapply below_S|lia].
Qed.
Lemma root_below s L i p : rep s L -> L !! i = Some p -> exists d, below s (t_root s) i d /\ (p <> [] -> 1 <= d).
Proof. intros R Hi. by apply (live_below s L R (length p) (t_root s) i [] p); [|apply (r_root _ _ R)|]. Qed.

(** ** _get_nodes_per_level *)
Definition inl {A} (r : list (list A)) (d : nat) (x : A) : Prop := exists l, r !! d = Some l /\ x ∈ l.
Definition level_each (f : nat -> nat -> list (list nat) -> M ts (list (list nat))) (level : nat)
  : list nat -> list (list nat) -> M ts (list (list nat)) :=
  fix go cs acc := match cs with
                   | [] => ret acc
                   | c :: cs' => let! acc' := f c (S level) acc in go cs' acc'
                   end.
Definition npl_post s (i level : nat) (acc r : list (list nat)) : Prop :=
  length acc <= length r /\ level < length r /\ (forall l, l ∈ r -> l <> []) /\
  forall d x, inl r d x <-> inl acc d x \/ (level <= d /\ below s i x (d - level)).
Lemma level_each_ok s f level (P : nat -> Prop) :
  (forall c acc, P c -> S level <= length acc -> (forall l, l ∈ acc -> l <> []) ->
     exists r, f c (S level) acc s = Ok r s /\ npl_post s c (S level) acc r) ->
  forall cs acc, (forall c, c ∈ cs -> P c) -> S level <= length acc -> (forall l, l ∈ acc -> l <> []) ->
  exists r, level_each f level cs acc s = Ok r s /\ length acc <= length r /\ (forall l, l ∈ r -> l <> []) /\
    forall d x, inl r d x <-> inl acc d x \/ (S level <= d /\ exists c, c ∈ cs /\ below s c x (d - S level)).
Proof.
  intros Hf. induction cs as [|c cs IH]; intros acc Hcs Hl Hne.
  - exists acc. split; [done|]. split; [done|]. split; [done|]. intros d x. split; [by left|].
    intros [?|(_ & c & ?%elem_of_nil & _)]; done.
  - change (level_each f level (c :: cs) acc) with (bind (f c (S level) acc) (level_each f level cs)).
    destruct (Hf c acc) as (r1 & E1 & Hr1 & _ & Hne1 & Hin1); [apply Hcs; left|done|done|].
    rewrite (bind_ok _ _ _ _ _ E1).
    destruct (IH r1) as (r2 & E2 & Hr2 & Hne2 & Hin2); [intros; apply Hcs; by right|lia|done|].
    exists r2. split; [done|]. split; [lia|]. split; [done|]. intros d x. rewrite Hin2, Hin1.
    setoid_rewrite elem_of_cons. naive_solver.
Qed.
Lemma npl_ok s L : rep s L -> forall fuel i p level acc, L !! i = Some p -> deeper L (length p) < fuel ->
  level <= length acc -> (forall l, l ∈ acc -> l <> []) ->
  exists r, nodes_per_level fuel i level acc s = Ok r s /\ npl_post s i level acc r.
Proof.
  intros R. induction fuel as [|fuel IH]; intros i p level acc Hi Hf Hl Hne; [lia|].
  cbn [nodes_per_level]. destruct (r_node _ _ R _ _ Hi) as (n & Hn & _).
  rewrite (bind_ok _ _ _ _ _ (rd_eq _ _ _ Hn)).
  set (nodes1 := if Nat.eqb level (length acc) then acc ++ [[]] else acc).
  assert (exists l, nodes1 !! level = Some l /\ level < length nodes1 /\ length acc <= length nodes1 /\
     (forall d x, inl nodes1 d x <-> inl acc d x) /\
     (forall d l', nodes1 !! d = Some l' -> d <> level -> l' <> [])) as (l & El & Hlt & Hla & Hin1 & Hne1).
  { unfold nodes1. destruct (Nat.eqb_spec level (length acc)) as [->|Hneq].
    - exists []. rewrite lookup_app_r, Nat.sub_diag, app_length by lia. cbn. split; [done|]. split; [lia|]. split; [lia|]. split.
      + intros d x. unfold inl. split.
        * intros (l & Hd & Hx). apply lookup_app_Some in Hd as [Hd|[_ Hd]]; [by exists l|].
          apply list_lookup_singleton_Some in Hd as [_ <-]. by apply elem_of_nil in Hx.
        * intros (l & Hd & Hx). exists l. split; [|done]. by apply lookup_app_l_Some.
      + intros d l' Hd Hdl. apply lookup_app_Some in Hd as [Hd|[? Hd]]; [by apply Hne; eapply elem_of_list_lookup_2|].
        apply list_lookup_singleton_Some in Hd as [Hd _]. lia.
    - destruct (lookup_lt_is_Some_2 acc level) as (l & Hl'); [lia|]. exists l. split; [done|]. split; [lia|]. split; [lia|].
      split; [done|]. intros d l' Hd _. by apply Hne; eapply elem_of_list_lookup_2. }
  rewrite El. set (acc1 := <[level := l ++ [i]]> nodes1).
  assert (forall d x, inl acc1 d x <-> inl acc d x \/ (d = level /\ x = i)) as Hacc1.
  { intros d x. rewrite <- Hin1. unfold inl, acc1. destruct (decide (d = level)) as [->|Hd].
    - rewrite list_lookup_insert by done. split.
      + intros (l' & [= <-] & [Hx|Hx%elem_of_list_singleton]%elem_of_app); [left; by exists l|by right].
      + intros [(l' & Hl' & Hx)|[_ ->]]; eexists; (split; [done|]); apply elem_of_app.
        * left. congruence.
        * right. left.
    - rewrite list_lookup_insert_ne by done. naive_solver. }
  destruct (level_each_ok s (nodes_per_level fuel) level (fun c => c ∈ map snd (n_children n))) with (cs := map snd (n_children n)) (acc := acc1)
    as (r & Er & Hr & Hner & Hinr).
  - intros c a Hc Ha Hna. destruct (children_part _ _ _ _ _ R Hi Hn) as [_ Hcs].
    apply Hcs in Hc as (k & m & rr & _ & _ & _ & HL). apply (IH c (p ++ k :: rr)); try done.
    pose proof (deeper_lt L c _ (length p) HL) as H. rewrite !app_length in *. cbn in *. lia.
  - done.
  - unfold acc1. rewrite insert_length. lia.
  - intros l' (d & Hd)%elem_of_list_lookup. unfold acc1 in Hd. destruct (decide (d = level)) as [->|Hdl].
    + rewrite list_lookup_insert in Hd by done. injection Hd as <-. by destruct l.
    + rewrite list_lookup_insert_ne in Hd by done. by eapply Hne1.
  - exists r. split; [exact Er|]. unfold acc1 in Hr. rewrite insert_length in Hr. split; [lia|]. split; [lia|]. split; [done|].
    intros d x. rewrite Hinr, Hacc1. split.
    + intros [[?|[-> ->]]|(Hd & c & (kc & -> & Hin)%elem_of_list_fmap & Hb)]; [by left|right|right].
      * split; [lia|]. rewrite Nat.sub_diag. apply below_0.
      * split; [lia|]. replace (d - level) with (S (d - S level)) by lia. destruct kc as [k c]. by eapply below_S.
    + intros [?|[Hd Hb]]; [by left; left|]. remember (d - level) as e eqn:Ee. destruct Hb as [i|i n' k c j e Hn' Hin Hb].
      * left. right. split; [lia|done].
      * right. split; [lia|]. rewrite Hn in Hn'. injection Hn' as <-. exists c. split; [apply elem_of_list_fmap; by exists (k, c)|].
        by replace (d - S level) with e by lia.
Qed.

(** ** _get_height *)
Definition max_each (f : nat -> M ts nat) : list nat -> nat -> M ts nat :=
  fix go l h := match l with
                | [] => ret h
                | c :: l' => let! x := f c in go l' (Nat.max h (1 + x))
                end.
Lemma height_ok s L : rep s L -> forall fuel i p, L !! i = Some p -> deeper L (length p) < fuel ->
  exists h, height_from fuel i s = Ok h s /\ (exists j, below s i j h) /\ forall j d, below s i j d -> d <= h.
Proof.
  intros R. induction fuel as [|fuel IH]; intros i p Hi Hf; [lia|].
  cbn [height_from]. destruct (r_node _ _ R _ _ Hi) as (n & Hn & _).
  rewrite (bind_ok _ _ _ _ _ (rd_eq _ _ _ Hn)).
  destruct (children_part _ _ _ _ _ R Hi Hn) as [_ Hcs].
  assert (forall cs h0, (forall c, c ∈ cs -> c ∈ map snd (n_children n)) ->
     exists h, max_each (height_from fuel) cs h0 s = Ok h s /\ h0 <= h /\
       (h = h0 \/ exists c j d, c ∈ cs /\ below s c j d /\ h = S d) /\
       forall c j d, c ∈ cs -> below s c j d -> S d <= h) as H.
  { induction cs as [|c cs IHc]; intros h0 Hc.
    - exists h0. split; [done|]. split; [done|]. split; [by left|]. by intros ? ? ? ?%elem_of_nil.
    - assert (c ∈ map snd (n_children n)) as Hcin by (apply Hc; left).
      apply Hcs in Hcin as (k & m & rr & _ & _ & _ & HL).
      destruct (IH c _ HL) as (hc & Ec & (jc & Hjc) & Hmax).
      { pose proof (deeper_lt L c _ (length p) HL) as H. rewrite !app_length in *. cbn in *. lia. }
      change (max_each (height_from fuel) (c :: cs) h0) with
        (bind (height_from fuel c) (fun x => max_each (height_from fuel) cs (Nat.max h0 (1 + x)))).
      rewrite (bind_ok _ _ _ _ _ Ec).
      destruct (IHc (Nat.max h0 (1 + hc))) as (h & Eh & Hle & Hw & Hm); [intros; apply Hc; by right|].
      exists h. split; [done|]. split; [lia|]. split.
      + destruct Hw as [->|(c' & j & d & Hin & Hb & ->)].
        * destruct (Nat.max_spec h0 (1 + hc)) as [[_ ->]|[_ ->]]; [|by left].
          right. exists c, jc, hc. split; [left|done].
        * right. exists c', j, d. split; [by right|done].
      + intros c' j d [->|Hin]%elem_of_cons Hb; [|by eapply Hm]. apply Hmax in Hb. lia. }
  destruct (H (map snd (n_children n)) 0) as (h & Eh & _ & Hw & Hm); [done|].
  exists h. split; [exact Eh|]. split.
  - destruct Hw as [->|(c & j & d & ([k c'] & -> & Hin)%elem_of_list_fmap & Hb & ->)].
    + exists i. apply below_0.
    + exists j. by eapply below_S.
  - intros j d Hb. destruct Hb as [|i n' k c j d Hn' Hin Hb]; [lia|].
    rewrite Hn in Hn'. injection Hn' as <-. eapply Hm; [|done]. apply elem_of_list_fmap. by exists (k, c).
Qed.
