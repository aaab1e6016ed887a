(** * Loops over a Trie that is changed meanwhile *)
From Coq Require Import Sorting.Sorted.
From stdpp Require Import gmap.
From Verif Require Import Base TrieModel TrieRep TrieSpec TrieSpec2 TrieThm TrieThm2 TrieThm3 TrieProps SuffixModel TrieThm4 SuffixSpec SuffixThm LevelModel TrieThm5 TrieThm6 TrieProps2 TrieIterModel TrieIterSpec TrieIterThm TrieIterThm2 TrieIterThm3.
Local Open Scope py_scope.

Lemma sorted_snoc (l : list nat) x : Sorted le l -> (forall y, y ∈ l -> y <= x) -> Sorted le (l ++ [x]).
Proof.
  induction l as [|a l IH]; intros Hs Hx; [repeat constructor|]. inversion Hs as [|? ? Hl Ha]; subst. cbn [app]. constructor.
  - apply IH; [done|]. intros y Hy. apply Hx. by right.
  - destruct l as [|b l]; cbn [app]; constructor; [apply Hx; left|]. by inversion Ha.
Qed.
Lemma end_of_snoc q x : end_of (q ++ [x]) = [x].
Proof. unfold end_of. by rewrite last_snoc. Qed.

Section dyn.
(** [H]: the paths that were in the trie at some time; [A]: those that are there all the time. *)
Variables (H A : word -> Prop).
Hypothesis A_up : forall q x, q <> [] -> A (q ++ [x]) -> A q.

(** A node that the generator holds, with its path. *)
Definition pend (v : ts) (L : gmap nat word) (x : nat * word) : Prop :=
  x.2 <> [] /\ (exists n, t_nodes v !! x.1 = Some n /\ n_data n = end_of x.2 /\ (L !! x.1 = Some x.2 \/ (L !! x.1 = None /\ n_children n = []))) /\
  (A x.2 -> L !! x.1 = Some x.2) /\ H x.2.
(** The trie that the generator walks over. *)
Record view (v : ts) (L : gmap nat word) : Prop := {
  v_rep : rep v L;
  v_single : single v L;
  v_H : forall i p, L !! i = Some p -> p <> [] -> H p;
  v_A : forall q, A q -> exists j, L !! j = Some q;
}.
(** The paths [past] were given, those of [xs] are held, nothing deeper than [d]. *)
Record held (v : ts) (L : gmap nat word) (past : list word) (d : nat) (xs : list (nat * word)) : Prop := {
  h_pend : forall x, x ∈ xs -> pend v L x;
  h_nodup : NoDup (past ++ xs.*2);
  h_sorted : Sorted le (map length past);
  h_past : forall q, q ∈ past -> length q <= d;
}.
Definition all_upto (past : list word) (d : nat) (xs : list (nat * word)) : Prop :=
  forall q, A q -> q <> [] -> length q <= d -> q ∈ past ++ xs.*2.
Definition dinv (v : ts) (L : gmap nat word) (past : list word) (g : zgen) : Prop :=
  match g with
  | ZGNew => False
  | ZGDone => NoDup past /\ Sorted le (map length past) /\ forall q, A q -> q <> [] -> q ∈ past
  | ZGAt cur rest next => exists past0 curp xs ys, past = past0 ++ [curp] /\ rest = xs.*1 /\ next = ys.*1 /\
      pend v L (cur, curp) /\ held v L past (length curp) (xs ++ ys) /\
      (forall x, x ∈ xs -> length x.2 = length curp) /\
      (forall y, y ∈ ys -> exists q x, y.2 = q ++ [x] /\ q ∈ past0 /\ length q = length curp) /\
      all_upto past (length curp) xs /\
      (forall q x, A (q ++ [x]) -> length q = length curp -> q ++ [x] ∈ ys.*2 \/ q ∈ curp :: xs.*2)
  end.
Definition advances (v : ts) (L : gmap nat word) (past : list word) (r : zgot) (g' : zgen) : Prop :=
  (r = ZStop /\ g' = ZGDone /\ dinv v L past ZGDone) \/
  (exists q, r = ZVal (end_of q) /\ H q /\ dinv v L (past ++ [q]) g').

Lemma A_prefix q t : q <> [] -> A (q ++ t) -> A q.
Proof using A_up.
  revert q. induction t as [|x t IH] using rev_ind; intros q Hq; [by rewrite app_nil_r|].
  rewrite (assoc (++)). intros Hx. apply IH; [done|]. eapply A_up; [|done]. by destruct q.
Qed.
Lemma pend_yield v L s x rest next : agree v s -> pend v L x -> zg_yield x.1 rest next s = Ok (ZVal (end_of x.2), ZGAt x.1 rest next) s.
Proof.
  intros Ha (_ & (n & Hn & Hd & _) & _). unfold zg_yield. rewrite (bind_ok _ _ _ _ _ (rd_eq _ _ _ (Ha _ _ Hn))). by rewrite Hd.
Qed.
(** A new level. *)
Lemma level_advances v L s past d xs : view v L -> agree v s -> held v L past d xs ->
  (forall x, x ∈ xs -> length x.2 = S d) -> all_upto past (S d) xs ->
  exists r g', zg_level xs.*1 s = Ok (r, g') s /\ advances v L past r g'.
Proof using A_up.
  intros V Ha [Hp Hnd Hso Hle] Hlen Hall. destruct xs as [|[i p] xs].
  - eexists _, _. split; [done|]. left. cbn [dinv]. split_and!; try done.
    + by rewrite app_nil_r in Hnd.
    + intros q Hq Hne. destruct (decide (length q <= S d)) as [Hs|Hs].
      * specialize (Hall q Hq Hne Hs). by rewrite app_nil_r in Hall.
      * exfalso. assert (q = take (S d) q ++ drop (S d) q) as E by (by rewrite take_drop).
        assert (length (take (S d) q) = S d) as El by (rewrite take_length; lia).
        assert (take (S d) q <> []) as Hne'. { intros H0. rewrite H0 in El. done. }
        rewrite E in Hq. apply A_prefix in Hq; [|done]. specialize (Hall _ Hq Hne' ltac:(lia)).
        rewrite app_nil_r in Hall. apply Hle in Hall. lia.
  - assert (pend v L (i, p)) as Hi by (apply Hp; left). assert (length p = S d) as Hlp by (apply (Hlen (i, p)); left).
    cbn [fmap list_fmap fst zg_level]. rewrite (pend_yield v L s (i, p) _ _ Ha Hi). cbn [fst snd].
    eexists _, _. split; [done|]. right. exists p. split; [done|]. split; [apply Hi|].
    exists past, p, xs, []. rewrite app_nil_r. cbn [fmap list_fmap snd] in Hnd.
    assert ((past ++ [p]) ++ xs.*2 = past ++ p :: xs.*2) as Eq by (by rewrite <- (assoc (++))).
    split_and!; try done.
    + split.
      * intros x Hx. apply Hp. by right.
      * by rewrite Eq.
      * rewrite map_app. apply sorted_snoc; [done|]. intros y (q & -> & Hq)%elem_of_list_fmap. apply Hle in Hq. lia.
      * intros q [Hq|Hq]%elem_of_app; [apply Hle in Hq; lia|]. apply elem_of_list_singleton in Hq as ->. done.
    + intros x Hx. rewrite Hlp. apply Hlen. by right.
    + by intros y ?%elem_of_nil.
    + intros q Hq Hne Hl. rewrite Eq. apply (Hall q Hq Hne). lia.
    + intros q x Hq Hl. right. assert (q <> []) as Hne by (intros ->; cbn in Hl; lia).
      pose proof (A_up _ _ Hne Hq) as Hq'. specialize (Hall q Hq' Hne ltac:(lia)). cbn [fmap list_fmap snd] in Hall.
      apply elem_of_app in Hall as [Hin|Hin]; [|done]. apply Hle in Hin. lia.
Qed.
(** The children of a held node. *)
Lemma expand v L cur curp n : view v L -> (curp = [] \/ pend v L (cur, curp)) -> (curp = [] -> L !! cur = Some []) -> t_nodes v !! cur = Some n ->
  exists zs, map snd (n_children n) = zs.*1 /\ (forall z, z ∈ zs -> pend v L z /\ exists x, z.2 = curp ++ [x]) /\ NoDup zs.*2 /\
    (forall x, (curp = [] \/ A curp) -> A (curp ++ [x]) -> curp ++ [x] ∈ zs.*2).
Proof.
  intros V Hcur Hroot Hn. pose proof (v_rep _ _ V) as R.
  assert (L !! cur = Some curp \/ (n_children n = [] /\ curp <> [] /\ L !! cur = None)) as [Hlive|(Hc & Hne & Hdead)].
  { destruct (decide (curp = [])) as [->|Hne]; [left; by apply Hroot|]. destruct Hcur as [|(_ & (n' & Hn' & _ & Hl) & _)]; [done|].
    cbn [fst snd] in *. rewrite Hn in Hn'. injection Hn' as <-. destruct Hl as [|[? ?]]; [by left|by right]. }
  2:{ exists []. rewrite Hc. split_and!; try done; [by intros z ?%elem_of_nil|constructor|]. intros x [|Ha]; [done|].
      destruct Hcur as [|(_ & _ & HA & _)]; [done|]. cbn in HA. rewrite HA in Hdead; done. }
  destruct (children_part v L cur curp n R Hlive Hn) as [Hnd Hch].
  exists (map (fun c => (c, path_of L c)) (map snd (n_children n))).
  assert (forall c, c ∈ map snd (n_children n) -> exists m x, t_nodes v !! c = Some m /\ n_data m = [x] /\ L !! c = Some (curp ++ [x])) as Hkid.
  { intros c (k & m & r & _ & Hm & Hr & HL)%Hch. exists m, k. split; [done|].
    assert (length (n_data m) = 1) as H1. { eapply (v_single _ _ V); [exact HL|done|]. by destruct curp. }
    rewrite Hr in H1. destruct r; [|done]. done. }
  split_and!.
  - rewrite <- list_fmap_compose. symmetry. apply list_fmap_id.
  - intros z (c & -> & Hc)%elem_of_list_fmap. destruct (Hkid c Hc) as (m & x & Hm & Hd & HL). 
    assert (path_of L c = curp ++ [x]) as -> by (unfold path_of; by rewrite HL). cbn [snd fst].
    split; [|by exists x]. split_and!; cbn [fst snd].
    + by destruct curp.
    + exists m. split; [done|]. rewrite end_of_snoc. split; [done|by left].
    + done.
    + eapply (v_H _ _ V); [exact HL|by destruct curp].
  - rewrite <- list_fmap_compose. apply NoDup_fmap_2_strong; [|done].
    intros c c' (m & x & _ & _ & HL)%Hkid (m' & x' & _ & _ & HL')%Hkid. cbn. unfold path_of. rewrite HL, HL'. cbn. intros E.
    rewrite E in HL. by eapply (r_inj _ _ R).
  - intros x _ Hx. destruct (v_A _ _ V _ Hx) as (j & Hj).
    destruct (r_node _ _ R _ _ Hj) as (nj & Hnj & _).
    destruct (parent_of v L j _ nj R Hj Hnj) as (a & q & m & k & Hpar & Ha & Hm & Hin & Hh & Hpq & _); [by destruct curp|].
    assert (length (n_data nj) = 1) as H1. { eapply (v_single _ _ V); [exact Hj|done|]. by destruct curp. }
    apply head_cons in Hh as (r & Hr). rewrite Hr in H1, Hpq. destruct r; [|done]. apply app_inj_tail in Hpq as [<- <-].
    rewrite (r_inj _ _ R _ _ _ Ha Hlive) in Hm. rewrite Hn in Hm. injection Hm as <-.
    apply elem_of_list_fmap. exists (j, curp ++ [x]). split; [done|]. apply elem_of_list_fmap. exists j. unfold path_of. rewrite Hj. split; [done|].
    apply elem_of_list_fmap. by exists (x, j).
Qed.
Lemma fmap_app_1 (a b : list (nat * word)) : (a ++ b).*1 = a.*1 ++ b.*1.
Proof. apply fmap_app. Qed.
Lemma dinv_step v L s past g : view v L -> agree v s -> dinv v L past g ->
  exists r g', zg_next g s = Ok (r, g') s /\ advances v L past r g'.
Proof using A_up.
  intros V Ha. destruct g as [|cur rest next|]; cbn [dinv]; [done| |intros HD; eexists _, _; split; [done|]; by left].
  intros (past0 & curp & xs & ys & -> & -> & -> & Hcur & [Hp Hnd Hso Hle] & Hxs & Hys & Hall & Hnext).
  pose proof Hcur as (Hne & (n & Hn & _) & _). cbn [fst snd] in *.
  destruct (expand v L cur curp n V) as (zs & Ez & Hz & Hndz & HzA); [by right|by intros ->|done|].
  cbn [zg_next]. assert (zchildren cur s = Ok (zs.*1) s) as Ec.
  { unfold zchildren. rewrite (bind_ok _ _ _ _ _ (rd_eq _ _ _ (Ha _ _ Hn))). by rewrite Ez. }
  rewrite (bind_ok _ _ _ _ _ Ec).
  assert (A curp -> all_upto (past0 ++ [curp]) (length curp) xs) as _ by done.
  (* the held paths with the new ones *)
  assert (curp ∉ past0) as Hcp.
  { apply NoDup_app in Hnd as (Hnd & _). apply NoDup_app in Hnd as (_ & Hnd & _). intros Hin. eapply Hnd; [exact Hin|left]. }
  assert (forall q, q ∈ ys.*2 -> length q = S (length curp)) as Hly.
  { intros q (y & -> & Hy)%elem_of_list_fmap. destruct (Hys y Hy) as (q & x & -> & _ & Hl). rewrite app_length. cbn. lia. }
  assert (forall q, q ∈ xs.*2 -> length q = length curp) as Hlx.
  { intros q (y & -> & Hy)%elem_of_list_fmap. by apply Hxs. }
  assert (forall q, q ∈ zs.*2 -> length q = S (length curp)) as Hlz.
  { intros q (y & -> & Hy)%elem_of_list_fmap. destruct (Hz y Hy) as (_ & x & ->). rewrite app_length. cbn. lia. }
  assert (NoDup ((past0 ++ [curp]) ++ (xs ++ ys ++ zs).*2)) as Hnd'.
  { rewrite (assoc (++) xs), fmap_app, (assoc (++)). apply NoDup_app. split; [done|]. split; [|done].
    intros q Hq Hq'. pose proof (Hlz _ Hq') as Hl. apply elem_of_app in Hq as [Hq|Hq]; [apply Hle in Hq; lia|].
    rewrite fmap_app in Hq. apply elem_of_app in Hq as [Hq|Hq]; [apply Hlx in Hq; lia|].
    apply elem_of_list_fmap in Hq as (y & -> & Hy). destruct (Hys y Hy) as (q & x & Ey & Hq & _).
    apply elem_of_list_fmap in Hq' as (z & E & Hz'). destruct (Hz z Hz') as (_ & x' & Ez'). rewrite Ey, Ez' in E.
    apply app_inj_tail in E as [-> _]. done. }
  assert (forall x, x ∈ xs ++ ys ++ zs -> pend v L x) as Hp'.
  { intros x. rewrite (assoc (++)). intros [Hx|Hx]%elem_of_app; [by apply Hp|]. by apply Hz. }
  destruct xs as [|[i p] xs].
  - (* a new level *)
    cbn [fmap list_fmap]. rewrite <- fmap_app_1. cbn [app] in *. apply (level_advances v L s (past0 ++ [curp]) (length curp) (ys ++ zs) V Ha).
    + split; try done.
    + intros x Hx. assert (x.2 ∈ (ys ++ zs).*2) as Hx' by (apply elem_of_list_fmap; by exists x).
      rewrite fmap_app in Hx'. apply elem_of_app in Hx' as [?|?]; auto.
    + intros q Hq Hqne Hql. destruct (decide (length q <= length curp)) as [Hs|Hs].
      * specialize (Hall q Hq Hqne Hs). rewrite app_nil_r in Hall. apply elem_of_app. by left.
      * destruct q as [|x q _] using rev_ind; [done|]. rewrite app_length in Hql, Hs. cbn in Hql, Hs.
        assert (length q = length curp) as Hlq by lia. apply elem_of_app. right. rewrite fmap_app. apply elem_of_app.
        destruct (Hnext q x Hq Hlq) as [?|Hin]; [by left|]. right. apply elem_of_list_singleton in Hin as ->.
        apply HzA; [right|done]. by eapply A_up.
  - (* the next node of this level *)
    assert (pend v L (i, p)) as Hi by (apply Hp; left). assert (length p = length curp) as Hlp by (apply (Hxs (i, p)); left).
    cbn [fmap list_fmap fst]. rewrite (pend_yield v L s (i, p) _ _ Ha Hi). cbn [fst snd].
    eexists _, _. split; [done|]. right. exists p. split; [done|]. split; [apply Hi|].
    exists (past0 ++ [curp]), p, xs, (ys ++ zs). rewrite !fmap_app.
    assert (forall l, ((past0 ++ [curp]) ++ [p]) ++ xs.*2 ++ l = (past0 ++ [curp]) ++ ((i, p) :: xs).*2 ++ l) as Eq.
    { intros l. cbn [fmap list_fmap snd app]. by rewrite <- !(assoc (++)). }
    split_and!; try done.
    + split.
      * intros x Hx. apply Hp'. by right.
      * rewrite fmap_app, Eq, <- fmap_app. exact Hnd'.
      * rewrite map_app. apply sorted_snoc; [done|]. intros y (q & -> & Hq)%elem_of_list_fmap. apply Hle in Hq. lia.
      * intros q [Hq|Hq]%elem_of_app; [apply Hle in Hq; lia|]. apply elem_of_list_singleton in Hq as ->. done.
    + intros x Hx. rewrite Hlp. apply Hxs. by right.
    + intros y [Hy|Hy]%elem_of_app.
      * destruct (Hys y Hy) as (q & x & -> & Hq & Hl). exists q, x. split_and!; [done| |lia]. apply elem_of_app. by left.
      * destruct (Hz y Hy) as (_ & x & ->). exists curp, x. split_and!; [done| |lia]. apply elem_of_app. right. left.
    + intros q Hq Hqne Hl. specialize (Hall q Hq Hqne ltac:(lia)). specialize (Eq []). rewrite !app_nil_r in Eq. by rewrite Eq.
    + intros q x Hq Hl. destruct (Hnext q x Hq ltac:(lia)) as [Hin|Hin]; [left; apply elem_of_app; by left|].
      apply elem_of_cons in Hin as [->|Hin]; [|by right]. left. apply elem_of_app. right. apply HzA; [right|done]. by eapply A_up.
Qed.
Lemma first_advances s L W : trep s L W -> view s L -> exists r g', zg_next ZGNew s = Ok (r, g') s /\ advances s L [] r g'.
Proof using A_up.
  intros T V. pose proof (x_rep _ _ _ _ T) as R. cbn [zg_next]. rewrite (bind_ok _ _ _ _ _ (is_empty_ok s L W T)).
  case_bool_decide as HW.
  - eexists _, _. split; [done|]. left. cbn [dinv]. split_and!; try done; [constructor|constructor|]. intros q Hq Hne.
    destruct (v_A _ _ V q Hq) as (j & Hj). destruct (ext' _ _ _ _ _ T Hj Hne) as (t & Ht). rewrite HW in Ht. by apply elem_of_empty in Ht.
  - rewrite (bind_ok _ _ _ s s) by done. destruct (x_node _ _ _ _ _ _ T (r_root _ _ R)) as (n & Hn).
    destruct (expand s L (t_root s) [] n V) as (zs & Ez & Hz & Hndz & HzA); [by left|intros _; apply (r_root _ _ R)|done|].
    assert (zchildren (t_root s) s = Ok (zs.*1) s) as Ec.
    { unfold zchildren. rewrite (bind_ok _ _ _ _ _ (rd_eq _ _ _ Hn)). by rewrite Ez. }
    rewrite (bind_ok _ _ _ _ _ Ec).
    apply (level_advances s L s [] 0 zs V (agree_refl s)).
    + split; try done; [|constructor|by intros q ?%elem_of_nil]. intros x Hx. by apply Hz.
    + intros x Hx. destruct (Hz x Hx) as (_ & y & ->). done.
    + intros q Hq Hne Hl. cbn [app]. destruct q as [|x [|y q]]; [done| |cbn in Hl; lia]. apply (HzA x); [by left|done].
Qed.

(** ** Calls *)
Lemma pend_moved v L v' L' x : rep v L -> rep v' L' -> moved v L v' L' -> (L ⊆ L' \/ L' ⊆ L) -> view v' L' ->
  pend v L x -> pend v' L' x.
Proof.
  intros R R' [M1 M2 M3] Hsub V (Hne & (n & Hn & Hd & Hl) & HA & Hh). destruct x as [i p]. cbn [fst snd] in *. split; [done|].
  destruct (M3 _ _ Hn) as (n' & Hn' & Hd'). cbn [fst snd]. split; [|split; [|done]].
  - exists n'. split; [done|]. split; [by rewrite Hd'|]. destruct Hl as [Hl|[Hl Hc]].
    + destruct (M1 _ _ Hl) as [?|(? & m & Hm & Hc)]; [by left|]. right. split; [done|]. congruence.
    + destruct (M2 i Hl (lookup_lt_Some _ _ _ Hn)) as [Hl' E]. right. split; [done|]. congruence.
  - intros Hp. pose proof (HA Hp) as Hi. destruct (v_A _ _ V p Hp) as (j & Hj). destruct Hsub as [Hsub|Hsub].
    + by eapply lookup_weaken.
    + pose proof (lookup_weaken _ _ _ _ Hj Hsub) as Hj'. by rewrite (r_inj _ _ R _ _ _ Hi Hj').
Qed.
Lemma dinv_moved v L v' L' past g : rep v L -> rep v' L' -> moved v L v' L' -> (L ⊆ L' \/ L' ⊆ L) -> view v' L' ->
  dinv v L past g -> dinv v' L' past g.
Proof.
  intros R R' M Hsub V. destruct g as [|cur rest next|]; cbn [dinv]; [done| |done].
  intros (past0 & curp & xs & ys & -> & -> & -> & Hcur & [Hp Hnd Hso Hle] & Hrest).
  exists past0, curp, xs, ys. split; [done|]. split; [done|]. split; [done|]. split; [exact (pend_moved _ _ _ _ _ R R' M Hsub V Hcur)|]. split; [|done].
  split; try done. intros x Hx. exact (pend_moved _ _ _ _ _ R R' M Hsub V (Hp x Hx)).
Qed.

(** ** Runs *)
(** What iterator [i] is: over the trie itself, over what was the trie before a [clear()],
    or finished. *)
Definition ginv (s : ts) (W : words) (past : list word) (g : zgen) : Prop :=
  exists L, trep s L W /\ single s L /\
    (((forall i p, L !! i = Some p -> p <> [] -> H p) /\ (forall q, A q -> exists j, L !! j = Some q) /\ dinv s L past g) \/
     exists v Lv, view v Lv /\ dinv v Lv past g /\ agree v s /\ (forall q, ~ A q) /\ (forall i, is_Some (L !! i) -> length (t_nodes v) <= i)).
Lemma ginv_next s W past g : ginv s W past g -> exists r g', zg_next g s = Ok (r, g') s /\
  ((r = ZStop /\ g' = ZGDone /\ ginv s W past ZGDone) \/ (exists q, r = ZVal (end_of q) /\ H q /\ ginv s W (past ++ [q]) g')).
Proof using A_up.
  intros (L & T & Hs & [(H1 & H2 & HD)|(v & Lv & V & HD & Ha & HA & Hge)]).
  - assert (view s L) as V by (split; [apply (x_rep _ _ _ _ T)|done..]).
    destruct (dinv_step s L s past g V (agree_refl s) HD) as (r & g' & E & Hadv). exists r, g'. split; [done|].
    destruct Hadv as [(-> & -> & HD')|(q & -> & Hq & HD')]; [left; do 2 (split; [done|])|right; exists q; do 2 (split; [done|])];
      exists L; do 2 (split; [done|]); left; by split_and!.
  - destruct (dinv_step v Lv s past g V Ha HD) as (r & g' & E & Hadv). exists r, g'. split; [done|].
    destruct Hadv as [(-> & -> & HD')|(q & -> & Hq & HD')]; [left; do 2 (split; [done|])|right; exists q; do 2 (split; [done|])];
      exists L; do 2 (split; [done|]); right; exists v, Lv; do 2 (split; [done|]); by split_and!.
Qed.
Lemma ginv_call o s W past g : ginv s W past g ->
  (forall q, q ∈ prefixes (trie_step W o) -> H q) -> (forall q, A q -> q ∈ prefixes (trie_step W o)) ->
  exists s', after (trie_call CTrie o s) = Some s' /\ ginv s' (trie_step W o) past g.
Proof.
  intros (L & T & Hs & HG) HH HA. destruct (call_moved o s L W T Hs) as (s' & L' & E & T' & Hs' & Hmv). exists s'. split; [done|].
  exists L'. split; [done|]. split; [done|]. pose proof (x_rep _ _ _ _ T) as R. pose proof (x_rep _ _ _ _ T') as R'.
  assert (view s' L') as V'.
  { split; try done.
    - intros i p Hi Hne. apply HH, elem_of_prefixes. split; [done|]. by destruct (live_prefix _ _ _ _ _ T' Hi).
    - intros q Hq. apply HA, elem_of_prefixes in Hq as (_ & w & Hw & Hpre). destruct (x_live _ _ _ _ T' _ Hw) as (b & Hb). by eapply live_up. }
  destruct Hmv as [(-> & [n En] & ->)|[Hmv Hsub]].
  - right. assert (forall q, ~ A q) as HnA. { intros q Hq%HA. apply elem_of_prefixes in Hq as (_ & w & Hw & _). by apply elem_of_empty in Hw. }
    assert (agree s s') as Hag. { intros i m Hi. rewrite En. by apply lookup_app_l_Some. }
    destruct HG as [(H1 & H2 & HD)|(v & Lv & V & HD & Ha & _ & Hge)].
    + exists s, L. split_and!; try done. intros i [p Hp]. apply lookup_singleton_Some in Hp as [<- _]. lia.
    + exists v, Lv. split_and!; try done. { intros i m Hi. by apply Hag, Ha. }
      intros i [p Hp]. apply lookup_singleton_Some in Hp as [<- _]. specialize (Hge (t_root s)). rewrite (r_root _ _ R) in Hge.
      specialize (Hge ltac:(by eexists)). pose proof (rep_lt _ _ _ _ R (r_root _ _ R)). lia.
  - destruct HG as [(H1 & H2 & HD)|(v & Lv & V & HD & Ha & HnA & Hge)].
    + left. split; [apply (v_H _ _ V')|]. split; [apply (v_A _ _ V')|]. exact (dinv_moved _ _ _ _ _ _ R R' Hmv Hsub V' HD).
    + right. exists v, Lv. split_and!; try done.
      * intros i m Hi. destruct (mv_dead _ _ _ _ Hmv i) as [_ ->].
        -- destruct (L !! i) eqn:E'; [|done]. specialize (Hge i ltac:(by eexists)). apply lookup_lt_Some in Hi. lia.
        -- eapply lookup_lt_Some. by apply Ha.
        -- by apply Ha.
      * intros i [p Hp]. destruct (L !! i) as [p'|] eqn:E'; [apply Hge; by eexists|].
        destruct (decide (i < length (t_nodes s))) as [Hlt|Hlt].
        -- destruct (mv_dead _ _ _ _ Hmv i E' Hlt) as [E2 _]. congruence.
        -- assert (length (t_nodes v) <= length (t_nodes s)); [|lia].
           destruct (decide (length (t_nodes v) = 0)) as [|Hz]; [lia|].
           destruct (lookup_lt_is_Some_2 (t_nodes v) (length (t_nodes v) - 1)) as [m Hm]; [lia|].
           apply Ha, lookup_lt_Some in Hm. lia.
Qed.
Lemma zrun_dyn i ts : forall s gs g W past outs e,
  okz CTrie (s, gs) -> zmade (length gs) ts -> gs !! i = Some g -> ginv s W past g ->
  (forall a b q, ts = a ++ b -> q ∈ prefixes (trie_words (updates a) W) -> H q) ->
  (forall a b q, ts = a ++ b -> A q -> q ∈ prefixes (trie_words (updates a) W)) ->
  NoDup past -> Sorted le (map length past) ->
  model_zrun CTrie (s, gs) ts = Some (outs, e) ->
  exists qs k, zseen i ts outs = map ZVal (map end_of qs) ++ replicate k ZStop /\
    NoDup (past ++ qs) /\ Sorted le (map length (past ++ qs)) /\ (forall q, q ∈ qs -> H q) /\
    (0 < k -> forall q, A q -> q <> [] -> q ∈ past ++ qs) /\ (g = ZGDone -> qs = []).
Proof using A_up.
  induction ts as [|t ts IH]; intros s gs g W past outs e Hz Hm Hi Hg HH HA Hnd Hso Hrun.
  { injection Hrun as <- <-. exists [], 0. assert (past ++ [] = past) as Ea by apply app_nil_r. split_and!; rewrite ?Ea; try done; intros ?; [by intros ?%elem_of_nil|lia]. }
  destruct (zmade_cons _ _ _ Hm) as [Hb Hm'].
  destruct (zstep_ok CTrie s gs t _ Hz eq_refl Hb) as (o & s1 & gs1 & E & Hz1 & Ht). pose proof (zstep_len _ _ _ _ _ _ _ E) as Hl.
  rewrite <- Hl in Hm'. cbn [model_zrun] in Hrun. rewrite E in Hrun. cbn [mbind option_bind] in Hrun.
  destruct (model_zrun CTrie (s1, gs1) ts) as [[os q2]|] eqn:E2; [|done]. cbn in Hrun. injection Hrun as <- <-.
  destruct t as [op|l| |j].
  - destruct Ht as (Haf & -> & [x ->] & _). cbn [zseen].
    destruct (ginv_call op s W past g Hg) as (s' & Haf' & Hg').
    { intros q Hq. apply (HH [ZCall op] ts q eq_refl). done. }
    { intros q Hq. apply (HA [ZCall op] ts q eq_refl Hq). }
    rewrite Haf in Haf'. injection Haf' as <-.
    apply (IH s1 gs g (trie_step W op) past os q2); try done.
    + intros a b q -> Hq. by apply (HH (ZCall op :: a) b q eq_refl).
    + intros a b q -> Hq. by apply (HA (ZCall op :: a) b q eq_refl).
  - destruct Ht as (-> & -> & [x ->] & _). apply (IH s gs g W past os q2); try done.
    + intros a b q -> Hq. by apply (HH (ZLook l :: a) b q eq_refl).
    + intros a b q -> Hq. by apply (HA (ZLook l :: a) b q eq_refl).
  - destruct Ht as (-> & -> & ->). apply (IH s (gs ++ [ZGNew]) g W past os q2); try done.
    + by apply lookup_app_l_Some.
    + intros a b q -> Hq. by apply (HH (ZIter :: a) b q eq_refl).
    + intros a b q -> Hq. by apply (HA (ZIter :: a) b q eq_refl).
  - assert (forall a b q, ts = a ++ b -> q ∈ prefixes (trie_words (updates a) W) -> H q) as HH'.
    { intros a b q -> Hq. by apply (HH (ZNext j :: a) b q eq_refl). }
    assert (forall a b q, ts = a ++ b -> A q -> q ∈ prefixes (trie_words (updates a) W)) as HA'.
    { intros a b q -> Hq. by apply (HA (ZNext j :: a) b q eq_refl). }
    destruct Ht as (-> & gj & r & g' & Hj & En & -> & ->). cbn [zseen]. destruct (Nat.eqb_spec j i) as [->|Hne].
    + rewrite Hi in Hj. injection Hj as <-. destruct (ginv_next s W past g Hg) as (r' & g'' & En' & Hadv).
      rewrite En in En'. injection En' as <- <-. pose proof (list_lookup_insert gs i g' (lookup_lt_Some _ _ _ Hi)) as Hi'.
      destruct Hadv as [(-> & -> & Hg')|(q & -> & Hq & Hg')].
      * destruct (IH s _ ZGDone W past os q2 Hz1 Hm' Hi' Hg' HH' HA' Hnd Hso E2) as (qs & k & -> & HN & HS & HQ & HK & Hdone).
        specialize (Hdone eq_refl) as ->. exists [], (S k). split; [done|]. split_and!; try done.
        intros _ q Hq Hqne. rewrite app_nil_r. destruct Hg' as (L & T & _ & [(_ & _ & HD)|(v & Lv & _ & _ & _ & HnA & _)]).
        -- by apply HD.
        -- by destruct (HnA q).
      * assert (NoDup (past ++ [q]) /\ Sorted le (map length (past ++ [q]))) as [Hnd' Hso'].
        { assert (forall v L, dinv v L (past ++ [q]) g' -> NoDup (past ++ [q]) /\ Sorted le (map length (past ++ [q]))) as Hd.
          { intros v L. destruct g' as [|cur rest next|]; cbn [dinv]; [done| |naive_solver].
            intros (p0 & cp & xs & ys & _ & _ & _ & _ & [_ HN HS _] & _). split; [|done]. by apply NoDup_app in HN as (? & _). }
          destruct Hg' as (L & T & _ & [(_ & _ & HD)|(v & Lv & _ & HD & _)]); by eapply Hd. }
        destruct (IH s _ g' W (past ++ [q]) os q2 Hz1 Hm' Hi' Hg' HH' HA' Hnd' Hso' E2) as (qs & k & -> & HN & HS & HQ & HK & _).
        exists (q :: qs), k. rewrite <- (assoc (++)) in HN, HS, HK. split; [done|]. split_and!; try done.
        -- intros q' [->|Hq']%elem_of_cons; [done|by apply HQ].
        -- intros ->. cbn in En. done.
    + cbn [app]. apply (IH s (<[j:=g']> gs) g W past os q2); try done. by rewrite list_lookup_insert_ne.
Qed.
End dyn.
