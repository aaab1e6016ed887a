(** * Proofs about the drawings of binary trees *)
From Coq Require Import ZifyNat Sorted.
From Verif Require Import Base TreeModel TreeSpec PrintModel PrintSpec PrintThm BstModel HeapModel HeapThm BinDrawModel BinDrawSpec.
Ltac Zify.zify_post_hook ::= Z.to_euclidean_division_equations.

(** ** Words *)
Notation sep := (Forall (fun c => parts c = true)).
Lemma words_sep s : sep s -> words s = [].
Proof. induction 1 as [|c s H _ IH]; [done|]. cbn. by rewrite H. Qed.
Lemma words_sep_app a b : sep a -> words (a ++ b) = words b.
Proof. induction 1 as [|c s H _ IH]; [done|]. cbn. by rewrite H. Qed.
Lemma words_cut a x b : parts x = true -> words (a ++ x :: b) = words a ++ words b.
Proof.
  intros Hx. induction a as [|c a IH]; [cbn; by rewrite Hx|].
  change ((c :: a) ++ x :: b) with (c :: (a ++ x :: b)). cbn [words]. destruct (parts c) eqn:Hc; [done|].
  destruct a as [|c' a]; [cbn [app words]; by rewrite !Hx|].
  rewrite IH. cbn [app]. destruct (parts c') eqn:Hc'; [done|].
  destruct (words (c' :: a)) as [|w ws] eqn:E; [|done]. exfalso. revert E. cbn. rewrite Hc'.
  destruct a as [|c'' a]; [done|]. destruct (parts c''); [done|]. by destruct (words (c'' :: a)).
Qed.
Lemma words_app_sep a b : sep b -> words (a ++ b) = words a.
Proof. destruct 1 as [|c s H Hs]; [by rewrite app_nil_r|]. rewrite words_cut by done. rewrite (words_sep s) by done. apply app_nil_r. Qed.
Lemma clean_parts s : clean s -> Forall (fun c => parts c = false) s.
Proof.
  intros [_ H]. eapply Forall_impl; [exact H|]. intros c [H1 H2]. unfold parts.
  destruct (N.eqb_spec c c_space) as [->|]; [done|]. by destruct (N.eqb_spec c c_under).
Qed.
Lemma words_word s : s <> [] -> Forall (fun c => parts c = false) s -> words s = [s].
Proof.
  intros Hne H. induction H as [|c s Hc Hs IH]; [done|]. cbn [words]. rewrite Hc. destruct s as [|c' s]; [done|].
  inversion Hs; subst. rewrite H1. by rewrite IH.
Qed.
Lemma words_clean a s b : sep a -> sep b -> clean s -> words (a ++ s ++ b) = [s].
Proof. intros Ha Hb Hs. rewrite words_sep_app, words_app_sep by done. apply words_word; [apply Hs|by apply clean_parts]. Qed.
Lemma times_sep c n : parts c = true -> sep (times c n).
Proof. intros H. apply Forall_forall. intros x Hx%elem_of_list_In%repeat_spec. by subst. Qed.
Lemma times_length c n : length (times c n) = Z.to_nat n.
Proof. apply repeat_length. Qed.

(** ** Stripping *)
Definition tame (s : pystr) : Prop := Forall (fun c => is_space c = true -> c = c_space) s.
Lemma rstrip_tail s : exists b, s = rstrip s ++ b /\ Forall (fun c => is_space c = true) b.
Proof.
  induction s as [|c s (b & E & Hb)]; [by exists []|]. cbn. destruct (rstrip s) as [|c' s'].
  - cbn in E. subst b. destruct (is_space c) eqn:Hc; [exists (c :: s)|exists s]; split; [done|by constructor|done|done].
  - exists b. split; [|done]. cbn. by rewrite E at 1.
Qed.
Lemma rstrip_tame s : tame s -> exists k, s = rstrip s ++ repeat c_space k.
Proof.
  intros Ht. destruct (rstrip_tail s) as (b & E & Hb). exists (length b). unfold tame in Ht. rewrite E in Ht at 1.
  apply Forall_app in Ht as [_ Ht]. rewrite E at 1. f_equal. clear E. induction Hb as [|c b Hc Hb IH]; [done|].
  inversion Ht; subst. cbn. rewrite <- IH by done. by rewrite H1.
Qed.
Lemma rstrip_words s : tame s -> words (rstrip s) = words s.
Proof.
  intros (k & E)%rstrip_tame. rewrite E at 2. symmetry. apply words_app_sep. apply Forall_forall.
  intros x Hx%elem_of_list_In%repeat_spec. by subst.
Qed.
Lemma repeat_at k c : default c_space (repeat c_space k !! c) = c_space.
Proof.
  destruct (repeat c_space k !! c) as [x|] eqn:E; [|done]. cbn. apply elem_of_list_lookup_2, elem_of_list_In, repeat_spec in E. done.
Qed.
Lemma at_pad s k c : default c_space ((s ++ repeat c_space k) !! c) = default c_space (s !! c).
Proof.
  destruct (decide (c < length s)) as [H|H]; [by rewrite lookup_app_l|].
  rewrite lookup_app_r by lia. rewrite (lookup_ge_None_2 s) by lia. apply repeat_at.
Qed.
Lemma rstrip_at s c : tame s -> default c_space (rstrip s !! c) = default c_space (s !! c).
Proof. intros (k & E)%rstrip_tame. rewrite E at 2. by rewrite at_pad. Qed.

(** ** Boxes *)
Lemma lookup_two {B} (x y : B) l i : (x :: y :: l) !! S (S i) = l !! i.
Proof. done. Qed.
Section box.
Context {A : Type} (show : A -> pystr).
Definition box_ok (t : bin A) (L : list pystr) (w s e : Z) : Prop :=
  match t with
  | Nil => L = [] /\ w = 0%Z /\ s = 0%Z /\ e = 0%Z
  | Bin _ d _ =>
      (0 <= s /\ e = s + Z.of_nat (length (show d)) - 1 /\ s + Z.of_nat (length (show d)) <= w)%Z /\
      Forall (fun x => length x = Z.to_nat w) L /\ Forall tame L /\
      length L = 2 * nlevels t /\ (forall c, char_at L (length L - 1) c = c_space)
  end.
Definition texts_clean (t : bin A) : Prop := clean_texts show t.
Lemma texts_l l d r : texts_clean (Bin l d r) -> texts_clean l.
Proof. intros H n x Hx. apply (H (S n)). cbn. apply elem_of_app. by left. Qed.
Lemma texts_r l d r : texts_clean (Bin l d r) -> texts_clean r.
Proof. intros H n x Hx. apply (H (S n)). cbn. apply elem_of_app. by right. Qed.
Lemma texts_d l d r : texts_clean (Bin l d r) -> clean (show d).
Proof. intros H. apply (H 0). cbn. by apply elem_of_list_singleton. Qed.
Lemma clean_len s : clean s -> 0 < length s.
Proof. intros [H _]. destruct s; [done|cbn; lia]. Qed.
Lemma clean_tame s : clean s -> tame s.
Proof. intros [_ H]. eapply Forall_impl; [exact H|]. intros c [H1 _] ?. congruence. Qed.
Lemma times_tame c n : (is_space c = true -> c = c_space) -> tame (times c n).
Proof. intros H. apply Forall_forall. intros x Hx%elem_of_list_In%repeat_spec. by subst. Qed.

(** One row below the branches. *)
Definition row_or (L : list pystr) (w : Z) (i : nat) : pystr := match L !! i with Some x => x | None => times c_space w end.
Lemma row_or_len t L w s e i : box_ok t L w s e -> length (row_or L w i) = Z.to_nat w.
Proof.
  intros H. unfold row_or. destruct (L !! i) as [x|] eqn:E; [|apply times_length].
  destruct t as [|l d r]; cbn in H; [by destruct H as [-> _]|]. destruct H as (_ & H & _).
  rewrite Forall_lookup in H. by eapply H.
Qed.
Lemma row_or_tame t L w s e i : box_ok t L w s e -> tame (row_or L w i).
Proof.
  intros H. unfold row_or. destruct (L !! i) as [x|] eqn:E; [|by apply times_tame].
  destruct t as [|l d r]; cbn in H; [by destruct H as [-> _]|]. destruct H as (_ & _ & H & _).
  rewrite Forall_lookup in H. by eapply H.
Qed.
Lemma row_or_at L w i c : default c_space (row_or L w i !! c) = char_at L i c.
Proof. unfold row_or, char_at. destruct (L !! i); [done|]. apply repeat_at. Qed.
Lemma row_or_words L w i : words (row_or L w i) = words (default [] (L !! i)).
Proof. unfold row_or. destruct (L !! i); [done|]. by apply words_sep, times_sep. Qed.

(** The pieces of the box of [Bin l d r]: two lines, then the rows of both sub-boxes. *)
Lemma box_shape l d r : texts_clean (Bin l d r) ->
  forall Ll wl sl el Lr wr sr er,
  print_box show l = (Ll, wl, sl, el) -> box_ok l Ll wl sl el ->
  print_box show r = (Lr, wr, sr, er) -> box_ok r Lr wr sr er ->
  exists a b a' b' gl gr, 
    sep a /\ sep b /\ tame a /\ tame b /\ tame (a' ++ b') /\
    length a = Z.to_nat wl + gl /\ length b = Z.to_nat wr + gr /\
    length a' = length a /\ length b' = length b /\
    (l = Nil /\ gl = 0 \/ l <> Nil /\ gl = 1) /\ (r = Nil /\ gr = 0 \/ r <> Nil /\ gr = 1) /\
    (l = Nil -> a' = []) /\ (r = Nil -> b' = []) /\
    print_box show (Bin l d r) =
      ((a ++ show d ++ b) :: (a' ++ times c_space (Z.of_nat (length (show d))) ++ b') ::
        map (fun i => row_or Ll wl i ++ repeat c_space (gl + length (show d) + gr) ++ row_or Lr wr i) (seq 0 (Nat.max (length Ll) (length Lr))),
       Z.of_nat (length (a ++ show d ++ b)), Z.of_nat (length a), (Z.of_nat (length a) + Z.of_nat (length (show d)) - 1)%Z).
Proof.
  intros Hc Ll wl sl el Lr wr sr er El Hl Er Hr.
  assert (Hlw : l = Nil /\ wl = 0%Z \/ l <> Nil /\ (0 < wl /\ 0 <= sl /\ 0 <= el /\ (sl + el) / 2 + 1 <= wl)%Z).
  { destruct l as [|ll ld lr]; [left; split; [done|apply Hl]|right]. split; [done|].
    pose proof (clean_len _ (texts_d _ _ _ (texts_l _ _ _ Hc))). destruct Hl as (? & _). lia. }
  assert (Hrw : r = Nil /\ wr = 0%Z \/ r <> Nil /\ (0 < wr /\ 0 <= sr /\ 0 <= er /\ (sr + er) / 2 + 1 <= wr)%Z).
  { destruct r as [|rl rd rr]; [left; split; [done|apply Hr]|right]. split; [done|].
    pose proof (clean_len _ (texts_d _ _ _ (texts_r _ _ _ Hc))). destruct Hr as (? & _). lia. }
  cbn [print_box]. rewrite El, Er. cbn zeta iota beta.
  clear El Er Hl Hr.
  set (lr := ((sl + el) / 2 + 1)%Z) in *. set (rr := ((sr + er) / 2)%Z) in *.
  exists (if Z.ltb 0 wl then times c_space (lr + 1) ++ times c_under (wl - lr) else []),
         (if Z.ltb 0 wr then times c_under rr ++ times c_space (wr - rr + 1) else []),
         (if Z.ltb 0 wl then times c_space lr ++ [c_slash] ++ times c_space (wl - lr) else []),
         (if Z.ltb 0 wr then times c_space rr ++ [c_back] ++ times c_space (wr - rr) else []),
         (if Z.ltb 0 wl then 1 else 0), (if Z.ltb 0 wr then 1 else 0).
  assert (Hlr : (l <> Nil -> 1 <= lr <= wl)%Z) by (intros ?; destruct Hlw as [[? _]|(_ & ?)]; [done|lia]).
  assert (Hrr : (r <> Nil -> 0 <= rr < wr)%Z) by (intros ?; destruct Hrw as [[? _]|(_ & ?)]; [done|lia]).
  assert (Hl0 : Z.ltb 0 wl = true /\ l <> Nil /\ (1 <= lr <= wl)%Z \/ Z.ltb 0 wl = false /\ l = Nil /\ wl = 0%Z).
  { destruct Hlw as [[-> ->]|(Hne & ? & _)]; [by right|left]. split; [lia|]. auto. }
  assert (Hr0 : Z.ltb 0 wr = true /\ r <> Nil /\ (0 <= rr < wr)%Z \/ Z.ltb 0 wr = false /\ r = Nil /\ wr = 0%Z).
  { destruct Hrw as [[-> ->]|(Hne & ? & _)]; [by right|left]. split; [lia|]. auto. }
  clearbody lr rr. clear Hlr Hrr Hlw Hrw.
  assert (Hsp : sep (times c_space lr)) by (by apply times_sep).
  destruct Hl0 as [(-> & Hln & Hlr)|(-> & -> & ->)], Hr0 as [(-> & Hrn & Hrr)|(-> & -> & ->)]; repeat split;
    try (repeat first [apply Forall_app; split | apply times_sep | apply times_tame | apply Forall_cons; split | apply Forall_nil]; done);
    try (rewrite ?app_length, ?times_length; cbn [length]; rewrite ?times_length; lia);
    try (left; done); try (right; done);
    try (intros; first [done|constructor]);
    refine (f_equal2 pair (f_equal2 pair (f_equal2 pair _ _) _) _); rewrite ?app_length, ?times_length; cbn [length app]; try lia; try done;
    (do 2 (refine (f_equal2 cons _ _); [rewrite ?app_nil_r; done|])); apply map_ext; intros i; unfold row_or; unfold times at 2; f_equal; f_equal; f_equal; lia.
Qed.

Lemma sep_at a c : sep a -> parts (default c_space (a !! c)) = true.
Proof. intros H. destruct (a !! c) as [x|] eqn:E; [|done]. rewrite Forall_lookup in H. by eapply H. Qed.

Lemma row_at t L w s e t' L' w' s' e' k i c : box_ok t L w s e -> box_ok t' L' w' s' e' ->
  default c_space ((row_or L w i ++ repeat c_space k ++ row_or L' w' i) !! c) =
    if Nat.ltb c (Z.to_nat w) then char_at L i c
    else if Nat.ltb c (Z.to_nat w + k) then c_space else char_at L' i (c - Z.to_nat w - k).
Proof.
  intros H H'. pose proof (row_or_len _ _ _ _ _ i H) as E. pose proof (row_or_len _ _ _ _ _ i H') as E'.
  destruct (Nat.ltb_spec c (Z.to_nat w)); [rewrite lookup_app_l by lia; apply row_or_at|].
  rewrite lookup_app_r by lia. rewrite E. destruct (Nat.ltb_spec c (Z.to_nat w + k)).
  - rewrite lookup_app_l by (rewrite repeat_length; lia). apply repeat_at.
  - rewrite lookup_app_r by (rewrite repeat_length; lia). rewrite repeat_length. apply row_or_at.
Qed.
Lemma low_blank t L w s e i c : box_ok t L w s e -> length L <= S i -> char_at L i c = c_space.
Proof.
  intros H Hi. destruct t as [|l d r]; [by destruct H as [-> _]|]. destruct H as (_ & _ & _ & HL & H).
  destruct (decide (i = length L - 1)) as [->|]; [apply H|]. unfold char_at. rewrite (lookup_ge_None_2 L) by lia. done.
Qed.
Lemma box_length t L w s e : box_ok t L w s e -> length L = 2 * nlevels t.
Proof. destruct t; [by intros [-> _]|intros H; apply H]. Qed.
(** Everything used below about the box of a tree. *)
Lemma box_inv t : texts_clean t -> exists L w s e, print_box show t = (L, w, s, e) /\ box_ok t L w s e.
Proof.
  induction t as [|l IHl d r IHr]; intros Hc; [by exists [], 0%Z, 0%Z, 0%Z|].
  destruct (IHl (texts_l _ _ _ Hc)) as (Ll & wl & sl & el & El & Hl).
  destruct (IHr (texts_r _ _ _ Hc)) as (Lr & wr & sr & er & Er & Hr).
  destruct (box_shape l d r Hc _ _ _ _ _ _ _ _ El Hl Er Hr) as (a & b & a' & b' & gl & gr & Ha & Hb & Hta & Htb & Htab & La & Lb & La' & Lb' & Hgl & Hgr & Hs1 & Hs2 & E).
  eexists _, _, _, _. split; [exact E|]. cbn [box_ok].
  assert (HLl : length Ll = 2 * nlevels l) by (destruct l; [by destruct Hl as [-> _]|apply Hl]).
  assert (HLr : length Lr = 2 * nlevels r) by (destruct r; [by destruct Hr as [-> _]|apply Hr]).
  pose proof (texts_d _ _ _ Hc) as Hd.
  assert (Hin : forall i, tame (row_or Ll wl i ++ repeat c_space (gl + length (show d) + gr) ++ row_or Lr wr i)).
  { intros i. apply Forall_app. split; [by eapply row_or_tame|]. apply Forall_app. split; [|by eapply row_or_tame].
    apply Forall_forall. intros x Hx%elem_of_list_In%repeat_spec. by subst. }
  rewrite Nat2Z.id. split; [rewrite !app_length; lia|]. split; [|split; [|split]].
  - constructor; [done|]. constructor.
    { rewrite !app_length, times_length. lia. }
    apply Forall_forall. intros x (i & -> & _)%elem_of_list_fmap.
    cbn beta. rewrite !app_length, repeat_length, (row_or_len l _ _ _ _ _ Hl), (row_or_len r _ _ _ _ _ Hr). lia.
  - constructor; [|constructor].
    + apply Forall_app. split; [done|]. apply Forall_app. split; [by apply clean_tame|done].
    + apply Forall_app in Htab as [? ?]. apply Forall_app. split; [done|]. apply Forall_app. split; [by apply times_tame|done].
    + apply Forall_forall. intros x (i & -> & _)%elem_of_list_fmap. apply Hin.
  - cbn [length nlevels]. rewrite map_length, seq_length. lia.
  - intros c. cbn [length]. rewrite map_length, seq_length.
    destruct (Nat.max (length Ll) (length Lr)) as [|m] eqn:Em.
    + cbn. assert (l = Nil) as -> by (destruct l; [done|cbn in HLl; lia]). assert (r = Nil) as -> by (destruct r; [done|cbn in HLr; lia]).
      rewrite Hs1, Hs2 by done. cbn. rewrite app_nil_r. apply repeat_at.
    + replace (S (S (S m)) - 1) with (S (S m)) by lia. unfold char_at at 1. rewrite lookup_two.
      rewrite list_lookup_fmap, lookup_seq_lt by lia.
      transitivity (default c_space ((row_or Ll wl m ++ repeat c_space (gl + length (show d) + gr) ++ row_or Lr wr m) !! c)); [done|].
      rewrite (row_at _ _ _ _ _ _ _ _ _ _ _ _ _ Hl Hr).
      rewrite (low_blank _ _ _ _ _ m c Hl), (low_blank _ _ _ _ _ m _ Hr) by lia. by repeat destruct (Nat.ltb _ _).
Qed.
Definition lines (t : bin A) : list pystr := fst (fst (fst (print_box show t))).
Definition row (L : list pystr) (i : nat) : pystr := default [] (L !! i).
Lemma lines_ok t : texts_clean t -> exists w s e, box_ok t (lines t) w s e.
Proof. intros (L & w & s & e & E & H)%box_inv. unfold lines. rewrite E. by exists w, s, e. Qed.
Lemma beyond t L w s e i c : box_ok t L w s e -> Z.to_nat w <= c -> char_at L i c = c_space.
Proof.
  intros H Hc. unfold char_at. destruct (L !! i) as [x|] eqn:E; [|done]. cbn.
  destruct t as [|l d r]; [by destruct H as [-> _]|]. destruct H as (_ & H & _). rewrite Forall_lookup in H.
  rewrite lookup_ge_None_2; [done|]. rewrite (H _ _ E). done.
Qed.
Lemma box_read l d r : texts_clean (Bin l d r) -> exists a b,
  sep a /\ sep b /\ row (lines (Bin l d r)) 0 = a ++ show d ++ b /\
  (forall i, words (row (lines (Bin l d r)) (2 + i)) = words (row (lines l) i) ++ words (row (lines r) i)) /\
  (forall i c, char_at (lines l) i c = if Nat.ltb (S c) (length a) then char_at (lines (Bin l d r)) (2 + i) c else c_space) /\
  (forall i c, char_at (lines r) i c = char_at (lines (Bin l d r)) (2 + i) (length a + length (show d) + 1 + c)).
Proof.
  intros Hc.
  destruct (box_inv _ (texts_l _ _ _ Hc)) as (Ll & wl & sl & el & El & Hl).
  destruct (box_inv _ (texts_r _ _ _ Hc)) as (Lr & wr & sr & er & Er & Hr).
  destruct (box_shape l d r Hc _ _ _ _ _ _ _ _ El Hl Er Hr) as (a & b & a' & b' & gl & gr & Ha & Hb & Hta & Htb & Htab & La & Lb & La' & Lb' & Hgl & Hgr & Hs1 & Hs2 & E).
  pose proof (clean_len _ (texts_d _ _ _ Hc)) as Hd.
  exists a, b. unfold lines. rewrite E, El, Er. cbn [fst]. split; [done|]. split; [done|]. split; [done|].
  set (bl := map _ _).
  assert (Hge : forall i, Nat.max (length Ll) (length Lr) <= i -> bl !! i = None).
  { intros i Hi. apply lookup_ge_None_2. unfold bl. rewrite map_length, seq_length. lia. }
  assert (Hlt : forall i, i < Nat.max (length Ll) (length Lr) ->
     bl !! i = Some (row_or Ll wl i ++ repeat c_space (gl + length (show d) + gr) ++ row_or Lr wr i)).
  { intros i Hi. unfold bl. rewrite list_lookup_fmap, lookup_seq_lt by lia. done. }
  clearbody bl. split; [|split].
  - intros i. unfold row at 1. change (2 + i) with (S (S i)). rewrite lookup_two.
    destruct (decide (i < Nat.max (length Ll) (length Lr))) as [Hi|Hi].
    + rewrite Hlt by done. change (default [] (Some ?x)) with x. replace (gl + length (show d) + gr) with (S (gl + length (show d) + gr - 1)) by lia.
      cbn [repeat app]. rewrite words_cut by done. rewrite words_sep_app, !row_or_words; [done|].
      apply Forall_forall. intros x Hx%elem_of_list_In%repeat_spec. by subst.
    + rewrite Hge by lia. unfold row. rewrite !lookup_ge_None_2 by lia. done.
  - intros i c. destruct (decide (i < Nat.max (length Ll) (length Lr))) as [Hi|Hi].
    + unfold char_at at 2. change (2 + i) with (S (S i)). rewrite lookup_two. rewrite Hlt by done.
      change (default [] (Some ?x)) with x. rewrite (row_at _ _ _ _ _ _ _ _ _ _ _ _ _ Hl Hr).
      destruct (Nat.ltb_spec (S c) (length a)).
      * rewrite (proj2 (Nat.ltb_lt c (Z.to_nat wl))) by lia. done.
      * apply (beyond _ _ _ _ _ i c Hl). destruct Hgl as [[-> ->]|[_ ->]]; [destruct Hl as (_ & -> & _)|]; lia.
    + unfold char_at. change (2 + i) with (S (S i)). rewrite lookup_two. rewrite Hge by lia.
      rewrite (lookup_ge_None_2 Ll) by lia. by destruct (Nat.ltb (S c) (length a)).
  - intros i c. destruct (decide (i < Nat.max (length Ll) (length Lr))) as [Hi|Hi].
    + unfold char_at at 2. change (2 + i) with (S (S i)). rewrite lookup_two. rewrite Hlt by done.
      change (default [] (Some ?x)) with x. rewrite (row_at _ _ _ _ _ _ _ _ _ _ _ _ _ Hl Hr).
      destruct Hgr as [[-> ->]|[_ ->]].
      { destruct Hr as (-> & -> & _). rewrite (proj2 (Nat.ltb_ge (length a + length (show d) + 1 + c) (Z.to_nat wl))) by lia. by destruct (Nat.ltb _ (Z.to_nat wl + _)). }
      rewrite (proj2 (Nat.ltb_ge _ (Z.to_nat wl))) by lia. rewrite (proj2 (Nat.ltb_ge _ (Z.to_nat wl + _))) by lia. f_equal. lia.
    + unfold char_at. change (2 + i) with (S (S i)). rewrite lookup_two. rewrite Hge by lia.
      rewrite (lookup_ge_None_2 Lr) by lia. done.
Qed.

(** ** The words of the rows *)
Lemma lines_words t : texts_clean t -> forall n, words (row (lines t) (2 * n)) = map show (bin_level n t).
Proof.
  induction t as [|l IHl d r IHr]; intros Hc n; [done|].
  destruct (box_read l d r Hc) as (a & b & Ha & Hb & E0 & Ew & _ & _). destruct n as [|n].
  - change (2 * 0) with 0. cbn [bin_level]. rewrite E0. rewrite words_clean; [done..|]. by eapply texts_d.
  - replace (2 * S n) with (2 + 2 * n) by lia. rewrite Ew, IHl, IHr by (first [by eapply texts_l|by eapply texts_r]).
    cbn [bin_level]. by rewrite map_app.
Qed.

(** ** Reading the picture back *)
Lemma sep_text_at a s b c : sep a -> sep b -> clean s ->
  parts (default c_space ((a ++ s ++ b) !! c)) = negb (Nat.leb (length a) c && Nat.ltb c (length a + length s)).
Proof.
  intros Ha Hb Hs. destruct (Nat.leb_spec (length a) c) as [H|H].
  2:{ rewrite lookup_app_l by done. by rewrite sep_at. }
  rewrite lookup_app_r by lia. destruct (Nat.ltb_spec c (length a + length s)) as [H2|H2].
  - rewrite lookup_app_l by lia. destruct (lookup_lt_is_Some_2 s (c - length a)) as [x Hx]; [lia|]. rewrite Hx. cbn.
    pose proof (clean_parts _ Hs) as Hp. rewrite Forall_lookup in Hp. by eapply Hp.
  - rewrite lookup_app_r by lia. by rewrite sep_at.
Qed.
Lemma row0_same a s b a' s' b' : sep a -> sep b -> clean s -> sep a' -> sep b' -> clean s' ->
  (forall c, default c_space ((a ++ s ++ b) !! c) = default c_space ((a' ++ s' ++ b') !! c)) -> length a = length a' /\ s = s'.
Proof.
  intros Ha Hb Hs Ha' Hb' Hs' E.
  assert (Hk : forall c, (length a <= c < length a + length s) <-> (length a' <= c < length a' + length s')).
  { intros c. pose proof (f_equal parts (E c)) as H. rewrite !sep_text_at in H by done.
    destruct (Nat.leb_spec (length a) c), (Nat.ltb_spec c (length a + length s)), (Nat.leb_spec (length a') c), (Nat.ltb_spec c (length a' + length s'));
      cbn in H; try done; lia. }
  pose proof (clean_len _ Hs). pose proof (clean_len _ Hs').
  assert (length a = length a').
  { pose proof (Hk (length a)) as H1. pose proof (Hk (length a')) as H2. lia. }
  assert (length s = length s').
  { pose proof (Hk (length a + length s)) as H2. pose proof (Hk (length a' + length s')) as H3. lia. }
  split; [done|]. apply list_eq. intros i. destruct (decide (i < length s)) as [Hi|Hi].
  2:{ rewrite !lookup_ge_None_2 by lia. done. }
  specialize (E (length a + i)). rewrite (lookup_app_r a), (lookup_app_r a'), (lookup_app_l s), (lookup_app_l s') in E by lia.
  replace (length a + i - length a) with i in E by lia. replace (length a + i - length a') with i in E by lia.
  destruct (lookup_lt_is_Some_2 s i) as [x Hx]; [lia|]. destruct (lookup_lt_is_Some_2 s' i) as [x' Hx']; [lia|].
  rewrite Hx, Hx' in E. rewrite Hx, Hx'. cbn in E. by subst.
Qed.
Lemma pict_inj t : forall t', texts_clean t -> texts_clean t' ->
  (forall i c, char_at (lines t) i c = char_at (lines t') i c) -> bin_map show t = bin_map show t'.
Proof.
  assert (Hx : forall l d r, texts_clean (Bin l d r) -> exists c, char_at (lines (Bin l d r)) 0 c <> c_space).
  { intros l d r Hc. destruct (box_read l d r Hc) as (a & b & Ha & Hb & E0 & _). pose proof (texts_d _ _ _ Hc) as Hd.
    exists (length a). unfold char_at. fold (row (lines (Bin l d r)) 0). rewrite E0. intros E. apply (f_equal parts) in E.
    rewrite sep_text_at in E by done. pose proof (clean_len _ Hd).
    rewrite Nat.leb_refl, (proj2 (Nat.ltb_lt _ _)) in E by lia. done. }
  induction t as [|l IHl d r IHr]; intros [|l' d' r'] Hc Hc' E; [done|..].
  - destruct (Hx _ _ _ Hc') as [c H]. by rewrite <- E in H.
  - destruct (Hx _ _ _ Hc) as [c H]. by rewrite E in H.
  - destruct (box_read l d r Hc) as (a & b & Ha & Hb & E0 & _ & Rl & Rr).
    destruct (box_read l' d' r' Hc') as (a' & b' & Ha' & Hb' & E0' & _ & Rl' & Rr').
    destruct (row0_same a (show d) b a' (show d') b') as [Ea Ed]; try done; [by eapply texts_d|by eapply texts_d| |].
    { intros c. rewrite <- E0, <- E0'. apply (E 0 c). }
    cbn [bin_map]. rewrite Ed. f_equal.
    + apply IHl; [by eapply texts_l|by eapply texts_l|]. intros i c. by rewrite Rl, Rl', Ea, E.
    + apply IHr; [by eapply texts_r|by eapply texts_r|]. intros i c. by rewrite Rr, Rr', Ea, Ed, E.
Qed.

(** ** The columns of the nodes *)
Definition char_written (L : list pystr) (i c : nat) (w : pystr) : Prop := forall k x, w !! k = Some x -> char_at L i (c + k) = x.

Definition before (p q : nat * nat * A) : Prop := (p.1.2 + length (show p.2) < q.1.2)%nat.
Lemma sorted_around {B} (R : B -> B -> Prop) l1 x l2 : StronglySorted R l1 -> StronglySorted R l2 ->
  (forall y, y ∈ l1 -> R y x) -> (forall z, z ∈ l2 -> R x z) -> (forall y z, y ∈ l1 -> z ∈ l2 -> R y z) ->
  StronglySorted R (l1 ++ x :: l2).
Proof.
  intros H1 H2 Hx Hz Hyz. induction H1 as [|y l1 H1 IH HF]; cbn.
  - constructor; [done|]. by apply Forall_forall.
  - constructor.
    + apply IH; intros; [apply Hx|apply Hyz]; [by right|by right|done].
    + apply Forall_app. split; [done|]. constructor; [apply Hx; by left|]. apply Forall_forall. intros z Hin. apply Hyz; [by left|done].
Qed.
Lemma sorted_map {B} (R : B -> B -> Prop) (f : B -> B) l : (forall x y, R x y -> R (f x) (f y)) -> StronglySorted R l -> StronglySorted R (map f l).
Proof.
  intros Hf. induction 1 as [|x l H IH HF]; cbn; [constructor|]. constructor; [done|].
  apply Forall_forall. intros y (z & -> & Hz)%elem_of_list_fmap. rewrite Forall_forall in HF. auto.
Qed.
Lemma columns t : texts_clean t -> forall n, exists places,
  map (fun p => (p.1.1, p.2)) places = inorder_depths t n /\
  (forall k c d, (k, c, d) ∈ places -> n <= k /\ clean (show d) /\ char_written (lines t) (2 * (k - n)) c (show d)) /\
  StronglySorted before places.
Proof.
  induction t as [|l IHl d r IHr]; intros Hc n.
  { exists []. split; [done|]. split; [|constructor]. intros k c d H. by apply elem_of_nil in H. }
  destruct (box_read l d r Hc) as (a & b & Ha & Hb & E0 & _ & Rl & Rr). pose proof (texts_d _ _ _ Hc) as Hd.
  destruct (IHl (texts_l _ _ _ Hc) (S n)) as (pl & Ml & Wl & Sl).
  destruct (IHr (texts_r _ _ _ Hc) (S n)) as (pr & Mr & Wr & Sr). clear IHl IHr.
  set (off := length a + length (show d) + 1) in *.
  set (sh := fun p : nat * nat * A => (p.1.1, off + p.1.2, p.2)).
  assert (Hlb : forall p, p ∈ pl -> p.1.2 + length (show p.2) < length a).
  { intros [[k c] x] H. destruct (Wl _ _ _ H) as (Hk & Hx & Hw). cbn.
    pose proof (clean_len _ Hx) as Hlen. destruct (lookup_lt_is_Some_2 (show x) (length (show x) - 1)) as [y Hy]; [lia|].
    pose proof (Hw _ _ Hy) as Hat. rewrite Rl in Hat. destruct (Nat.ltb_spec (S (c + (length (show x) - 1))) (length a)) as [Hlt|Hge]; [lia|].
    exfalso. pose proof (clean_parts _ Hx) as Hp. rewrite Forall_lookup in Hp. apply Hp in Hy. by rewrite <- Hat in Hy. }
  exists (pl ++ (n, length a, d) :: map sh pr). split; [|split].
  - rewrite map_app. cbn [map fst snd inorder_depths]. f_equal; [done|]. f_equal. rewrite map_map. rewrite <- Mr. by apply map_ext.
  - intros k c x [Hin|[E|Hin]%elem_of_cons]%elem_of_app.
    + destruct (Wl _ _ _ Hin) as (Hk & Hx & Hw). split; [lia|]. split; [done|]. intros j y Hy.
      pose proof (Hw _ _ Hy) as Hat. rewrite Rl in Hat. pose proof (Hlb _ Hin) as Hb'. cbn in Hb'.
      pose proof (lookup_lt_Some _ _ _ Hy). rewrite (proj2 (Nat.ltb_lt _ _)) in Hat by lia.
      replace (2 * (k - n)) with (2 + 2 * (k - S n)) by lia. done.
    + injection E as -> -> ->. split; [lia|]. split; [done|]. intros j y Hy. replace (2 * (n - n)) with 0 by lia.
      unfold char_at. fold (row (lines (Bin l d r)) 0). rewrite E0. rewrite lookup_app_r by lia.
      pose proof (lookup_lt_Some _ _ _ Hy). rewrite lookup_app_l by lia. replace (length a + j - length a) with j by lia. by rewrite Hy.
    + apply elem_of_list_fmap in Hin as ([[k' c'] x'] & E & Hin). injection E as -> -> ->.
      destruct (Wr _ _ _ Hin) as (Hk & Hx & Hw). split; [cbn; lia|]. split; [done|]. intros j y Hy.
      pose proof (Hw _ _ Hy) as Hat. rewrite Rr in Hat. cbn [fst snd].
      replace (2 * (k' - n)) with (2 + 2 * (k' - S n)) by lia. rewrite <- Hat. f_equal. lia.
  - apply sorted_around; [done|..].
    + apply sorted_map; [|done]. intros x y Hxy. unfold before, sh in *. cbn in *. lia.
    + intros y Hy. apply Hlb in Hy. done.
    + intros z (q & -> & _)%elem_of_list_fmap. unfold before, sh. cbn. lia.
    + intros y z Hy (q & -> & _)%elem_of_list_fmap. apply Hlb in Hy. unfold before, sh. cbn. lia.
Qed.

(** ** The page *)
Lemma tame_one_line s : tame s -> one_line s.
Proof. intros H Hin. unfold tame in H. rewrite Forall_forall in H. by specialize (H _ Hin eq_refl). Qed.
Lemma rstrip_one_line s : one_line s -> one_line (rstrip s).
Proof. destruct (rstrip_tail s) as (b & E & _). rewrite E at 1. intros H. by apply one_line_app in H as [? _]. Qed.
Lemma removelast_lookup {B} (l : list B) i : S i < length l -> removelast l !! i = l !! i.
Proof.
  revert i. induction l as [|x l IH]; intros i H; [done|]. destruct l as [|y l]; [cbn in H; lia|].
  change (removelast (x :: y :: l)) with (x :: removelast (y :: l)). destruct i as [|i]; [done|]. cbn [lookup list_lookup]. apply IH. cbn in *. lia.
Qed.
Lemma removelast_len {B} (l : list B) : length (removelast l) = length l - 1.
Proof. induction l as [|x [|y l] IH]; [done..|]. change (removelast (x :: y :: l)) with (x :: removelast (y :: l)). cbn [length] in *. lia. Qed.
Definition page (t : bin A) : list pystr := map rstrip (removelast (lines t)).
Lemma page_split t : t <> Nil -> texts_clean t -> split_lines (bin_repr show t) = page t.
Proof.
  intros Hne Hc. destruct (lines_ok t Hc) as (w & s & e & Hok).
  assert (E : bin_repr show t = join s_newline (page t)).
  { unfold page, lines, bin_repr. destruct t; [done|]. by destruct (print_box show _) as [[[? ?] ?] ?]. }
  rewrite E. apply split_join.
  - destruct t as [|l d r]; [done|]. destruct Hok as (_ & _ & _ & HL & _). intros H. apply (f_equal length) in H.
    unfold page in H. rewrite map_length, removelast_len, HL in H. cbn in H. lia.
  - unfold page. apply Forall_forall. intros x (y & -> & Hy)%elem_of_list_fmap. apply rstrip_one_line, tame_one_line.
    destruct t as [|l d r]; [done|]. destruct Hok as (_ & _ & Ht & HL & _). rewrite Forall_forall in Ht. apply Ht.
    apply elem_of_list_lookup in Hy as [i Hi]. apply elem_of_list_lookup. exists i.
    pose proof (lookup_lt_Some _ _ _ Hi) as Hlt. rewrite removelast_len in Hlt. by rewrite removelast_lookup in Hi by lia.
Qed.
Lemma page_length t : texts_clean t -> length (page t) = 2 * nlevels t - 1.
Proof.
  intros Hc. destruct (lines_ok t Hc) as (w & s & e & Hok). unfold page. rewrite map_length, removelast_len.
  by rewrite (box_length _ _ _ _ _ Hok).
Qed.
Lemma page_at t i c : texts_clean t -> char_at (page t) i c = char_at (lines t) i c.
Proof.
  intros Hc. destruct (lines_ok t Hc) as (w & s & e & Hok). destruct (decide (S i < length (lines t))) as [Hi|Hi].
  - unfold char_at, page. rewrite list_lookup_fmap, removelast_lookup by done. destruct (lines t !! i) as [x|] eqn:E; [|done].
    apply rstrip_at. destruct t as [|l d r]; [by destruct Hok as [Hn _]; rewrite Hn in E|].
    destruct Hok as (_ & _ & Ht & _). rewrite Forall_lookup in Ht. by eapply Ht.
  - rewrite (low_blank _ _ _ _ _ _ _ Hok) by lia. unfold char_at. rewrite (lookup_ge_None_2 (page t)); [done|].
    unfold page. rewrite map_length, removelast_len. lia.
Qed.
Lemma page_words t n : texts_clean t -> words (row (page t) (2 * n)) = map show (bin_level n t).
Proof.
  intros Hc. rewrite <- lines_words by done. destruct (lines_ok t Hc) as (w & s & e & Hok). unfold row.
  pose proof (box_length _ _ _ _ _ Hok) as HL.
  destruct (decide (S (2 * n) < length (lines t))) as [Hi|Hi].
  - unfold page. rewrite list_lookup_fmap, removelast_lookup by done. destruct (lines t !! (2 * n)) as [x|] eqn:E; [|done].
    apply rstrip_words. destruct t as [|l d r]; [by destruct Hok as [Hn _]; rewrite Hn in E|].
    destruct Hok as (_ & _ & Ht & _). rewrite Forall_lookup in Ht. by eapply Ht.
  - rewrite !lookup_ge_None_2; [done|lia|]. unfold page. rewrite map_length, removelast_len. lia.
Qed.
Lemma written_chars L i c w : Forall (fun x => parts x = false) w -> char_written L i c w -> written L i c w.
Proof.
  intros Hp H. unfold written. apply list_eq. intros k. destruct (decide (k < length w)) as [Hk|Hk].
  - rewrite lookup_take by done. rewrite lookup_drop. destruct (lookup_lt_is_Some_2 w k Hk) as [x Hx]. rewrite Hx.
    pose proof (H _ _ Hx) as Hat. unfold char_at in Hat. destruct (default [] (L !! i) !! (c + k)) as [y|] eqn:E.
    + cbn in Hat. by rewrite Hat.
    + rewrite Forall_lookup in Hp. apply Hp in Hx. cbn in Hat. by rewrite <- Hat in Hx.
  - rewrite (lookup_ge_None_2 w) by lia. apply lookup_ge_None_2. rewrite take_length. lia.
Qed.
Lemma page_drawn t : texts_clean t -> drawn_in_order show (page t) t.
Proof.
  intros Hc. destruct (columns t Hc 0) as (places & M & W & S). exists places. split; [done|]. split; [|done].
  intros k c d Hin. destruct (W _ _ _ Hin) as (_ & Hx & Hw). rewrite Nat.sub_0_r in Hw.
  apply written_chars; [by apply clean_parts|]. intros j y Hy. rewrite page_at by done. by apply Hw.
Qed.
Lemma repr_inj t t' : texts_clean t -> texts_clean t' -> bin_repr show t = bin_repr show t' -> bin_map show t = bin_map show t'.
Proof.
  assert (He : forall l d r, texts_clean (Bin l d r) -> bin_repr show (Bin l d r) <> empty_picture).
  { intros l d r Hc E. apply (f_equal split_lines) in E. rewrite page_split in E by done.
    pose proof (page_words _ 0 Hc) as Hw. rewrite E in Hw. by vm_compute in Hw. }
  intros Hc Hc' E. destruct t as [|l d r], t' as [|l' d' r']; [done|..].
  - symmetry in E. by apply He in E.
  - by apply He in E.
  - apply pict_inj; [done..|]. intros i c. rewrite <- !page_at by done. rewrite <- !page_split by done. by rewrite E.
Qed.
End box.

Lemma repr_pictures {A} (show : A -> pystr) t : clean_texts show t -> pictures show t (bin_repr show t).
Proof.
  intros Hc. assert (t = Nil \/ t <> Nil) as [-> |Hn] by (destruct t; [by left|by right]); [done|].
  unfold pictures. destruct t as [|l d r] eqn:Et; [done|]. rewrite <- Et in *. cbn zeta. rewrite page_split by (by subst). split; [|split].
  - by apply page_length.
  - intros n. apply (page_words show t n Hc).
  - by apply page_drawn.
Qed.

(** ** Heaps *)
Lemma array_tree_fuel {A} (h : list A) f : forall f' i, length h - i <= f -> length h - i <= f' -> array_tree f h i = array_tree f' h i.
Proof.
  induction f as [|f IH]; intros [|f'] i H H'; [done|..]; cbn [array_tree].
  - by rewrite lookup_ge_None_2 by lia.
  - by rewrite lookup_ge_None_2 by lia.
  - destruct (h !! i) as [x|] eqn:E; [|done]. apply lookup_lt_Some in E. f_equal; apply IH; lia.
Qed.
Lemma snapshot_array h f : forall i, i < length h -> length h - i <= f ->
  heap_snapshot f (Some i) (tree_upto h (length h)) = Ok (array_tree f h i) (tree_upto h (length h)).
Proof.
  induction f as [|f IH]; intros i Hi Hf; [lia|]. cbn [heap_snapshot array_tree].
  rewrite (bind_ok _ _ _ _ _ (hnode_get_ok _ _ _ (tree_upto_lookup h (length h) i Hi))).
  destruct (lookup_lt_is_Some_2 h i Hi) as [x Hx]. rewrite Hx.
  assert (HC : forall j, i < j -> heap_snapshot f (if Nat.ltb j (length h) then Some j else None) (tree_upto h (length h)) = Ok (array_tree f h j) (tree_upto h (length h))).
  { intros j Hj. destruct (Nat.ltb_spec j (length h)) as [Hlt|Hge]; [apply IH; lia|].
    replace (array_tree f h j) with (@Nil num); [by destruct f|]. destruct f; [done|]. cbn. by rewrite lookup_ge_None_2 by lia. }
  unfold tnode. cbn [hn_left hn_right hn_data]. rewrite (bind_ok _ _ _ _ _ (HC (2 * i + 1) ltac:(lia))).
  rewrite (bind_ok _ _ _ _ _ (HC (2 * i + 2) ltac:(lia))). rewrite Hx. done.
Qed.
Lemma transform_ok h : h <> [] -> transform h [] = Ok 0 (tree_upto h (length h)).
Proof.
  intros Hne. destruct h as [|x h']; [done|]. set (h := x :: h') in *. unfold transform.
  rewrite (bind_ok _ _ _ tt []) by done. rewrite (bind_ok _ _ _ x []) by done.
  rewrite (bind_ok _ _ _ 0 [HNode x None None]) by done.
  rewrite (bind_ok _ _ _ tt (tree_upto h (length h))); [done|].
  exact (transform_loop_spec h (S (length h)) 0 ltac:(cbn; lia) ltac:(lia)).
Qed.
Lemma heap_repr_ok show h : exists m, heap_repr show h = Ok (bin_repr show (heap_tree h)) m.
Proof.
  destruct (decide (h = [])) as [->|Hne]; [by exists []|]. exists (tree_upto h (length h)). unfold heap_repr.
  destruct (Nat.eqb_spec (length h) 0) as [E|E]; [by destruct h|].
  rewrite (bind_ok _ _ _ _ _ (transform_ok h Hne)).
  rewrite (bind_ok _ _ _ _ _ (snapshot_array h (S (length h)) 0 ltac:(lia) ltac:(lia))).
  unfold heap_tree, ret. by rewrite (array_tree_fuel h (length h) (S (length h)) 0) by lia.
Qed.
Lemma take_twice {A} m (k : list A) : take m k ++ take m (drop m k) = take (2 * m) k.
Proof.
  rewrite <- (take_drop m (take (2 * m) k)). rewrite take_take, skipn_firstn_comm.
  replace (Nat.min m (2 * m)) with m by lia. by replace (2 * m - m) with m by lia.
Qed.
Lemma array_level {A} (h : list A) n : forall f i, length h - i <= f ->
  bin_level n (array_tree f h i) = take (2 ^ n) (drop (2 ^ n * (i + 1) - 1) h).
Proof.
  induction n as [|n IH]; intros f i Hf.
  - replace (2 ^ 0 * (i + 1) - 1) with i by (cbn; lia). change (2 ^ 0) with 1. destruct f as [|f]; cbn [array_tree].
    + rewrite drop_ge by lia. done.
    + destruct (h !! i) as [x|] eqn:E; cbn [bin_level]; [by rewrite (drop_S _ _ _ E)|].
      apply lookup_ge_None in E. by rewrite drop_ge by lia.
  - pose proof (Nat.pow_nonzero 2 n ltac:(lia)) as Hp. rewrite Nat.pow_succ_r'. set (m := 2 ^ n) in *.
    destruct (decide (i < length h)) as [Hi|Hi].
    + destruct f as [|f]; [lia|]. cbn [array_tree]. destruct (lookup_lt_is_Some_2 h i Hi) as [x Hx]. rewrite Hx. cbn [bin_level].
      rewrite !IH by lia.
      replace (m * (2 * i + 1 + 1) - 1) with (2 * m * (i + 1) - 1) by lia.
      replace (m * (2 * i + 2 + 1) - 1) with (2 * m * (i + 1) - 1 + m) by nia.
      rewrite <- drop_drop. apply take_twice.
    + replace (array_tree f h i) with (@Nil A) by (destruct f; [done|]; cbn; by rewrite lookup_ge_None_2 by lia).
      rewrite drop_ge by nia. cbn. by rewrite take_nil.
Qed.
Lemma heap_level {A} (h : list A) n : bin_level n (heap_tree h) = take (2 ^ n) (drop (2 ^ n - 1) h).
Proof. unfold heap_tree. rewrite array_level by lia. f_equal. f_equal. lia. Qed.
Lemma bin_level_map {A B} (f : A -> B) t : forall n, bin_level n (bin_map f t) = map f (bin_level n t).
Proof. induction t as [|l IHl d r IHr]; intros [|n]; cbn; [done..|]. by rewrite IHl, IHr, map_app. Qed.
Lemma heap_tree_inj {A B} (f : A -> B) h h' : bin_map f (heap_tree h) = bin_map f (heap_tree h') -> map f h = map f h'.
Proof.
  intros E. apply list_eq. intros i.
  assert (HL : forall n, take (2 ^ n) (drop (2 ^ n - 1) (map f h)) = take (2 ^ n) (drop (2 ^ n - 1) (map f h'))).
  { intros n. pose proof (f_equal (bin_level n) E) as H. rewrite !bin_level_map, !heap_level in H.
    rewrite !fmap_take, !fmap_drop in H || rewrite <- !firstn_map, <- !skipn_map in H. exact H. }
  specialize (HL (Nat.log2 (i + 1))). destruct (Nat.log2_spec (i + 1)) as [H1 H2]; [lia|]. rewrite Nat.pow_succ_r' in H2.
  set (m := 2 ^ Nat.log2 (i + 1)) in *. apply (f_equal (lookup (i + 1 - m))) in HL.
  rewrite !lookup_take, !lookup_drop in HL by lia. replace (m - 1 + (i + 1 - m)) with i in HL by lia. exact HL.
Qed.
Lemma heap_clean {A} (show : A -> pystr) h : Forall (fun x => clean (show x)) h -> clean_texts show (heap_tree h).
Proof.
  intros H n d Hd. rewrite heap_level in Hd. rewrite Forall_forall in H. apply H.
  apply elem_of_take in Hd as (i & Hi & _). rewrite lookup_drop in Hi. by eapply elem_of_list_lookup_2.
Qed.

(** ** The texts of the nodes of the search trees *)
Lemma clean_app s r : clean s -> Forall (fun c => is_space c = false /\ c <> c_under) r -> clean (s ++ r).
Proof. intros [H1 H2] H3. split; [by destruct s|]. apply Forall_app. by split. Qed.
Lemma pay_text_clean c sp text p : (forall x, clean (text x)) -> clean (pay_text c sp text p).
Proof.
  intros H. unfold pay_text. destruct c, sp; try apply H.
  1: apply clean_app; [apply H|]; apply Forall_app; split; [repeat constructor; done|apply H].
  all: destruct (p_color p); apply clean_app; [apply H|repeat constructor; done|apply H|repeat constructor; done].
Qed.
Lemma pay_text_rb sp text p q : pay_text CRB sp text p = pay_text CRB sp text q -> text (p_val p) = text (p_val q) /\ p_color p = p_color q.
Proof.
  unfold pay_text. intros E. assert (HL : forall a b : list N, length a = length b -> forall x y : list N, x ++ a = y ++ b -> x = y /\ a = b).
  { intros a b Hab x y H. by apply app_inj_2. }
  apply HL in E as [E1 E2]; [|by destruct (p_color p), (p_color q)]. split; [done|]. by destruct (p_color p), (p_color q).
Qed.
Lemma bin_map_rel {A B C} (f : A -> B) (g : A -> C) t t' : (forall x y, f x = f y -> g x = g y) -> bin_map f t = bin_map f t' -> bin_map g t = bin_map g t'.
Proof.
  intros H. revert t'. induction t as [|l IHl d r IHr]; intros [|l' d' r'] E; [done|done|done|]. cbn in *.
  injection E as E1 E2 E3. f_equal; auto.
Qed.
