(** * The potential of a splay tree, as a product of sizes

    Proof machinery for C68. *)
From Coq Require Import Sorted.
From iris.proofmode Require Import proofmode.
From Verif Require Import Base NumOrd TreeModel TreeSpec BstModel BalModel BstSpec BstSep BstRules BstZip BstDel BinThm BstPure BstThm AvlThm SplayThm SplayCostSpec.
Local Open Scope nat_scope.

Definition wt {A} (t : bin A) : nat := S (bsize t).
Fixpoint pot {A} (t : bin A) : nat :=
  match t with Nil => 1 | Bin l _ r => S (S (bsize l + bsize r)) * (pot l * pot r) end.
Lemma pot_pos {A} (t : bin A) : 1 <= pot t.
Proof. induction t as [|l IHl x r IHr]; cbn [pot]; nia. Qed.
Definition side (f : frame) : ptree := match f with InL _ u | InR u _ => u end.
Lemma bsize_fill f t : bsize (fill f t) = S (bsize t + bsize (side f)).
Proof. destruct f; cbn; lia. Qed.
Lemma pot_fill f t : pot (fill f t) = S (S (bsize t + bsize (side f))) * (pot t * pot (side f)).
Proof.
  destruct f; cbn [fill pot side]; [done|]. rewrite (Nat.add_comm (bsize u)). f_equal. lia.
Qed.
(** What the frames contribute. *)
Fixpoint cfac (K : ctx) (n : nat) : nat :=
  match K with [] => 1 | f :: K' => S (S (n + bsize (side f))) * pot (side f) * cfac K' (S (n + bsize (side f))) end.
Lemma pot_plug K : forall t, pot (plug K t) = cfac K (bsize t) * pot t.
Proof.
  induction K as [|f K IH]; intros t; cbn [plug cfac]; [lia|]. rewrite IH bsize_fill pot_fill. nia.
Qed.
Lemma bsize_plug K : forall t t', bsize t = bsize t' -> bsize (plug K t) = bsize (plug K t').
Proof. induction K as [|f K IH]; intros t t' E; cbn [plug]; [done|]. apply IH. rewrite !bsize_fill. by rewrite E. Qed.

Lemma amgm a b : 4 * (a * b) <= (a + b) * (a + b).
Proof. pose proof (Z.square_nonneg (Z.of_nat a - Z.of_nat b)). nia. Qed.
(** One double step. *)
Lemma two_size f g l jy u : bsize (Bin (two f g l u).1 jy (two f g l u).2) = bsize (fill g (fill f (Bin l jy u))).
Proof. destruct f, g; cbn; lia. Qed.
Lemma two_pot f g l jy u :
  4 * pot (Bin (two f g l u).1 jy (two f g l u).2) * wt (Bin l jy u) ^ 3 <=
  pot (fill g (fill f (Bin l jy u))) * wt (fill g (fill f (Bin l jy u))) ^ 3.
Proof.
  assert (forall wg w1 w2 wx wp c A B, 4 * (w1 * w2) * (wx * (wx * wx)) <= wp * wx * (wg * (wg * wg)) ->
     A = wg * (w1 * w2) * c -> B = wg * (wp * wx) * c ->
     4 * A * wx ^ 3 <= B * wg ^ 3) as Hgen.
  { intros wg w1 w2 wx wp c A B H -> ->. cbn [Nat.pow]. rewrite !Nat.mul_1_r.
    assert (wg * c * (4 * (w1 * w2) * (wx * (wx * wx))) <= wg * c * (wp * wx * (wg * (wg * wg)))) by by apply Nat.mul_le_mono_l. lia. }
  assert (forall wg w1 w2 wx wp, w1 <= wg -> wx + w2 = wg -> wx <= wp -> 4 * (w1 * w2) * (wx * (wx * wx)) <= wp * wx * (wg * (wg * wg))) as Hzz.
  { intros wg w1 w2 wx wp H1 <- H2. pose proof (amgm wx w2) as Ha. set (wg := wx + w2) in *.
    transitivity ((4 * (wx * w2)) * (w1 * (wx * wx))); [lia|]. transitivity ((4 * (wx * w2)) * (wg * (wx * wx))); [apply Nat.mul_le_mono_l; by apply Nat.mul_le_mono_r|]. transitivity ((wg * wg) * (wg * (wp * wx))); [|lia].
    apply Nat.mul_le_mono; [done|]. apply Nat.mul_le_mono_l. by apply Nat.mul_le_mono_r. }
  assert (forall wg w1 w2 wx wp, w1 + w2 = wg -> wx <= wp -> wx <= wg -> 4 * (w1 * w2) * (wx * (wx * wx)) <= wp * wx * (wg * (wg * wg))) as Hzg.
  { intros wg w1 w2 wx wp <- H1 H2. pose proof (amgm w1 w2) as Ha. set (wg := w1 + w2) in *.
    transitivity ((wg * wg) * (wx * (wx * wx))); [by apply Nat.mul_le_mono_r|]. transitivity ((wg * wg) * (wp * (wx * wg))); [|lia].
    apply Nat.mul_le_mono_l. apply Nat.mul_le_mono; [done|]. by apply Nat.mul_le_mono_l. }
  destruct f as [px pv|pv px], g as [gx gv|gv gx]; unfold wt; cbn [two fill fst snd pot bsize].
  - eapply (Hgen _ (S (S (bsize u + S (bsize pv + bsize gv)))) (S (S (bsize pv + bsize gv))) _ (S (S (S (bsize l + bsize u) + bsize pv)))
      (pot l * pot u * pot pv * pot gv)); [apply Hzz; lia| |lia]. lia.
  - eapply (Hgen _ (S (S (bsize gv + bsize l))) (S (S (bsize u + bsize pv))) _ (S (S (S (bsize l + bsize u) + bsize pv)))
      (pot l * pot u * pot pv * pot gv)); [apply Hzg; lia| |lia].
    transitivity (S (S (bsize gv + S (S (bsize l + bsize u) + bsize pv))) * (S (S (bsize gv + bsize l)) * (pot gv * pot l) * (S (S (bsize u + bsize pv)) * (pot u * pot pv)))); [f_equal; lia|lia].
  - eapply (Hgen _ (S (S (bsize pv + bsize l))) (S (S (bsize u + bsize gv))) _ (S (S (bsize pv + S (bsize l + bsize u))))
      (pot l * pot u * pot pv * pot gv)); [apply Hzg; lia| |lia].
    transitivity (S (S (S (bsize pv + S (bsize l + bsize u)) + bsize gv)) * (S (S (bsize pv + bsize l)) * (pot pv * pot l) * (S (S (bsize u + bsize gv)) * (pot u * pot gv)))); [f_equal; lia|lia].
  - eapply (Hgen _ (S (S (S (bsize gv + bsize pv) + bsize l))) (S (S (bsize gv + bsize pv))) _ (S (S (bsize pv + S (bsize l + bsize u))))
      (pot l * pot u * pot pv * pot gv)); [apply Hzz; lia| |lia].
    transitivity (S (S (bsize gv + S (bsize pv + S (bsize l + bsize u)))) * (S (S (S (bsize gv + bsize pv) + bsize l)) * (S (S (bsize gv + bsize pv)) * (pot gv * pot pv) * pot l) * pot u)); [f_equal; lia|lia].
Qed.
(** Bringing the node below the frames [K] to the root. *)
Lemma splay_pot K : forall l jy u,
  2 ^ length K * pot (atroot K l jy u) * wt (Bin l jy u) ^ 3 <= 2 * pot (plug K (Bin l jy u)) * wt (plug K (Bin l jy u)) ^ 3.
Proof.
  induction K as [|f|f g K IH] using ctx_ind2; intros l jy u.
  - cbn [length plug atroot splayed fst snd Nat.pow]. unfold atroot. cbn [splayed fst snd]. nia.
  - cbn [length plug]. assert (forall w' wx wp c A B, w' <= wp -> wx <= wp -> A = wp * w' * c -> B = wp * wx * c -> 2 ^ 1 * A * wx ^ 3 <= 2 * B * wp ^ 3) as Hg.
    { intros w' wx wp c A B H1 H2 -> ->. cbn [Nat.pow]. rewrite !Nat.mul_1_r.
      assert (w' * (wx * (wx * wx)) <= wp * (wx * (wp * wp))) as H3 by (apply Nat.mul_le_mono; [done|]; apply Nat.mul_le_mono_l; by apply Nat.mul_le_mono).
      assert (2 * wp * c * (w' * (wx * (wx * wx))) <= 2 * wp * c * (wp * (wx * (wp * wp)))) by by apply Nat.mul_le_mono_l. lia. }
    destruct f as [px pv|pv px]; unfold wt, atroot; cbn [splayed fill fst snd pot bsize].
    + eapply (Hg (S (S (bsize u + bsize pv))) _ _ (pot l * pot u * pot pv)); [..|lia]; [lia|lia|].
      transitivity (S (S (S (bsize l + bsize u) + bsize pv)) * (pot l * (S (S (bsize u + bsize pv)) * (pot u * pot pv)))); [f_equal; lia|lia].
    + eapply (Hg (S (S (bsize pv + bsize l))) _ _ (pot l * pot u * pot pv)); [..|lia]; [lia|lia|].
      transitivity (S (S (bsize pv + S (bsize l + bsize u))) * (S (S (bsize pv + bsize l)) * (pot pv * pot l) * pot u)); [f_equal; lia|lia].
  - set (l' := (two f g l u).1). set (u' := (two f g l u).2).
    assert (atroot (f :: g :: K) l jy u = atroot K l' jy u') as -> by (unfold atroot; by rewrite splayed_two).
    specialize (IH l' jy u'). pose proof (two_pot f g l jy u) as H2. pose proof (two_size f g l jy u) as HS. fold l' u' in H2, HS.
    change (plug (f :: g :: K) (Bin l jy u)) with (plug K (fill g (fill f (Bin l jy u)))).
    set (X' := Bin l' jy u') in *. set (G := fill g (fill f (Bin l jy u))) in *.
    rewrite pot_plug in IH. rewrite (pot_plug K G) -HS.
    assert (wt (plug K G) = wt (plug K X')) as -> by (unfold wt; f_equal; by apply bsize_plug).
    unfold wt in H2 at 2. rewrite -HS in H2. fold (wt X') in H2.
    set (A := pot (atroot K l' jy u')) in *. set (c := cfac K (bsize X')) in *. set (W := wt (plug K X')) in *.
    set (x := wt (Bin l jy u)) in *. set (y := wt X') in *. assert (0 < y ^ 3) as Hy by (apply Nat.neq_0_lt_0, Nat.pow_nonzero; done).
    apply (Nat.mul_le_mono_pos_r _ _ (y ^ 3) Hy). cbn [length Nat.pow].
    transitivity (4 * x ^ 3 * (2 ^ length K * A * y ^ 3)); [cbn [Nat.pow]; lia|].
    transitivity (4 * x ^ 3 * (2 * (c * pot X') * W ^ 3)); [by apply Nat.mul_le_mono_l|].
    transitivity (2 * c * W ^ 3 * (4 * pot X' * x ^ 3)); [lia|].
    transitivity (2 * c * W ^ 3 * (pot G * y ^ 3)); [by apply Nat.mul_le_mono_l|]. cbn [Nat.pow]. lia.
Qed.
(** A new leaf. *)
Lemma leaf_pot K : forall (t t' : ptree), bsize t' = S (bsize t) -> pot t' <= pot t * wt t' ->
  pot (plug K t') <= pot (plug K t) * wt (plug K t').
Proof.
  induction K as [|f K IH]; intros t t' HS HP; cbn [plug]; [done|]. apply IH.
  - rewrite !bsize_fill. lia.
  - unfold wt in *. rewrite !pot_fill bsize_fill. rewrite HS in HP |- *.
    set (n := bsize t) in *. set (m := bsize (side f)). set (p := pot (side f)).
    transitivity (S (S (S n + m)) * ((pot t * S (S n)) * p)); [apply Nat.mul_le_mono_l; by apply Nat.mul_le_mono_r|].
    assert (S (S n) <= S (S (n + m))) by lia.
    transitivity (S (S (S n + m)) * ((pot t * S (S (n + m))) * p)); [|lia]. apply Nat.mul_le_mono_l, Nat.mul_le_mono_r. by apply Nat.mul_le_mono_l.
Qed.
(** Smaller parts. *)
Lemma pot_mono K : forall (t t' : ptree), bsize t' <= bsize t -> pot t' <= pot t ->
  pot (plug K t') <= pot (plug K t) /\ bsize (plug K t') <= bsize (plug K t).
Proof.
  induction K as [|f K IH]; intros t t' HS HP; cbn [plug]; [done|]. apply IH; rewrite ?bsize_fill ?pot_fill; [lia|].
  apply Nat.mul_le_mono; [lia|]. by apply Nat.mul_le_mono_r.
Qed.
