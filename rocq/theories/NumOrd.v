(** * The order of numbers (including the infinities). *)
From Verif Require Import Base.

Definition num_le (a b : num) : Prop :=
  match a, b with
  | NegInf, _ | _, PosInf => True
  | Fin x, Fin y => (x <= y)%Z
  | _, _ => False
  end.

(** ** The order of numbers *)
Lemma num_ltb_le a b : num_ltb a b = false <-> num_le b a.
Proof. destruct a, b; cbn; try done. rewrite Z.ltb_ge. done. Qed.
Lemma num_ltb_lt a b : num_ltb a b = true -> num_le a b.
Proof. destruct a, b; cbn; try done. rewrite Z.ltb_lt. lia. Qed.
Lemma num_le_refl a : num_le a a.
Proof. destruct a; cbn; done. Qed.
Lemma num_le_trans a b c : num_le a b -> num_le b c -> num_le a c.
Proof. destruct a, b, c; cbn; try done. lia. Qed.
Lemma num_le_antisym a b : num_le a b -> num_le b a -> a = b.
Proof. destruct a, b; cbn; try done. intros. f_equal. lia. Qed.
Lemma num_min_l a b : num_le (num_min a b) a.
Proof. unfold num_min. destruct (num_ltb b a) eqn:E; [by apply num_ltb_lt|apply num_le_refl]. Qed.
Lemma num_min_r a b : num_le (num_min a b) b.
Proof. unfold num_min. destruct (num_ltb b a) eqn:E; [apply num_le_refl|by apply num_ltb_le]. Qed.
Lemma num_max_l a b : num_le a (num_max a b).
Proof. unfold num_max. destruct (num_ltb a b) eqn:E; [by apply num_ltb_lt|apply num_le_refl]. Qed.
Lemma num_max_r a b : num_le b (num_max a b).
Proof. unfold num_max. destruct (num_ltb a b) eqn:E; [apply num_le_refl|by apply num_ltb_le]. Qed.

(** Both directions at once: [ord b x y]: [x] is at least as good as
    [y]; [pick b] the better of two; [worst b] the start value. *)
Definition ord (b : bool) (x y : num) : Prop := if b then num_le x y else num_le y x.
Definition pick (b : bool) : num -> num -> num := if b then num_min else num_max.
Definition worst (b : bool) : num := if b then PosInf else NegInf.
Lemma ord_refl b x : ord b x x.
Proof. destruct b; apply num_le_refl. Qed.
Lemma ord_trans b x y z : ord b x y -> ord b y z -> ord b x z.
Proof. destruct b; cbn; eauto using num_le_trans. Qed.
Lemma ord_antisym b x y : ord b x y -> ord b y x -> x = y.
Proof. destruct b; cbn; eauto using num_le_antisym. Qed.
Lemma pick_l b x y : ord b (pick b x y) x.
Proof. destruct b; [apply num_min_l|apply num_max_l]. Qed.
Lemma pick_r b x y : ord b (pick b x y) y.
Proof. destruct b; [apply num_min_r|apply num_max_r]. Qed.
Lemma pick_or b x y : pick b x y = x \/ pick b x y = y.
Proof. destruct b; cbn; unfold num_min, num_max; case_match; auto. Qed.
Lemma ord_worst b x : ord b x (worst b).
Proof. destruct b, x; done. Qed.
Lemma pick_comm b x y : pick b x y = pick b y x.
Proof.
  eapply (ord_antisym b).
  - destruct (pick_or b y x) as [-> | ->]; [apply pick_r|apply pick_l].
  - destruct (pick_or b x y) as [-> | ->]; [apply pick_r|apply pick_l].
Qed.
