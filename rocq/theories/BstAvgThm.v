(** * Counting over all orders of insertion *)
From Coq Require Import Sorted Factorial.
From iris.proofmode Require Import proofmode.
From Verif Require Import Base BstAvgSpec TreapAvgSpec TreapAvgThm.

Section orders.
Context {A : Type}.
Implicit Types (l : list A) (f : list A -> nat).
Lemma picks_elem l : forall x r, (x, r) ∈ picks l <-> exists l1 l2, l = l1 ++ x :: l2 /\ r = l1 ++ l2.
Proof.
  induction l as [|y l IH]; intros x r; cbn [picks].
  - rewrite elem_of_nil. split; [done|]. by intros ([|] & ? & ? & _).
  - rewrite elem_of_cons elem_of_list_fmap. split.
    + intros [[= -> ->]|((x' & r') & [= -> ->] & H)]; [by exists [], l|]. apply IH in H as (l1 & l2 & -> & ->). by exists (y :: l1), l2.
    + intros ([|z l1] & l2 & E & ->); [left|right].
      * cbn in E. by injection E as -> ->.
      * cbn in E. injection E as -> ->. exists (x, l1 ++ l2). split; [done|]. apply IH. by exists l1, l2.
Qed.
Lemma picks_perm l x r : (x, r) ∈ picks l -> x :: r ≡ₚ l.
Proof. intros (l1 & l2 & -> & ->)%picks_elem. by rewrite Permutation_middle. Qed.
Lemma picks_fst l : map fst (picks l) = l.
Proof. induction l as [|x l IH]; cbn [picks]; [done|]. rewrite map_cons map_map. cbn. f_equal. exact IH. Qed.
Lemma picks_length l : length (picks l) = length l.
Proof. by rewrite -{2}(picks_fst l) map_length. Qed.
Lemma picks_nodup l : NoDup l -> NoDup (picks l).
Proof. intros H. apply (NoDup_fmap_1 fst). change (fst <$> picks l) with (map fst (picks l)). by rewrite picks_fst. Qed.
Lemma orders_elem n : forall l, length l = n -> forall p, p ∈ orders_n n l <-> p ≡ₚ l.
Proof.
  induction n as [|n IH]; intros l Hl p; cbn [orders_n].
  - destruct l; [|done]. rewrite elem_of_list_singleton. split; [by intros ->|]. intros H. by apply Permutation_nil_r in H.
  - rewrite elem_of_list_In in_flat_map. setoid_rewrite <- elem_of_list_In. split.
    + intros ((x & r) & Hx & H). apply elem_of_list_fmap in H as (q & -> & H). pose proof (picks_perm _ _ _ Hx) as HP.
      apply IH in H; [|apply Permutation_length in HP; cbn in HP |- *; lia]. cbn [fst snd] in *. by rewrite H.
    + intros H. destruct p as [|x p]; [apply Permutation_length in H; cbn in H; lia|].
      destruct (elem_of_list_split l x) as (l1 & l2 & ->); [rewrite -H; by left|]. exists (x, l1 ++ l2). split; [apply picks_elem; by exists l1, l2|].
      apply elem_of_list_fmap. exists p. split; [done|]. cbn [snd]. apply IH.
      * rewrite app_length in Hl. cbn in Hl. rewrite app_length. lia.
      * apply (Permutation_cons_inv (a := x)). by rewrite H Permutation_middle.
Qed.
Lemma orders_length n : forall l, length l = n -> length (orders_n n l) = fact n.
Proof.
  induction n as [|n IH]; intros l Hl; cbn [orders_n]; [done|].
  assert (forall ps : list (A * list A), (forall x, x ∈ ps -> length x.2 = n) -> length (flat_map (fun p => map (cons p.1) (orders_n n p.2)) ps) = length ps * fact n) as H.
  { induction ps as [|[x r] ps IHp]; intros H; [done|]. cbn [flat_map length]. rewrite app_length map_length IH; [|by apply (H (x, r)), elem_of_list_here].
    rewrite IHp; [lia|]. intros y Hy. apply H. by right. }
  rewrite H; [|intros [x r] Hx; apply picks_perm, Permutation_length in Hx; cbn in *; lia]. rewrite picks_length Hl. cbn [fact]. lia.
Qed.
Lemma orders_nodup n : forall l, length l = n -> NoDup l -> NoDup (orders_n n l).
Proof.
  induction n as [|n IH]; intros l Hl Hnd; cbn [orders_n]; [apply NoDup_singleton|].
  assert (NoDup (map fst (picks l))) as Hf by (by rewrite picks_fst).
  assert (forall x, x ∈ picks l -> NoDup (orders_n n x.2)) as Hp.
  { intros [x r] Hx. apply picks_perm in Hx. apply IH; [apply Permutation_length in Hx; cbn in *; lia|]. rewrite -Hx in Hnd. by apply NoDup_cons in Hnd as [_ Hnd]. }
  clear Hl Hnd. revert Hf Hp. generalize (picks l). intros ps. induction ps as [|[x r] ps IHp]; intros Hf Hp; cbn [flat_map]; [constructor|].
  rewrite map_cons in Hf. apply NoDup_cons in Hf as [Hx Hf]. apply NoDup_app. split_and!.
  - apply NoDup_fmap_2; [by intros ? ? [= ->]|]. apply Hp. by left.
  - intros y H1 H2. apply elem_of_list_fmap in H1 as (q & -> & _). apply elem_of_list_In, in_flat_map in H2 as (z & Hz & H2).
    apply elem_of_list_In, elem_of_list_fmap in H2 as (? & [= E _] & _). apply Hx. cbn in *. rewrite E. apply elem_of_list_In, in_map, Hz.
  - apply IHp; [done|]. intros y Hy. apply Hp. by right.
Qed.
Lemma sum_flat {B} (f : B -> nat) (g : A -> list B) l : sum (map f (flat_map g l)) = sum (map (fun p => sum (map f (g p))) l).
Proof. induction l as [|p l IH]; cbn; [done|]. rewrite map_app sum_app IH. done. Qed.
End orders.

(** ** How often one element comes before the others of a set *)
Definition one (b : bool) : nat := if b then 1 else 0.
Lemma filter_count {A} (P : A -> bool) l : length (List.filter P l) = sum (map (fun x => one (P x)) l).
Proof. induction l as [|x l IH]; cbn [List.filter List.map]; [done|]. rewrite sum_cons. destruct (P x); cbn; lia. Qed.
Lemma filter_perm {A} (P : A -> bool) l l' : l ≡ₚ l' -> length (List.filter P l) = length (List.filter P l').
Proof. rewrite !filter_count. intros H. induction H; rewrite ?map_cons ?sum_cons; lia. Qed.
Lemma sum_perm {A} (f : A -> nat) l l' : l ≡ₚ l' -> sum (map f l) = sum (map f l').
Proof. intros H. induction H; rewrite ?map_cons ?sum_cons; lia. Qed.
Definition is_first (P : num -> bool) (v : num) (p : list num) : bool :=
  match List.find P p with Some w => bool_decide (w = v) | None => false end.
Lemma sum_one_elem (v : num) l : NoDup l -> v ∈ l -> sum (map (fun x => one (bool_decide (x = v))) l) = 1.
Proof.
  induction l as [|y l IH]; intros Hnd Hv; [by apply elem_of_nil in Hv|]. apply NoDup_cons in Hnd as [Hy Hnd]. rewrite map_cons sum_cons.
  apply elem_of_cons in Hv as [<-|Hv].
  - rewrite bool_decide_eq_true_2 //. cbn [one]. f_equal. rewrite (sum_map_ext _ (fun _ => 0)); [rewrite sum_map_const; lia|].
    intros z Hz. rewrite bool_decide_eq_false_2 //. by intros ->.
  - rewrite bool_decide_eq_false_2; [|by intros ->]. cbn [one]. rewrite IH //.
Qed.
Lemma first_count P v n : forall l, length l = n -> NoDup l -> v ∈ l -> P v = true ->
  length (List.filter P l) * sum (map (fun p => one (is_first P v p)) (orders_n n l)) = fact n.
Proof.
  induction n as [|n IH]; intros l Hl Hnd Hv HP; [destruct l; [by apply elem_of_nil in Hv|done]|].
  cbn [orders_n]. rewrite sum_flat. set (m := length (List.filter P l)). rewrite -sum_map_mul.
  rewrite (sum_map_ext _ (fun xr : num * list num => (m * fact n) * one (bool_decide (xr.1 = v)) + fact n * one (negb (P xr.1)))).
  - rewrite sum_map_add !sum_map_mul.
    assert (sum (map (fun xr : num * list num => one (bool_decide (xr.1 = v))) (picks l)) = 1) as ->.
    { rewrite -(sum_one_elem v l) // -{2}(picks_fst l) map_map. done. }
    assert (sum (map (fun xr : num * list num => one (negb (P xr.1))) (picks l)) + m = S n) as E; [|cbn [fact]; nia].
    unfold m. rewrite filter_count -{2}(picks_fst l) map_map -sum_map_add. rewrite (sum_map_ext _ (fun _ => 1)).
    + rewrite sum_map_const picks_length. lia.
    + intros [x r] _. cbn. by destruct (P x).
  - intros [x r] Hx. cbn [fst snd]. rewrite map_map. pose proof (picks_perm _ _ _ Hx) as HX.
    assert (length r = n) as Hr by (apply Permutation_length in HX; cbn in HX; lia).
    destruct (P x) eqn:EP; cbn [negb one].
    + rewrite (sum_map_ext _ (fun _ => one (bool_decide (x = v)))).
      * rewrite sum_map_const orders_length //. nia.
      * intros p _. unfold is_first. cbn [List.find]. by rewrite EP.
    + rewrite bool_decide_eq_false_2; [|intros ->; congruence]. cbn [one]. rewrite Nat.mul_0_r Nat.mul_1_r Nat.add_0_l.
      rewrite (sum_map_ext _ (fun p => one (is_first P v p))); [|intros p _; unfold is_first; cbn [List.find]; by rewrite EP].
      assert (m = length (List.filter P r)) as ->.
      { unfold m. rewrite -(filter_perm P _ _ HX). cbn [List.filter]. by rewrite EP. }
      rewrite -HX in Hnd. apply NoDup_cons in Hnd as [_ Hnd]. apply IH; try done. rewrite -HX in Hv. apply elem_of_cons in Hv as [->|Hv]; [congruence|done].
Qed.
Lemma harmonic_list {A} (F : A -> nat) K L : (forall i v, L !! i = Some v -> S i * F v <= K) ->
  sum (map F L) <= K * (Nat.log2 (length L) + 1).
Proof.
  intros H. destruct L as [|d L']; [cbn; lia|]. set (L := d :: L') in *.
  assert (map F L = map (fun i => F (nth i L d)) (seq 0 (length L))) as ->.
  { clear H. generalize L. clear. intros L. induction L as [|x L IH]; [done|].
    cbn [length seq]. rewrite !map_cons. cbn [nth]. f_equal. rewrite -seq_shift map_map IH. done. }
  apply harmonic. intros i Hi. destruct (lookup_lt_is_Some_2 L i Hi) as [v Hv]. rewrite (nth_lookup_Some _ _ _ _ Hv). by apply H.
Qed.
