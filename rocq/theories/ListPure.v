(** * Facts about the specification functions on plain lists. *)
From Verif Require Import Base ListModel ListSpec.

Lemma rot1_left_step l n : n < length l ->
  rot1_left (drop n l ++ take n l) = drop (S n) l ++ take (S n) l.
Proof.
  intros Hn. destruct (lookup_lt_is_Some_2 l n Hn) as [x Hx].
  rewrite (drop_S _ _ _ Hx), (take_S_r _ _ _ Hx). cbn. by rewrite <- app_assoc.
Qed.
Lemma iter_left_le l n : n <= length l ->
  Nat.iter n rot1_left l = drop n l ++ take n l.
Proof.
  induction n as [|n IH]; intros Hn; [by rewrite app_nil_r|].
  cbn [Nat.iter nat_rect]. change (nat_rect _ _ _ n) with (Nat.iter n rot1_left l).
  rewrite IH by lia. apply rot1_left_step. lia.
Qed.
Lemma iter_left_length l : Nat.iter (length l) rot1_left l = l.
Proof. rewrite iter_left_le by lia. by rewrite drop_all, firstn_all. Qed.
Lemma rot1_left_length l : length (rot1_left l) = length l.
Proof. destruct l; [done|]. cbn. rewrite app_length. cbn. lia. Qed.
Lemma iter_add {A} (f : A -> A) a b x : Nat.iter (a + b) f x = Nat.iter a f (Nat.iter b f x).
Proof. induction a as [|a IH]; [done|]. cbn. by f_equal. Qed.
Lemma iter_left_mult l k : Nat.iter (k * length l) rot1_left l = l.
Proof.
  induction k as [|k IH]; [done|]. cbn [Nat.mul]. by rewrite iter_add, IH, iter_left_length.
Qed.
Lemma iter_fix {A} (f : A -> A) n x : f x = x -> Nat.iter n f x = x.
Proof. intros H. induction n as [|n IH]; [done|]. cbn. unfold Nat.iter in IH. by rewrite IH. Qed.
Lemma iter_left_mod l n : Nat.iter n rot1_left l =
  drop (n mod length l) l ++ take (n mod length l) l.
Proof.
  destruct (decide (l = [])) as [->|Hne].
  { rewrite drop_nil, take_nil. by apply iter_fix. }
  assert (length l <> 0) as Hl by (by destruct l).
  transitivity (Nat.iter (n mod length l + n / length l * length l) rot1_left l).
  { f_equal. pose proof (Nat.div_mod n (length l) Hl). lia. }
  rewrite iter_add, iter_left_mult. apply iter_left_le.
  pose proof (Nat.mod_upper_bound n (length l) Hl). lia.
Qed.
Lemma rot1_right_snoc l x : rot1_right (l ++ [x]) = x :: l.
Proof. unfold rot1_right. rewrite reverse_snoc. unfold rot1_left. by rewrite reverse_snoc, reverse_involutive. Qed.
Lemma rot1_right_left l : rot1_right (rot1_left l) = l.
Proof. destruct l as [|x l]; [done|]. cbn. by rewrite rot1_right_snoc. Qed.
Lemma rot1_left_right l : rot1_left (rot1_right l) = l.
Proof. destruct l as [|x l _] using rev_ind; [done|]. by rewrite rot1_right_snoc. Qed.
Lemma iter_S_r {A} (f : A -> A) n x : Nat.iter (S n) f x = Nat.iter n f (f x).
Proof. induction n as [|n IH]; [done|]. cbn in *. by f_equal. Qed.
Lemma iter_right_left n l : Nat.iter n rot1_right (Nat.iter n rot1_left l) = l.
Proof.
  induction n as [|n IH]; [done|]. rewrite (iter_S_r rot1_right). cbn [Nat.iter nat_rect].
  rewrite rot1_right_left. exact IH.
Qed.
Lemma iter_left_right n l : Nat.iter n rot1_left (Nat.iter n rot1_right l) = l.
Proof.
  induction n as [|n IH]; [done|]. rewrite (iter_S_r rot1_left). cbn [Nat.iter nat_rect].
  rewrite rot1_left_right. exact IH.
Qed.
Lemma iter_right_mod l n : Nat.iter n rot1_right l =
  drop (length l - n mod length l) l ++ take (length l - n mod length l) l.
Proof.
  destruct (decide (l = [])) as [->|Hne].
  { rewrite drop_nil, take_nil. by apply iter_fix. }
  assert (length l <> 0) as Hl by (by destruct l).
  pose proof (Nat.mod_upper_bound n (length l) Hl) as Hlt.
  pose proof (Nat.div_mod n (length l) Hl) as Hdm.
  set (m := length l - n mod length l) in *.
  rewrite <- (iter_left_le l m) by lia.
  assert (Nat.iter (n + m) rot1_left l = l) as Hfull.
  { replace (n + m) with (S (n / length l) * length l) by (subst m; nia). apply iter_left_mult. }
  rewrite <- Hfull at 1. rewrite iter_add. apply iter_right_left.
Qed.

Lemma rotated_calibrate vs d b : (0 <= d)%Z ->
  let i := Z.to_nat (calibrate (length vs) d b) in
  rotated vs d b = drop i vs ++ take i vs /\ (0 <= calibrate (length vs) d b <= Z.of_nat (length vs))%Z.
Proof.
  intros Hd i. unfold i, calibrate, rotated.
  destruct (Nat.ltb 0 (length vs)) eqn:Hl.
  - apply Nat.ltb_lt in Hl.
    pose proof (Z.mod_pos_bound d (Z.of_nat (length vs)) ltac:(lia)) as Hb.
    assert (Z.to_nat (d mod Z.of_nat (length vs)) = (Z.to_nat d mod length vs)) as Hm.
    { rewrite Z2Nat.inj_mod by lia. by rewrite Nat2Z.id. }
    destruct b.
    + split; [|lia]. rewrite iter_right_mod. rewrite Z2Nat.inj_sub by lia.
      by rewrite Hm, Nat2Z.id.
    + split; [|lia]. by rewrite iter_left_mod, Hm.
  - apply Nat.ltb_ge in Hl. destruct vs; [|cbn in Hl; lia]. cbn.
    destruct b; (split; [|lia]); rewrite drop_nil, take_nil.
    + by rewrite iter_right_mod, drop_nil, take_nil.
    + by rewrite iter_left_mod, drop_nil, take_nil.
Qed.
(** In a circular list the split index is taken modulo the length once more. *)
Lemma split_mod_same (vs : list pyval) (i : Z) : (0 <= i <= Z.of_nat (length vs))%Z ->
  let j := Z.to_nat (if Nat.eqb (length vs) 0 then 0%Z else (i mod Z.of_nat (length vs))%Z) in
  drop j vs ++ take j vs = drop (Z.to_nat i) vs ++ take (Z.to_nat i) vs.
Proof.
  intros Hi. cbn. destruct (Nat.eqb (length vs) 0) eqn:Hl.
  { apply Nat.eqb_eq in Hl. destruct vs; [|done]. by rewrite !drop_nil, !take_nil. }
  apply Nat.eqb_neq in Hl. destruct (decide (i = Z.of_nat (length vs))) as [->|Hne].
  - rewrite Z_mod_same_full. rewrite Nat2Z.id, drop_all, firstn_all. cbn. by rewrite app_nil_r.
  - by rewrite Z.mod_small by lia.
Qed.

(** ** Slices *)
Lemma range_list_elem a b st z : (0 < st)%Z ->
  z ∈ range_list a b st <-> (a <= z < b /\ (z - a) mod st = 0)%Z.
Proof.
  intros Hst. unfold range_list, range_len. rewrite (proj2 (Z.ltb_lt 0 st)) by done.
  rewrite elem_of_list_fmap. destruct (Z.ltb_spec a b) as [Hab|Hab].
  - split.
    + intros (i & -> & Hi). apply elem_of_seq in Hi as [_ Hi]. cbn in Hi.
      assert (Z.of_nat i <= (b - a - 1) / st)%Z as Hi'.
      { pose proof (Z.div_pos (b - a - 1) st ltac:(lia) ltac:(lia)). lia. }
      assert (Z.of_nat i * st <= b - a - 1)%Z.
      { pose proof (Z.mul_div_le (b - a - 1) st ltac:(lia)). nia. }
      split; [nia|]. replace (a + Z.of_nat i * st - a)%Z with (Z.of_nat i * st)%Z by lia.
      apply Z_mod_mult.
    + intros [[Ha Hb] Hm]. exists (Z.to_nat ((z - a) / st)).
      assert (0 <= (z - a) / st)%Z by (apply Z.div_pos; lia).
      assert (z - a = st * ((z - a) / st))%Z by (pose proof (Z.div_mod (z - a) st); lia).
      split; [rewrite Z2Nat.id by done; lia|].
      apply elem_of_seq. split; [lia|]. cbn.
      assert ((z - a) / st <= (b - a - 1) / st)%Z by (apply Z.div_le_mono; lia). lia.
  - split; [intros (i & _ & Hi); apply elem_of_nil in Hi; done|]. lia.
Qed.

(** The elements the slice loop picks: the first [n] of [vs], numbered from [c]. *)
Fixpoint pick (ind : list Z) (n : nat) (c : Z) (vs : list pyval) : list pyval :=
  match n, vs with
  | S n', v :: r => if existsb (Z.eqb c) ind then v :: pick ind n' (c + 1)%Z r
                    else pick ind n' (c + 1)%Z r
  | _, _ => []
  end.
Lemma existsb_elem c ind : existsb (Z.eqb c) ind = bool_decide (c ∈ ind).
Proof.
  induction ind as [|a l IH]; [done|]. cbn. rewrite IH. destruct (Z.eqb_spec c a) as [->|Hne]; cbn.
  - symmetry. apply bool_decide_eq_true. set_solver.
  - apply bool_decide_ext. set_solver.
Qed.
Lemma pick_filter ind vs : forall n c (P : Z -> Prop) `{forall z, Decision (P z)},
  (forall z, z ∈ ind <-> P z) ->
  (forall i v, vs !! i = Some v -> n <= i -> ~ P (c + Z.of_nat i)%Z) ->
  pick ind n c vs = map snd (filter (fun p => P (c + Z.of_nat p.1)%Z) (imap pair vs)).
Proof.
  induction vs as [|v vs IH]; intros n c P HP Hiff Hout; [by destruct n|].
  cbn [imap]. rewrite filter_cons. cbn [fst Z.of_nat].
  assert (forall n', (forall i w, vs !! i = Some w -> n' <= i -> ~ P (c + Z.of_nat (S i))%Z) ->
    pick ind n' (c + 1) vs = map snd (filter (fun p => P (c + Z.of_nat p.1)%Z) (imap (pair ∘ S) vs))) as Hrest.
  { intros n' Hout'. rewrite (IH n' (c + 1)%Z P HP Hiff).
    2:{ intros i w Hi Hle HPz. apply (Hout' i w Hi Hle). by replace (c + Z.of_nat (S i))%Z with (c + 1 + Z.of_nat i)%Z by lia. }
    clear. change (map snd ?x) with (snd <$> x).
    generalize 0. 
    assert (imap (pair ∘ S) vs = (fun p => (S p.1, p.2)) <$> imap pair vs) as ->.
    { rewrite fmap_imap. by apply imap_ext. }
    intros _. generalize (imap pair vs) as l. induction l as [|[i x] l IHl]; [done|].
    rewrite fmap_cons, !filter_cons. cbn [fst snd].
    replace (c + 1 + Z.of_nat i)%Z with (c + Z.of_nat (S i))%Z by lia.
    destruct (decide (P (c + Z.of_nat (S i))%Z)); [rewrite !fmap_cons; by f_equal|done]. }
  assert (c + 0 = c)%Z as Hc0 by lia.
  destruct n as [|n].
  - rewrite decide_False.
    2:{ exact (Hout 0 v eq_refl ltac:(lia)). }
    cbn [pick]. rewrite <- (Hrest 0); [by destruct vs|].
    intros i w Hi Hle. apply (Hout (S i) w Hi). lia.
  - cbn [pick]. rewrite existsb_elem.
    assert (pick ind n (c + 1) vs = map snd (filter (fun p => P (c + Z.of_nat p.1)%Z) (imap (pair ∘ S) vs))) as Hr.
    { apply Hrest. intros i w Hi Hle. apply (Hout (S i) w Hi). lia. }
    case_decide as HPc; replace (c + Z.of_nat 0)%Z with c in HPc by lia.
    + rewrite bool_decide_eq_true_2 by (by apply Hiff). cbn [map snd]. by f_equal.
    + rewrite bool_decide_eq_false_2; [done|]. by rewrite Hiff.
Qed.

Lemma range_list_sorted_last a b st z : (0 < st)%Z -> z ∈ range_list a b st ->
  (z <= List.last (range_list a b st) (-1))%Z.
Proof.
  unfold range_list. intros Hst Hz. apply elem_of_list_fmap in Hz as (i & -> & Hi).
  apply elem_of_seq in Hi as [_ Hi].
  assert (forall n d, 0 < n -> List.last (map (fun i => a + Z.of_nat i * st)%Z (seq 0 n)) d = (a + Z.of_nat (n - 1) * st)%Z) as Hlast.
  { intros n d Hn. destruct n; [lia|]. rewrite seq_S, map_app. cbn. rewrite last_last.
    do 3 f_equal. lia. }
  rewrite Hlast by lia. nia.
Qed.
Lemma range_list_last_lt a b st n : (0 < st)%Z -> (0 <= a)%Z -> (b <= n)%Z -> (0 <= n)%Z ->
  (-1 <= List.last (range_list a b st) (-1) < Z.max n 0)%Z \/ n = 0%Z /\ range_list a b st = [].
Proof.
  intros Hst Ha Hb Hn. destruct (range_list a b st) as [|x l] eqn:E.
  { destruct (decide (n = 0%Z)); [by right|]. left. cbn. lia. }
  left. assert (List.last (x :: l) (-1)%Z ∈ range_list a b st) as Hin.
  { rewrite E. destruct (exists_last (l := x :: l) ltac:(done)) as (l' & y & ->).
    rewrite last_last. set_solver. }
  apply range_list_elem in Hin; [|done]. lia.
Qed.

Lemma clamp_start_pos n st x : (0 < st)%Z -> (0 <= n)%Z ->
  clamp_start n st x = clamp_ix n (default 0%Z x).
Proof.
  intros Hst Hn. unfold clamp_start, clamp_ix.
  rewrite (proj2 (Z.ltb_ge st 0)) by lia. destruct x as [s|]; cbn.
  - destruct (Z.ltb_spec s 0); [rewrite bool_decide_eq_true_2 by done|rewrite bool_decide_eq_false_2 by lia].
    + destruct (Z.ltb_spec (s + n) 0); lia.
    + destruct (Z.leb_spec n s); lia.
  - rewrite bool_decide_eq_false_2 by lia. lia.
Qed.
Lemma clamp_stop_pos n st x : (0 < st)%Z -> (0 <= n)%Z ->
  clamp_stop n st x = clamp_ix n (default n x).
Proof.
  intros Hst Hn. unfold clamp_stop, clamp_ix.
  rewrite (proj2 (Z.ltb_ge st 0)) by lia. destruct x as [s|]; cbn.
  - destruct (Z.ltb_spec s 0); [rewrite bool_decide_eq_true_2 by done|rewrite bool_decide_eq_false_2 by lia].
    + destruct (Z.ltb_spec (s + n) 0); lia.
    + destruct (Z.leb_spec n s); lia.
  - rewrite bool_decide_eq_false_2 by lia. lia.
Qed.

Lemma slice_pick vs start stop st : (0 < st)%Z ->
  let ind := slice_indices (length vs) start stop st in
  let n := Z.to_nat (List.last ind (-1)%Z + 1) in
  pick ind n 0 vs = slice_pos vs start stop st /\ n <= length vs.
Proof.
  intros Hst ind n. unfold slice_pos. cbn zeta.
  set (N := Z.of_nat (length vs)) in *. assert (0 <= N)%Z as HN by lia.
  set (a := clamp_ix N (default 0%Z start)). set (b := clamp_ix N (default N stop)).
  assert (ind = range_list a b st) as Hind.
  { unfold ind, slice_indices. fold N. by rewrite clamp_start_pos, clamp_stop_pos. }
  assert (0 <= a)%Z as Ha.
  { unfold a, clamp_ix. case_bool_decide; lia. }
  assert (b <= N)%Z as Hb.
  { unfold b, clamp_ix. case_bool_decide; lia. }
  assert (n <= length vs) as Hn.
  { unfold n. rewrite Hind. destruct (range_list_last_lt a b st N Hst Ha Hb HN) as [?|[? ->]]; cbn; lia. }
  split; [|done].
  rewrite (pick_filter ind vs n 0 (fun z => a <= z < b /\ (z - a) mod st = 0)%Z).
  - done.
  - intros z. rewrite Hind. by apply range_list_elem.
  - intros i v Hi Hle HP. assert (Z.of_nat i ∈ ind) as Hin.
    { rewrite Hind. apply range_list_elem; [done|]. exact HP. }
    rewrite Hind in Hin. apply range_list_sorted_last in Hin; [|done]. rewrite <- Hind in Hin.
    unfold n in Hle. lia.
Qed.
