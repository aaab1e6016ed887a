(** * Proofs about the comparisons of heaps *)
From Coq Require Import Sorted.
From iris.proofmode Require Import proofmode.
From Verif Require Import Base NumOrd HeapModel HeapSpec HeapThm HeapCostModel HeapCostSpec.
Local Open Scope py_scope.

(** ** The counting functions are the functions of the model *)
(** [same f m c]: [c] does what [m] does; [f] forgets the count. *)
Definition same {A B} (f : B -> A) (c : M heap B) (m : M heap A) : Prop :=
  forall s, (let! r := c in ret (f r)) s = m s.
Lemma same_ret {A B} (f : B -> A) b : same f (ret b) (ret (f b)).
Proof. done. Qed.
Lemma same_raise {A B} (f : B -> A) e : same f (raise e) (raise e).
Proof. done. Qed.
Lemma same_bind {A B C} (f : B -> A) (m : M heap C) c k : (forall x, same f (c x) (k x)) -> same f (bind m c) (bind m k).
Proof. intros H s. unfold bind in *. destruct (m s) as [x s'|e s'|]; [|done|done]. apply (H x s'). Qed.
Lemma same_bind2 {A B C D} (g : D -> C) (f : B -> A) c m c' k : same g c m -> (forall x, same f (c' x) (k (g x))) -> same f (bind c c') (bind m k).
Proof.
  intros H1 H2 s. specialize (H1 s). unfold bind in *. rewrite -H1. destruct (c s) as [x s'|e s'|]; [|done|done]. apply (H2 x s').
Qed.
Lemma same_if {A B} (f : B -> A) (t : bool) c1 c2 m1 m2 : same f c1 m1 -> same f c2 m2 -> same f (if t then c1 else c2) (if t then m1 else m2).
Proof. by destruct t. Qed.
Definition drop_all (k : nat) : unit := tt.

Lemma same_sift_up fuel b : forall idx k, same drop_all (sift_up_c fuel b idx k) (sift_up fuel b idx).
Proof.
  induction fuel as [|f IH]; intros idx k; [done|]. cbn [sift_up_c sift_up]. apply same_if; [apply same_ret|].
  apply same_bind; intros x. apply same_bind; intros y. apply same_if; [apply same_bind; intros []; apply IH|apply same_ret].
Qed.
Lemma same_insert b v : same drop_all (heap_insert_c b v) (heap_insert b v).
Proof.
  unfold heap_insert_c, heap_insert. destruct (heap_item v); [apply same_raise|]. apply same_bind; intros h. apply same_bind; intros []. apply same_sift_up.
Qed.
Lemma same_sift_down fuel b : forall p l k, same drop_all (sift_down_c fuel b p l k) (sift_down fuel b p l).
Proof.
  induction fuel as [|f IH]; intros p l k; [done|]. cbn [sift_down_c sift_down]. apply same_if; [|apply same_ret].
  apply same_bind; intros x. eapply (same_bind2 (option_map fst)).
  - apply same_if; [by apply same_if|]. apply same_bind; intros y. apply same_bind; intros z. by apply same_if.
  - intros [[c k']|]; [|apply same_ret]. cbn [option_map fst]. apply same_bind; intros y. apply same_if; [apply same_bind; intros []; apply IH|apply same_ret].
Qed.
Lemma same_rebalance b p k : same drop_all (rebalance_c b p k) (rebalance b p).
Proof. apply same_bind; intros h. apply same_sift_down. Qed.
Lemma index_of_same x h : forall k, (index_of_c x h k).1 = index_of x h.
Proof. induction h as [|y h IH]; intros k; [done|]. cbn. destruct (bool_decide (y = x)); [done|]. by rewrite -(IH (S k)). Qed.
Lemma same_remove b v k : same fst (heap_remove_c b v k) (heap_remove b v).
Proof.
  apply same_bind; intros h. apply same_if; [apply same_ret|]. destruct v as [|x| | | |]; try apply same_ret.
  pose proof (index_of_same x h k) as E. destruct (index_of_c x h k) as [[i|] k1]; cbn in E; rewrite -E; [|apply same_ret].
  apply same_bind; intros []. apply same_bind; intros []. eapply (same_bind2 drop_all); [apply same_rebalance|]. intros k2. apply same_bind; intros []. apply same_ret.
Qed.
Lemma fold_count (g : num -> num -> num) l : forall x k,
  fold_left (fun a y => (g a.1 y, S a.2)) l (x, k) = (fold_left g l x, length l + k).
Proof. induction l as [|y l IH]; intros x k; [done|]. cbn [fold_left fst snd length]. rewrite IH. f_equal. lia. Qed.
Lemma same_extreme b l : same fst (list_extreme_c b l) (list_extreme b l).
Proof. destruct l as [|x l]; [apply same_raise|]. unfold list_extreme_c, list_extreme. rewrite fold_count. apply (same_ret fst (_, _)). Qed.
Lemma same_get_top b : same fst (heap_get_top_c b) (heap_get_top b).
Proof.
  apply same_bind; intros h. apply same_if; [apply same_raise|]. intros s. unfold bind, ret. by destruct (hget 0 s).
Qed.
Lemma same_get_bottom b : same fst (heap_get_bottom_c b) (heap_get_bottom b).
Proof. apply same_bind; intros h. apply same_if; [apply same_raise|apply same_extreme]. Qed.
Lemma same_get_min b : same fst (heap_get_min_c b) (heap_get_min b).
Proof. destruct b; [apply same_get_top|apply same_get_bottom]. Qed.
Lemma same_get_max b : same fst (heap_get_max_c b) (heap_get_max b).
Proof. destruct b; [apply same_get_bottom|apply same_get_top]. Qed.
Lemma index_of_elem x h : bool_decide (x ∈ h) = match index_of x h with Some _ => true | None => false end.
Proof.
  destruct (index_of x h) as [i|] eqn:E.
  - apply bool_decide_eq_true_2. apply index_of_Some in E. by eapply elem_of_list_lookup_2.
  - apply bool_decide_eq_false_2. by apply index_of_None.
Qed.
Lemma same_contains v : same fst (heap_contains_c v) (heap_contains v).
Proof.
  apply same_bind; intros h. apply same_if; [apply same_ret|]. destruct v as [|x| | | |]; try apply same_ret.
  rewrite index_of_elem -(index_of_same x h 0). apply same_ret.
Qed.
Lemma same_call b op : same fst (heap_call_c b op) (heap_call b op).
Proof.
  destruct op as [v|v| | | | |v| | | |]; cbn [heap_call_c heap_call].
  - eapply (same_bind2 drop_all); [apply same_insert|]. intros k. done.
  - eapply (same_bind2 fst); [apply same_remove|]. intros k. done.
  - eapply (same_bind2 fst); [|intros k; done]. eapply (same_bind2 fst); [apply same_get_min|]. intros k. apply same_remove.
  - eapply (same_bind2 fst); [|intros k; done]. eapply (same_bind2 fst); [apply same_get_max|]. intros k. apply same_remove.
  - eapply (same_bind2 fst); [apply same_get_min|]. intros k. done.
  - eapply (same_bind2 fst); [apply same_get_max|]. intros k. done.
  - eapply (same_bind2 fst); [apply same_contains|]. intros k. done.
  - apply same_bind; intros k. done.
  - apply same_bind; intros k. done.
  - apply same_bind; intros k. done.
  - apply same_bind; intros k. done.
Qed.
Lemma same_calls b ops : forall h, option_map (fun r => (map fst r.1, r.2)) (heap_calls_c b h ops) = heap_calls b h ops.
Proof.
  induction ops as [|op ops IH]; intros h; [done|]. cbn [heap_calls_c heap_calls]. pose proof (same_call b op h) as E. unfold bind, ret in E.
  destruct (heap_call_c b op h) as [r h'|e h'|]; rewrite -E; [| |done]; rewrite -(IH h'); destruct (heap_calls_c b h' ops) as [[rs h'']|]; done.
Qed.
Lemma same_insert_all b items : forall k, same drop_all (insert_all_c b items k) (insert_all b items).
Proof.
  induction items as [|v items IH]; intros k; [apply same_ret|]. cbn [insert_all_c insert_all]. eapply (same_bind2 drop_all); [apply same_insert|]. intros k'. apply IH.
Qed.

(** ** The counts *)
Lemma binv {A B} (m : M heap A) (k : A -> M heap B) s b s' : bind m k s = Ok b s' -> exists a s1, m s = Ok a s1 /\ k a s1 = Ok b s'.
Proof. unfold bind. destruct (m s) as [a s1|e s1|]; [|done|done]. by eexists _, _. Qed.
Lemma hget_inv i h x s' : hget i h = Ok x s' -> s' = h /\ h !! i = Some x.
Proof. unfold hget. destruct (h !! i); [|done]. by intros [= -> ->]. Qed.
Lemma hput_inv i x h u s' : hput i x h = Ok u s' -> length s' = length h.
Proof. unfold hput. destruct (Nat.ltb i (length h)); [|done]. intros [= _ <-]. apply insert_length. Qed.
Lemma hswap_inv i j h u s' : hswap i j h = Ok u s' -> length s' = length h.
Proof.
  intros (x & s1 & [-> _]%hget_inv & H)%binv. apply binv in H as (y & s2 & [-> _]%hget_inv & H).
  apply binv in H as (u' & s3 & H1%hput_inv & H2%hput_inv). lia.
Qed.
Lemma half_up i : i <> 0 -> Nat.log2 (i + 1) = S (Nat.log2 (Nat.div (i - 1) 2 + 1)).
Proof.
  intros Hi. pose proof (Nat.div_mod (i - 1) 2 ltac:(lia)) as Hd. pose proof (Nat.mod_upper_bound (i - 1) 2 ltac:(lia)) as Hm.
  set (p := (i - 1) / 2) in *. destruct (Nat.eq_dec ((i - 1) mod 2) 0) as [E|E].
  - replace (i + 1) with (2 * (p + 1)) by lia. rewrite Nat.log2_double; [done|lia].
  - replace (i + 1) with (2 * (p + 1) + 1) by lia. rewrite Nat.log2_succ_double; [done|lia].
Qed.
Lemma sift_up_cost fuel b : forall i k s c s', sift_up_c fuel b i k s = Ok c s' -> length s' = length s /\ c <= k + Nat.log2 (i + 1).
Proof.
  induction fuel as [|f IH]; intros i k s c s'; [done|]. cbn [sift_up_c]. destruct (Nat.eqb_spec i 0) as [->|Hi].
  - intros [= <- <-]. lia.
  - intros (x & s1 & [-> _]%hget_inv & H)%binv. apply binv in H as (y & s2 & [-> _]%hget_inv & H). rewrite (half_up i Hi).
    destruct (wrong b y x).
    + apply binv in H as ([] & s3 & H1%hswap_inv & H). apply IH in H as [H2 H3]. lia.
    + injection H as <- <-. lia.
Qed.
Lemma insert_cost b v h c h' : heap_insert_c b v h = Ok c h' -> length h' = S (length h) /\ c <= Nat.log2 (length h + 1).
Proof.
  unfold heap_insert_c. destruct (heap_item v) as [e|n]; [done|]. intros (h1 & s1 & [= <- <-] & H)%binv.
  apply binv in H as ([] & s2 & [= <-] & H). apply sift_up_cost in H as [H1 H2]. rewrite app_length in H1. cbn in H1. lia.
Qed.
Lemma pow_down p n : 2 * (p + 1) <= n -> Nat.log2 (n / (p + 1)) = S (Nat.log2 (n / (2 * (p + 1)))).
Proof.
  intros H. rewrite (Nat.mul_comm 2) -Nat.div_div; [|lia|lia]. set (m := n / (p + 1)).
  assert (2 <= m) as Hm by (apply Nat.div_le_lower_bound; lia).
  pose proof (Nat.div_mod m 2 ltac:(lia)) as Hd. pose proof (Nat.mod_upper_bound m 2 ltac:(lia)) as Hb.
  destruct (Nat.eq_dec (m mod 2) 0) as [E|E]; rewrite {1}Hd.
  - rewrite E Nat.add_0_r Nat.log2_double; [done|lia].
  - replace (2 * (m / 2) + m mod 2) with (2 * (m / 2) + 1) by lia. rewrite Nat.log2_succ_double; [done|lia].
Qed.
Lemma sift_down_cost fuel b : forall p l k s c s', sift_down_c fuel b p l k s = Ok c s' ->
  length s' = length s /\ c <= k + 2 * Nat.log2 (l / (p + 1)).
Proof.
  induction fuel as [|f IH]; intros p l k s c s'; [done|]. cbn [sift_down_c]. destruct (Nat.ltb_spec p l) as [Hp|Hp].
  - intros (x & s1 & [-> _]%hget_inv & H)%binv. apply binv in H as (o & s2 & Ho & H).
    assert (s2 = s /\ (o = None \/ exists i k', o = Some (i, k') /\ 2 * p + 1 <= i < l /\ k <= k' <= S k)) as [-> Hk].
    { destruct (Nat.leb_spec l (p * 2 + 2)) as [H2|H2].
      - destruct (Nat.leb_spec l (p * 2 + 1)) as [H3|H3]; injection Ho as <- <-; (split; [done|]); [by left|]. right. eexists _, _. split; [done|lia].
      - apply binv in Ho as (y & s3 & [-> _]%hget_inv & Ho). apply binv in Ho as (z & s3 & [-> _]%hget_inv & Ho).
        destruct b; injection Ho as <- <-; (split; [done|]); right; eexists _, _; (split; [done|]); destruct (num_ltb _ _); lia. }
    destruct Hk as [->|(i & k' & -> & Hi & Hk)].
    + injection H as <- <-. lia.
    + apply binv in H as (y & s3 & [-> _]%hget_inv & H). rewrite (pow_down p l); [|lia].
      assert (l / (i + 1) <= l / (2 * (p + 1))) as Hd by (apply Nat.div_le_compat_l; lia).
      apply Nat.log2_le_mono in Hd. destruct (wrong b x y).
      * apply binv in H as ([] & s3 & H1%hswap_inv & H). apply IH in H as [H2 H3]. lia.
      * injection H as <- <-. lia.
  - intros [= <- <-]. lia.
Qed.
Lemma index_of_cost x h : forall k, (index_of_c x h k).2 = k + match index_of x h with Some i => S i | None => length h end.
Proof.
  induction h as [|y h IH]; intros k; [cbn; lia|]. cbn [index_of_c index_of]. destruct (bool_decide (y = x)); [cbn; lia|].
  cbn [snd]. rewrite IH. destruct (index_of x h); cbn; lia.
Qed.
Lemma index_lt x h i : index_of x h = Some i -> i < length h.
Proof. intros H%index_of_Some. by eapply lookup_lt_Some. Qed.
Lemma rebalance_cost b p k h c h' : rebalance_c b p k h = Ok c h' -> length h' = length h /\ c <= k + 2 * Nat.log2 ((length h - 1) / (p + 1)).
Proof. intros (h1 & s1 & [= <- <-] & H)%binv. by apply sift_down_cost in H. Qed.
Lemma remove_cost b x k h w h' : heap_remove_c b (PNum x) k h = Ok w h' ->
  match index_of x h with
  | None => h' = h /\ w.2 = k + length h
  | Some i => S (length h') = length h /\ w.2 <= k + S i + 2 * Nat.log2 ((length h - 1) / (i + 1))
  end.
Proof.
  intros (h1 & s1 & [= <- <-] & H)%binv. destruct (Nat.eqb_spec (length h) 0) as [E|E].
  { injection H as <- <-. destruct h; [|done]. cbn. by rewrite Nat.add_0_r. }
  pose proof (index_of_same x h k) as E1. pose proof (index_of_cost x h k) as E2. destruct (index_of_c x h k) as [o k1]. cbn in E1, E2. subst o.
  destruct (index_of x h) as [i|] eqn:Ei; [|by injection H as <- <-]. pose proof (index_lt _ _ _ Ei) as Hi. apply binv in H as ([] & s1 & H1%hswap_inv & H). apply binv in H as ([] & s2 & H2%hput_inv & H).
  apply binv in H as (k2 & s3 & H3%rebalance_cost & H). apply binv in H as ([] & s4 & H4 & [= <- <-]). cbn [snd].
  assert (S (length s4) = length s3) as H5.
  { unfold hpop in H4. destruct s3 as [|y s3]; [done|]. assert (s4 = removelast (y :: s3)) as -> by (by inversion H4). pose proof (app_removelast_last y (l := y :: s3) ltac:(done)) as Hr. apply (f_equal length) in Hr. rewrite app_length Nat.add_1_r in Hr. by rewrite Hr. }
  destruct H3 as [H3 H3']. rewrite H2 H1 in H3'. lia.
Qed.
Lemma remove_other b v k h w h' : (forall x, v <> PNum x) -> heap_remove_c b v k h = Ok w h' -> h' = h /\ w.2 = k.
Proof.
  intros Hv (h1 & s1 & [= <- <-] & H)%binv. destruct (Nat.eqb (length h) 0); [by injection H as <- <-|]. destruct v as [|x| | | |]; try by injection H as <- <-. by destruct (Hv x).
Qed.
Lemma get_top_cost b h r h' : heap_get_top_c b h = Ok r h' -> h' = h /\ r.2 = 0 /\ h !! 0 = Some r.1.
Proof.
  intros (h1 & s1 & [= <- <-] & H)%binv. destruct (Nat.eqb (length h) 0); [done|]. apply binv in H as (x & s1 & [-> Hx]%hget_inv & [= <- <-]). done.
Qed.
Lemma get_bottom_cost b h r h' : heap_get_bottom_c b h = Ok r h' -> h' = h /\ r.2 + 1 = length h - length h / 2 /\ r.1 ∈ h.
Proof.
  intros (h1 & s1 & [= <- <-] & H)%binv. destruct (Nat.eqb (length h) 0); [done|].
  pose proof (drop_length h (length h / 2)) as Hl. assert (forall x, x ∈ drop (length h / 2) h -> x ∈ h) as Hs.
  { intros y Hy. rewrite -(take_drop (length h / 2) h). apply elem_of_app. by right. }
  unfold list_extreme_c in H. destruct (drop (length h / 2) h) as [|x l] eqn:E; [done|]. rewrite fold_count in H. injection H as <- <-. cbn in *. split_and!; [done|lia|].
  apply Hs. assert (forall f : num -> num -> num, (forall a c, f a c = a \/ f a c = c) -> forall l a, fold_left f l a ∈ a :: l) as Hf.
  { intros f Hf. induction l0 as [|z l0 IH]; intros a; cbn [fold_left]; [by left|]. specialize (IH (f a z)). destruct (Hf a z) as [E'|E']; rewrite E' in IH; rewrite E'; [|by right]. apply elem_of_cons in IH as [->|IH]; [by left|by do 2 right]. }
  apply Hf. intros a c. destruct b; cbn; unfold num_min, num_max; destruct (num_ltb _ _); auto.
Qed.
Lemma log2_sub n m : Nat.log2 ((n - 1) / (m + 1)) <= Nat.log2 n.
Proof. apply Nat.log2_le_mono. etrans; [apply Nat.div_le_upper_bound; [lia|]|reflexivity]. nia. Qed.
(** The number of elements after a call. *)
Definition grow (op : hop) (n : nat) : nat := match op with HInsert _ => S n | _ => n end.
Lemma call_cost b op h r h' : heap_call_c b op h = Ok r h' -> r.2 <= limit b (length h) op /\ length h' <= grow op (length h).
Proof.
  assert (forall v k w, heap_remove_c b v k h = Ok w h' -> length h' <= length h /\ w.2 <= k + length h + 2 * Nat.log2 (length h)) as HR.
  { intros v k w H. destruct (num_or_not v) as [[x ->]|Hv]; [|destruct (remove_other _ _ _ _ _ _ Hv H) as [-> ->]; lia].
    apply remove_cost in H. destruct (index_of x h) as [i|] eqn:Ei; [|destruct H as [-> ->]; lia]. pose proof (index_lt _ _ _ Ei). pose proof (log2_sub (length h) i). lia. }
  assert (forall m k w, h !! 0 = Some m -> heap_remove_c b (PNum m) k h = Ok w h' -> length h' <= length h /\ w.2 <= k + 1 + 2 * Nat.log2 (length h)) as HT.
  { intros m k w Hm H. apply remove_cost in H. destruct h as [|y h0]; [done|]. injection Hm as ->. cbn [index_of] in H. rewrite bool_decide_eq_true_2 // in H.
    destruct H as [H1 H2]. pose proof (log2_sub (length (m :: h0)) 0). lia. }
  assert (length h - length h / 2 <= length h / 2 + 1) as Hhalf.
  { pose proof (Nat.div_mod (length h) 2 ltac:(lia)). pose proof (Nat.mod_upper_bound (length h) 2 ltac:(lia)). lia. }
  destruct op as [v|v| | | | |v| | | |]; cbn [heap_call_c limit grow at_top]; intros H.
  - apply binv in H as (k & s1 & H & [= <- <-]). apply insert_cost in H as [-> H]. cbn. lia.
  - apply binv in H as (w & s1 & H & [= <- <-]). apply HR in H as [H1 H2]. cbn. lia.
  - apply binv in H as (w & s1 & H & [= <- <-]). apply binv in H as (m & s2 & Hm & H). unfold heap_get_min_c in Hm. destruct b; cbn [snd fst].
    + apply get_top_cost in Hm as (-> & Hk & Hm). apply HT in H as [H1 H2]; [|done]. lia.
    + apply get_bottom_cost in Hm as (-> & Hk & Hm). apply HR in H as [H1 H2]. lia.
  - apply binv in H as (w & s1 & H & [= <- <-]). apply binv in H as (m & s2 & Hm & H). unfold heap_get_max_c in Hm. destruct b; cbn [snd fst negb].
    + apply get_bottom_cost in Hm as (-> & Hk & Hm). apply HR in H as [H1 H2]. lia.
    + apply get_top_cost in Hm as (-> & Hk & Hm). apply HT in H as [H1 H2]; [|done]. lia.
  - apply binv in H as (m & s1 & Hm & [= <- <-]). unfold heap_get_min_c in Hm. destruct b; cbn [snd fst].
    + apply get_top_cost in Hm as (-> & Hk & Hm). lia.
    + apply get_bottom_cost in Hm as (-> & Hk & Hm). lia.
  - apply binv in H as (m & s1 & Hm & [= <- <-]). unfold heap_get_max_c in Hm. destruct b; cbn [snd fst negb].
    + apply get_bottom_cost in Hm as (-> & Hk & Hm). lia.
    + apply get_top_cost in Hm as (-> & Hk & Hm). lia.
  - apply binv in H as (m & s1 & H & [= <- <-]). apply binv in H as (h1 & s2 & [= <- <-] & H). destruct (Nat.eqb (length h) 0); [injection H as <- <-; cbn; lia|].
    destruct v as [|x| | | |]; try (injection H as <- <-; cbn; lia). injection H as <- <-. cbn [snd]. rewrite index_of_cost. split; [|lia].
    destruct (index_of x h) as [i|] eqn:Ei; [|lia]. pose proof (index_lt _ _ _ Ei). lia.
  - apply binv in H as (m & s1 & [= <- <-] & [= <- <-]). cbn. lia.
  - apply binv in H as (m & s1 & [= <- <-] & [= <- <-]). cbn. lia.
  - apply binv in H as (m & s1 & [= <- <-] & [= <- <-]). cbn. lia.
  - apply binv in H as ([] & s1 & [= <-] & [= <- <-]). cbn. lia.
Qed.

(** ** Totality, histories *)
Lemma call_c_total b op h : match heap_call_c b op h with Ok _ _ => True | Exc _ h' => h' ≡ₚ h | Diverge => False end.
Proof.
  pose proof (same_call b op h) as E. unfold bind, ret in E. destruct (call_weak b op h) as (h' & [(r & H & _)|(e & H & Hm)]); rewrite H in E.
  - by destruct (heap_call_c b op h).
  - destruct (heap_call_c b op h) as [|e1 h1|]; [done| |done]. injection E as -> ->. inversion Hm as [? ? ? Hm'| |]. subst. inversion Hm'; subst; done.
Qed.
Lemma calls_c_total b ops : forall h, exists rs h', heap_calls_c b h ops = Some (rs, h').
Proof.
  induction ops as [|op ops IH]; intros h; [by eexists _, _|]. cbn [heap_calls_c]. pose proof (call_c_total b op h) as H.
  destruct (heap_call_c b op h) as [r h1|e h1|]; [| |done]; destruct (IH h1) as (rs & h2 & ->); by eexists _, _.
Qed.
Lemma queue_cost b ops : forall h rs h', Forall (fun op => queue_op b op = true) ops -> heap_calls_c b h ops = Some (rs, h') ->
  total rs <= length ops * (1 + 2 * Nat.log2 (length h + insertions ops)).
Proof.
  induction ops as [|op ops IH]; intros h rs h' Hq H; [injection H as <- <-; cbn; lia|].
  apply Forall_cons in Hq as [Ho Hq]. cbn [heap_calls_c] in H. pose proof (call_c_total b op h) as Ht. pose proof (call_cost b op h) as Hc.
  assert (forall h1 c rs' h2, length h1 <= grow op (length h) -> c <= 1 + 2 * Nat.log2 (length h + insertions (op :: ops)) -> heap_calls_c b h1 ops = Some (rs', h2) ->
    c + total rs' <= length (op :: ops) * (1 + 2 * Nat.log2 (length h + insertions (op :: ops)))) as HS.
  { intros h1 c rs' h2 H1 H2 H3%IH; [|done]. cbn [length].
    assert (length h1 + insertions ops <= length h + insertions (op :: ops)) as Hl%Nat.log2_le_mono.
    { destruct op; cbn [grow] in H1; unfold insertions in *; cbn [List.filter length] in *; lia. }
    nia. }
  destruct (heap_call_c b op h) as [r h1|e h1|]; [| |done].
  - destruct (Hc _ _ eq_refl) as [H1 H2]. destruct (heap_calls_c b h1 ops) as [[rs' h2]|] eqn:E; [|done]. injection H as <- <-. unfold total. rewrite map_cons. change (sum_list (r.2 :: map snd rs')) with (r.2 + total rs').
    eapply HS; [done| |done]. etrans; [exact H1|]. destruct op; try done; cbn [limit at_top queue_op] in *.
    + etrans; [apply (Nat.log2_le_mono _ (length h + insertions (HInsert v :: ops)))|lia]. unfold insertions. cbn. lia.
    + rewrite Ho. unfold insertions. cbn [List.filter]. pose proof (Nat.log2_le_mono (length h) (length h + length (List.filter (fun op => match op with HInsert _ => true | _ => false end) ops)) ltac:(lia)). lia.
    + rewrite Ho. unfold insertions. cbn [List.filter]. pose proof (Nat.log2_le_mono (length h) (length h + length (List.filter (fun op => match op with HInsert _ => true | _ => false end) ops)) ltac:(lia)). lia.
  - destruct (heap_calls_c b h1 ops) as [[rs' h2]|] eqn:E; [|done]. injection H as <- <-. unfold total. rewrite map_cons. change (0 + total rs' <= length (op :: ops) * (1 + 2 * Nat.log2 (length h + insertions (op :: ops)))).
    eapply HS; [|lia|done]. rewrite (Permutation_length Ht). destruct op; cbn; lia.
Qed.

(** ** Heapify *)
Lemma insert_c_ok b n h : exists k h', heap_insert_c b (PNum n) h = Ok k h' /\ h' ≡ₚ n :: h.
Proof.
  pose proof (same_insert b (PNum n) h) as E. destruct (heap_insert_spec b n h) as (h' & H & Hp & _). rewrite H in E. unfold bind, ret in E.
  destruct (heap_insert_c b (PNum n) h) as [k h1|e h1|]; [|done|done]. injection E as ->. by exists k, h'.
Qed.
Lemma insert_all_cost b (xs : list num) : forall k h, exists c h', insert_all_c b (PNum <$> xs) k h = Ok c h' /\ h' ≡ₚ xs ++ h /\ c + log_sum (length h) <= k + log_sum (length h + length xs).
Proof.
  induction xs as [|x xs IH]; intros k h.
  - exists k, h. split_and!; [done|done|]. cbn. rewrite Nat.add_0_r. lia.
  - rewrite fmap_cons. cbn [insert_all_c]. destruct (insert_c_ok b x h) as (k1 & h1 & E1 & Hp). rewrite (bind_ok _ _ _ _ _ E1).
    destruct (IH (k + k1) h1) as (c & h2 & E2 & Hp2 & Hc). exists c, h2. split_and!; [done| |].
    + rewrite Hp2 Hp. cbn [app]. by rewrite Permutation_middle.
    + apply insert_cost in E1 as [Hl Hk]. rewrite Hl in Hc. cbn [length]. replace (length h + S (length xs)) with (S (length h) + length xs) by lia.
      change (log_sum (S (length h))) with (Nat.log2 (S (length h)) + log_sum (length h)) in Hc. rewrite Nat.add_1_r in Hk. lia.
Qed.
Lemma log_sum_le n : log_sum n <= n * Nat.log2 n.
Proof.
  assert (forall m, m <= n -> log_sum m <= m * Nat.log2 n) as H; [|by apply H].
  induction m as [|m IH]; intros Hm; [done|]. change (log_sum (S m)) with (Nat.log2 (S m) + log_sum m). specialize (IH ltac:(lia)).
  pose proof (Nat.log2_le_mono (S m) n Hm). lia.
Qed.
Lemma log_sum_ge a d : log_sum a + d * Nat.log2 a <= log_sum (a + d).
Proof.
  induction d as [|d IH]; [rewrite Nat.add_0_r; lia|]. rewrite Nat.add_succ_r. change (log_sum (S (a + d))) with (Nat.log2 (S (a + d)) + log_sum (a + d)).
  pose proof (Nat.log2_le_mono a (S (a + d)) ltac:(lia)). lia.
Qed.
(** A number that goes before all others climbs to the root. *)
Lemma before_wrong b x y : before b x y <-> wrong b y x = true.
Proof.
  destruct b; cbn; rewrite -num_ltb_le; destruct (num_ltb _ _); naive_solver.
Qed.
Lemma sift_up_worst fuel b x : forall i k h, i < fuel -> h !! i = Some x -> (forall j y, j <> i -> h !! j = Some y -> before b x y) ->
  exists h', sift_up_c fuel b i k h = Ok (k + Nat.log2 (i + 1)) h'.
Proof.
  induction fuel as [|f IH]; intros i k h Hf Hx Hy; [lia|]. cbn [sift_up_c]. destruct (Nat.eqb_spec i 0) as [->|Hi].
  - exists h. cbn. by rewrite Nat.add_0_r.
  - assert ((i - 1) / 2 < i) as Hlt by (apply Nat.div_lt_upper_bound; lia).
    assert (i < length h) as Hl by (by eapply lookup_lt_Some).
    destruct (lookup_lt_is_Some_2 h ((i - 1) / 2)) as [y Hp]; [lia|].
    rewrite (bind_ok _ _ _ _ _ (hget_ok _ _ _ Hx)) (bind_ok _ _ _ _ _ (hget_ok _ _ _ Hp)).
    assert (wrong b y x = true) as -> by (apply before_wrong; eapply Hy; [|done]; lia).
    rewrite (bind_ok _ _ _ _ _ (hswap_ok _ _ _ _ _ Hp Hx)). destruct (IH ((i - 1) / 2) (S k) (swp ((i - 1) / 2) i y x h)) as (h' & E); [lia| | |].
    + rewrite swp_lookup; [|lia|lia]. rewrite decide_False; [|lia]. rewrite decide_True //.
    + intros j z Hj. rewrite swp_lookup; [|lia|lia]. destruct (decide (j = i)) as [->|Hji]; [intros [= <-]; eapply Hy; [|done]; lia|]. rewrite decide_False //. intros Hz. by eapply Hy.
    + exists h'. rewrite E (half_up i Hi). f_equal. lia.
Qed.
Lemma insert_worst b x h : Forall (before b x) h -> exists h', heap_insert_c b (PNum x) h = Ok (Nat.log2 (length h + 1)) h' /\ h' ≡ₚ x :: h.
Proof.
  intros Hx. destruct (insert_c_ok b x h) as (k & h' & E & Hp). exists h'. split; [|done]. rewrite E. f_equal.
  unfold heap_insert_c in E. cbn [heap_item] in E. rewrite (bind_ok _ _ h h h) // in E. rewrite (bind_ok _ _ h tt (h ++ [x])) // in E.
  destruct (sift_up_worst (S (length h)) b x (length h) 0 (h ++ [x])) as (h2 & E2); [lia|by apply list_lookup_middle| |].
  - intros j y Hj Hy. pose proof (lookup_lt_Some _ _ _ Hy) as Hl. rewrite app_length in Hl. cbn in Hl. rewrite lookup_app_l in Hy; [|lia]. rewrite Forall_forall in Hx. apply Hx. by eapply elem_of_list_lookup_2.
  - rewrite E2 in E. by injection E.
Qed.
Lemma insert_best b x h : Forall (fun y => ~ before b x y) h -> heap_insert_c b (PNum x) h = Ok (Nat.min 1 (length h)) (h ++ [x]).
Proof.
  intros Hx. unfold heap_insert_c. cbn [heap_item]. rewrite (bind_ok _ _ h h h) // (bind_ok _ _ h tt (h ++ [x])) //.
  cbn [sift_up_c]. destruct (Nat.eqb_spec (length h) 0) as [->|Hl]; [done|]. assert ((length h - 1) / 2 < length h) as Hlt by (apply Nat.div_lt_upper_bound; lia).
  destruct (lookup_lt_is_Some_2 h ((length h - 1) / 2)) as [y Hp]; [done|].
  rewrite (bind_ok _ _ _ x (h ++ [x])); [|by apply hget_ok, list_lookup_middle]. rewrite (bind_ok _ _ _ y (h ++ [x])); [|by apply hget_l].
  rewrite Forall_forall in Hx. specialize (Hx y ltac:(by eapply elem_of_list_lookup_2)). rewrite before_wrong in Hx. destruct (wrong b y x); [done|]. unfold ret. f_equal. lia.
Qed.
Lemma insert_all_worst b (xs : list num) : forall k h, (forall x y, x ∈ xs -> y ∈ h -> before b x y) -> StronglySorted (fun x y => before b y x) xs ->
  exists h', insert_all_c b (PNum <$> xs) k h = Ok (k + (log_sum (length h + length xs) - log_sum (length h))) h'.
Proof.
  induction xs as [|x xs IH]; intros k h Hb Hs.
  - exists h. cbn. rewrite Nat.add_0_r Nat.sub_diag Nat.add_0_r. done.
  - rewrite fmap_cons. cbn [insert_all_c]. apply StronglySorted_inv in Hs as [Hs Hx].
    destruct (insert_worst b x h) as (h1 & E & Hp); [apply Forall_forall; intros y Hy; apply Hb; [by left|done]|]. rewrite (bind_ok _ _ _ _ _ E).
    destruct (IH (k + Nat.log2 (length h + 1)) h1) as (h2 & E2); [|done|].
    + intros z y Hz Hy. rewrite Hp in Hy. apply elem_of_cons in Hy as [->|Hy]; [|apply Hb; [by right|done]]. rewrite Forall_forall in Hx. by apply Hx.
    + exists h2. rewrite E2 (Permutation_length Hp). f_equal. cbn [length]. replace (length h + S (length xs)) with (S (length h) + length xs) by lia.
      pose proof (log_sum_ge (S (length h)) (length xs)). change (log_sum (S (length h))) with (Nat.log2 (S (length h)) + log_sum (length h)) in *. rewrite Nat.add_1_r. lia.
Qed.
Lemma insert_all_best b (xs : list num) : forall k h, (forall x y, x ∈ xs -> y ∈ h -> ~ before b x y) -> StronglySorted (fun x y => ~ before b y x) xs ->
  insert_all_c b (PNum <$> xs) k h = Ok (k + ((length h + length xs - 1) - (length h - 1))) (h ++ xs).
Proof.
  induction xs as [|x xs IH]; intros k h Hb Hs.
  - cbn. rewrite Nat.add_0_r Nat.sub_diag Nat.add_0_r app_nil_r. done.
  - rewrite fmap_cons. cbn [insert_all_c]. apply StronglySorted_inv in Hs as [Hs Hx].
    rewrite (bind_ok _ _ _ _ _ (insert_best b x h ltac:(apply Forall_forall; intros y Hy; apply Hb; [by left|done]))). rewrite IH; [|  |done].
    + rewrite -app_assoc app_length. cbn [length app]. f_equal. lia.
    + intros z y Hz Hy. apply elem_of_app in Hy as [Hy|Hy%elem_of_list_singleton]; [apply Hb; [by right|done]|]. subst y. rewrite Forall_forall in Hx. by apply Hx.
Qed.
(** A number that goes after all others sinks to a leaf. *)
Lemma sink_log p l : 2 * p + 2 < l -> Nat.log2 ((l + 1) / (p + 2)) = S (Nat.log2 ((l + 1) / (2 * p + 4))).
Proof. intros H. pose proof (pow_down (p + 1) (l + 1) ltac:(lia)) as E. replace (p + 1 + 1) with (p + 2) in E by lia. rewrite E. do 3 f_equal. lia. Qed.
Lemma sift_down_worst fuel b x : forall p l k s c s', s !! p = Some x -> (forall j y, j < l -> j <> p -> s !! j = Some y -> before b y x) ->
  sift_down_c fuel b p l k s = Ok c s' -> k + 2 * Nat.log2 ((l + 1) / (p + 2)) <= c.
Proof.
  induction fuel as [|f IH]; intros p l k s c s' Hx Hb; [done|]. cbn [sift_down_c].
  assert (l <= 2 * p + 2 -> Nat.log2 ((l + 1) / (p + 2)) = 0) as Hz.
  { intros H. apply Nat.log2_null. apply Nat.lt_succ_r, Nat.div_lt_upper_bound; lia. }
  destruct (Nat.ltb_spec p l) as [Hp|Hp]; [|intros [= <- <-]; rewrite Hz; lia].
  rewrite (bind_ok _ _ _ _ _ (hget_ok _ _ _ Hx)). destruct (Nat.leb_spec l (p * 2 + 2)) as [H2|H2].
  - rewrite Hz; [|lia]. destruct (Nat.leb_spec l (p * 2 + 1)) as [H3|H3].
    + intros [= <- <-]. lia.
    + intros (o & s2 & [= <- <-] & H)%binv. apply binv in H as (y & s3 & [-> _]%hget_inv & H). destruct (wrong b x y).
      * apply binv in H as ([] & s3 & _ & H). assert (S k <= c); [|lia]. clear -H. revert H. generalize (p * 2 + 1). intros q.
        assert (forall f q k s c s', sift_down_c f b q l k s = Ok c s' -> k <= c) as Hm; [|apply Hm]. clear. induction f as [|f IH]; intros q k s c s'; [done|]. cbn [sift_down_c].
        destruct (Nat.ltb q l); [|intros [= <- <-]; lia]. intros (y & s1 & [-> _]%hget_inv & H)%binv. apply binv in H as (o & s2 & Ho & H).
        assert (o = None \/ exists i k', o = Some (i, k') /\ k <= k') as [->|(i & k' & -> & Hk)].
        { destruct (Nat.leb l (q * 2 + 2)); [destruct (Nat.leb l (q * 2 + 1)); injection Ho as <- <-; [by left|right; by eexists _, _]|].
          apply binv in Ho as (z & s3 & _ & Ho). apply binv in Ho as (z' & s4 & _ & Ho). destruct b; injection Ho as <- <-; right; eexists _, _; (split; [done|lia]). }
        -- injection H as <- <-. lia.
        -- apply binv in H as (z & s3 & _ & H). destruct (wrong b y z); [|injection H as <- <-; lia]. apply binv in H as ([] & s4 & _ & H). apply IH in H. lia.
      * injection H as <- <-. lia.
  - rewrite sink_log; [|lia]. intros (o & s2 & Ho & H)%binv. apply binv in Ho as (y & s3 & [-> Hy]%hget_inv & Ho). apply binv in Ho as (z & s3 & [-> Hz']%hget_inv & Ho).
    assert (s2 = s /\ exists i, o = Some (i, S k) /\ p < i <= p * 2 + 2) as (-> & i & -> & Hi).
    { destruct b; injection Ho as <- <-; (split; [done|]); eexists; (split; [done|]); destruct (num_ltb _ _); lia. }
    apply binv in H as (w & s3 & [-> Hw]%hget_inv & H).
    assert (wrong b x w = true) as E by (apply before_wrong; eapply Hb; [| |done]; lia). rewrite E in H.
    pose proof (lookup_lt_Some _ _ _ Hw) as Hl.
    rewrite (bind_ok _ _ _ _ _ (hswap_ok _ _ _ _ _ Hx Hw)) in H. apply IH in H.
    + assert ((l + 1) / (2 * p + 4) <= (l + 1) / (i + 2)) as Hd by (apply Nat.div_le_compat_l; lia). apply Nat.log2_le_mono in Hd. lia.
    + rewrite swp_lookup; [|lia|lia]. rewrite decide_True //.
    + intros j v Hj Hji. rewrite swp_lookup; [|lia|lia]. rewrite decide_False //. destruct (decide (j = p)) as [->|Hjp]; [intros [= <-]; eapply Hb; [| |done]; lia|]. intros Hv. by eapply Hb.
Qed.
Lemma remove_top_worst b y h x w h' : Forall (fun z => before b z x) h -> heap_remove_c b (PNum y) 0 (y :: h ++ [x]) = Ok w h' ->
  2 * Nat.log2 (length (y :: h ++ [x])) <= w.2 + 1.
Proof.
  intros Hb (h1 & s1 & [= <- <-] & H)%binv. cbn [length Nat.eqb index_of_c] in H. rewrite bool_decide_eq_true_2 // in H.
  set (n := length (y :: h ++ [x])). assert (S (length (h ++ [x])) - 1 = S (length h)) as El by (rewrite app_length; cbn; lia). rewrite El in H.
  assert ((y :: h ++ [x]) !! S (length h) = Some x) as Hx by (cbn; by apply list_lookup_middle).
  rewrite (bind_ok _ _ _ _ _ (hswap_ok _ _ _ _ _ Hx (eq_refl : (y :: h ++ [x]) !! 0 = Some y))) in H.
  apply binv in H as ([] & s1 & H1 & H). apply binv in H as (k2 & s2 & H2 & H). apply binv in H as ([] & s3 & _ & [= <- <-]). cbn [snd].
  set (h2 := swp (S (length h)) 0 x y (y :: h ++ [x])) in *. assert (length h2 = n) as Hn by (unfold h2, swp; etrans; apply insert_length).
  unfold hput in H1. rewrite (proj2 (Nat.ltb_lt (S (length h)) (length h2))) in H1; [|rewrite Hn; unfold n; cbn; rewrite app_length; cbn; lia]. injection H1 as <-.
  unfold rebalance_c in H2. apply binv in H2 as (h3 & s4 & [= <- <-] & H2). assert (length (<[S (length h):=if b then NegInf else PosInf]> h2) = n) as En by (etrans; [apply insert_length|done]). rewrite En in H2.
  replace (n - 1) with (S (length h)) in H2 by (unfold n; cbn; rewrite app_length; cbn; lia). apply sift_down_worst with (x := x) in H2.
  - replace (S (length h) + 1) with n in H2 by (unfold n; cbn; rewrite app_length; cbn; lia). change (0 + 2) with 2 in H2. cbn [Nat.add] in H2.
    assert (2 <= n) as H2n by (unfold n; cbn; rewrite app_length; cbn; lia). clearbody n.
    pose proof (pow_down 0 n ltac:(lia)) as E. change (0 + 1) with 1 in E. rewrite Nat.div_1_r in E. change (2 * 1) with 2 in E. lia.
  - done.
  - intros j v Hj Hj0. destruct j as [|j]; [lia|]. cbn [lookup list_lookup].
    change (<[length h:=if b then NegInf else PosInf]> (<[length h:=y]> (h ++ [x])) !! j = Some v -> before b v x).
    rewrite list_lookup_insert_ne; [|lia]. rewrite list_lookup_insert_ne; [|lia].
    rewrite lookup_app_l; [|lia]. intros Hv. rewrite Forall_forall in Hb. apply Hb. by eapply elem_of_list_lookup_2.
Qed.
