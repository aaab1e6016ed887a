(** * The steps of a search *)
From Coq Require Import Sorted.
From Verif Require Import Base NumOrd ListModel ListRep ListPure ListCore ListCore2 ListOps ListOps2 ListOps3 SkipModel SkipSpec SkipThm SkipCostModel SkipCostSpec.
Local Open Scope py_scope.

(** ** The counts change nothing *)
Definition erase {S A B} (m : M S (A * B)) : M S A := let! r := m in ret r.1.
Lemma erase_bind {S A B C} (m : M S A) (k1 : A -> M S (B * C)) (k2 : A -> M S B) s :
  (forall a s', erase (k1 a) s' = k2 a s') -> erase (let! a := m in k1 a) s = (let! a := m in k2 a) s.
Proof. intros H. unfold erase, bind at 1 2 3. destruct (m s) as [a s'|e s'|]; [|done|done]. apply H. Qed.
Lemma erase_through {S A B C D} (m : M S (A * D)) (m' : M S A) (k1 : A * D -> M S (B * C)) (k2 : A -> M S B) s :
  (forall s, erase m s = m' s) -> (forall a d s', erase (k1 (a, d)) s' = k2 a s') -> erase (let! a := m in k1 a) s = (let! a := m' in k2 a) s.
Proof.
  intros H1 H. specialize (H1 s). unfold erase, bind in H1 |- *. rewrite <- H1. destruct (m s) as [[a d] s'|e s'|]; [|done|done]. apply H.
Qed.
Lemma sorted_erase fuel : forall prev curr v k s, erase (search_sorted_c fuel prev curr v k) s = search_sorted fuel prev curr v s.
Proof.
  induction fuel as [|f IH]; intros prev curr v k s; [done|]. cbn [search_sorted search_sorted_c].
  apply erase_bind. intros [n|] s1; [|done]. apply erase_bind. intros d s2. apply erase_bind. intros [] s3; [|done]. apply IH.
Qed.
Lemma loop_erase fuel N : forall prev start v acc k d s, erase (search_loop_c fuel N prev start v acc k d) s = search_loop fuel N prev start v acc s.
Proof.
  induction fuel as [|f IH]; intros prev start v acc k d s; [done|]. cbn [search_loop search_loop_c].
  apply erase_bind. intros fu s1. apply erase_bind. intros [dn|] s2.
  - apply erase_through; [intros; apply sorted_erase|]. intros [p c] k' s3. cbn [fst snd]. apply erase_bind. intros y s4. destruct (py_eq y v); [done|].
    apply erase_bind. intros a s5. apply erase_bind. intros b s6. apply erase_bind. intros e s7. apply IH.
  - apply erase_through; [intros; apply sorted_erase|]. intros [p c] k' s3. cbn [fst snd]. apply erase_bind. intros u s4. unfold erase, bind, ret. cbn. reflexivity.
Qed.
Lemma erase_lift {A B} (m : M st (A * B)) (m' : M st A) s : (forall s, erase m s = m' s) -> erase (lift m) s = lift m' s.
Proof. intros H. specialize (H (k_st s)). unfold erase, lift, bind in *. rewrite <- H. by destruct (m (k_st s)) as [[a b] s'|e s'|]. Qed.
Lemma search_erase self v s : erase (search_c self v) s = search self v s.
Proof.
  unfold search, search_c. apply erase_bind. intros n s1. apply erase_bind. intros top s2.
  apply erase_lift. intros s3. apply erase_bind. intros o s4. apply erase_bind. intros start s5. apply erase_bind. intros fu s6. apply loop_erase.
Qed.

(** ** One level *)
Lemma sorted_count s o x b : forall m a n prev fuel k, rep CLL s o (a ++ n :: m ++ b) ->
  Forall (fun c => exists y, g_val c = PNum y /\ num_leb y x = true) m ->
  match b with [] => True | c :: _ => exists y, g_val c = PNum y /\ num_leb y x = false end ->
  length m < fuel ->
  search_sorted_c fuel prev (g_loc n) (PNum x) k s = Ok (prevof prev n m, g_loc (lastof n m), k + length m) s.
Proof.
  induction m as [|c m IH]; intros a n prev fuel k Hr Hm Hb Hf; (destruct fuel as [|fuel]; [cbn in Hf; lia|]); cbn [search_sorted_c];
    rewrite (bind_ok _ _ _ _ _ (get_next_ok _ _ _ _ _ Hr)); cbn [app hd_loc].
  - cbn [length]. rewrite Nat.add_0_r. destruct b as [|c b]; [done|]. cbn [hd_loc]. change (a ++ n :: [] ++ c :: b) with (a ++ [n] ++ c :: b) in Hr. rewrite app_assoc in Hr.
    rewrite (bind_ok _ _ _ _ _ (get_data_ok _ _ _ _ _ Hr)). destruct Hb as (y & -> & Hle). cbn [py_leb]. rewrite Hle. done.
  - change (a ++ n :: (c :: m) ++ b) with (a ++ [n] ++ c :: m ++ b) in Hr. rewrite app_assoc in Hr.
    rewrite (bind_ok _ _ _ _ _ (get_data_ok _ _ _ _ _ Hr)). apply Forall_cons in Hm as [(y & -> & Hle) Hm]. cbn [py_leb]. rewrite Hle.
    cbn [bind ret]. unfold bind, ret. cbn [length] in Hf. erewrite IH; [|exact Hr|done|done|lia]. cbn [prevof lastof length]. by rewrite Nat.add_succ_r.
Qed.
(** The values with exactly [k] heads and no more behind them. *)
Fixpoint passed (k : nat) (A : towers) : nat :=
  match A with
  | [] => 0
  | (y, h) :: A' => (if bool_decide (h = k /\ Forall (fun p => p.2 <= k) A') then 1 else 0) + passed k A'
  end.
(** From the last value of the level above the search passes these. *)
Lemma passed_ok k : forall A z l1 y l2, z :: up A k = l1 ++ y :: l2 -> NoDup (z :: up A k) -> last (z :: up A (S k)) = Some y -> length l2 = passed k A.
Proof.
  induction A as [|[w h] A IH]; intros z l1 y l2 E Hnd HL.
  - cbn in *. injection HL as ->. destruct l1 as [|a l1]; [by injection E as <-|]. cbn in E. injection E as _ E. by destruct l1.
  - cbn [passed]. rewrite up_cons in E, Hnd, HL. destruct (decide (S k <= h)) as [H1|H1].
    + rewrite decide_True in E, Hnd by lia. rewrite bool_decide_eq_false_2 by lia. cbn [app] in *.
      assert (y ∈ w :: up A k) as Hy.
      { change (last (z :: w :: up A (S k))) with (last (w :: up A (S k))) in HL. apply last_Some_elem_of in HL. apply elem_of_cons in HL as [->|Hy]; [by left|right]. eapply up_mono; [exact Hy|lia]. }
      destruct l1 as [|a l1]; [cbn in E; injection E as -> E; by apply NoDup_cons in Hnd as [? _]|]. cbn in E. injection E as <- E. apply NoDup_cons in Hnd as [_ Hnd]. by eapply (IH w l1 y l2).
    + destruct (decide (k <= h)) as [H2|H2].
      * assert (h = k) as -> by lia. cbn [app] in *. destruct (up A (S k)) as [|u us] eqn:Eu.
        -- cbn in HL. injection HL as <-. assert (Forall (fun p => p.2 <= k) A) as HF.
           { apply Forall_forall. intros [q j] Hin. cbn. destruct (decide (S k <= j)) as [Hj|]; [|lia]. assert (q ∈ up A (S k)) as Hq by (apply up_in; eauto). rewrite Eu in Hq. by apply elem_of_nil in Hq. }
           rewrite bool_decide_eq_true_2 by done.
           assert (l1 = []) as ->. { destruct l1 as [|a l1]; [done|]. cbn in E. injection E as <- E. apply NoDup_cons in Hnd as [Hz _]. exfalso. apply Hz. rewrite E. set_solver. }
           cbn in E. injection E as <-. cbn. rewrite (IH z [] z (up A k)); [done|done| |done].
           apply NoDup_cons in Hnd as [Hz Hnd]. apply NoDup_cons in Hnd as [_ Hnd]. apply NoDup_cons. split; [set_solver|done].
        -- rewrite bool_decide_eq_false_2.
           2:{ intros [_ HF]. assert (u ∈ up A (S k)) as (j & Hin & Hj)%up_in by (rewrite Eu; left). rewrite Forall_forall in HF. specialize (HF _ Hin). cbn in HF. lia. }
           assert (y ∈ up A (S k)) as Hy. { rewrite Eu. change (last (z :: u :: us)) with (last (u :: us)) in HL. by apply last_Some_elem_of in HL. }
           assert (y ∈ up A k) as Hy' by (eapply up_mono; [exact Hy|lia]).
           apply NoDup_cons in Hnd as [Hz Hnd]. apply NoDup_cons in Hnd as [Hw Hnd].
           destruct l1 as [|a l1]; [cbn in E; injection E as -> E; set_solver|]. cbn in E. injection E as <- E.
           destruct l1 as [|a l1]; [cbn in E; injection E as -> E; set_solver|]. cbn in E. injection E as <- E.
           cbn. apply (IH z (z :: l1) y l2); [by rewrite E|apply NoDup_cons; split; [set_solver|done]|]. done.
      * rewrite bool_decide_eq_false_2 by lia. cbn [app] in *. by eapply IH.
Qed.
Definition passed_from (A : towers) (k n : nat) : nat := sum_list (map (fun i => passed i A) (seq k n)).
Lemma sum_list_cons a l : sum_list (a :: l) = a + sum_list l.
Proof. done. Qed.
Lemma visible_passed A : forall K, Forall (fun p => p.2 < K) A -> visible (map snd A) = passed_from A 0 K.
Proof.
  unfold passed_from. induction A as [|[y h] A IH]; intros K HK.
  - clear. cbn [map visible]. generalize 0 at 2. induction K as [|K IH]; intros n; [done|]. cbn [seq map]. change (0 = passed n [] + sum_list (map (fun i => passed i []) (seq (S n) K))). by rewrite <- IH.
  - apply Forall_cons in HK as [Hh HK]. cbn in Hh. cbn [map snd visible]. rewrite (IH K HK). clear IH.
    assert (Forall (fun h' => h' <= h) (map snd A) <-> Forall (fun p => p.2 <= h) A) as Hiff by apply Forall_map.
    assert (forall n K, sum_list (map (fun i => passed i ((y, h) :: A)) (seq n K)) =
      (if bool_decide (n <= h < n + K) then (if bool_decide (Forall (fun p => p.2 <= h) A) then 1 else 0) else 0) + sum_list (map (fun i => passed i A) (seq n K))) as HS.
    { clear. intros n K. revert n. induction K as [|K IH]; intros n; cbn [seq map].
      - rewrite bool_decide_eq_false_2 by lia. done.
      - rewrite !sum_list_cons, IH. cbn [passed]. destruct (decide (h = n)) as [->|Hn].
        + rewrite (bool_decide_eq_false_2 (S n <= n < S n + K)) by lia. rewrite (bool_decide_eq_true_2 (n <= n < n + S K)) by lia.
          assert (bool_decide (n = n /\ Forall (fun p => p.2 <= n) A) = bool_decide (Forall (fun p => p.2 <= n) A)) as -> by (apply bool_decide_ext; tauto). lia.
        + rewrite (bool_decide_eq_false_2 (h = n /\ _)) by tauto.
          assert (bool_decide (S n <= h < S n + K) = bool_decide (n <= h < n + S K)) as -> by (apply bool_decide_ext; lia). lia. }
    rewrite HS, (bool_decide_eq_true_2 (0 <= h < 0 + K)) by lia. f_equal. by rewrite (bool_decide_ext _ _ Hiff).
Qed.

(** ** The whole search *)
Section Framed.
Context {F : frame}.
Lemma pass_count s os G A1 A2 k o a l b x n y prev fuel c : Split s os G A1 A2 k o a l b -> NoDup (lev A1 k) -> x <> NegInf -> below x A1 -> (forall y, y ∈ up A2 k -> nlt x y) ->
  n ∈ a ++ [l] -> last (lev A1 (S k)) = Some y -> g_val n = PNum y -> prev_ok (a ++ [l]) prev -> length (s_nodes s) < fuel ->
  exists p', search_sorted_c fuel prev (g_loc n) (PNum x) c s = Ok (p', g_loc l, c + passed k A1) s /\ prev_ok (a ++ [l]) p'.
Proof.
  intros [Ho Hg Hr Ha Hb] Hnd Hx H1 H2 Hn HL Hv Hp Hf. apply elem_of_list_split in Hn as (a1 & a2 & E).
  assert (a ++ l :: b = a1 ++ n :: a2 ++ b) as E'. { change (l :: b) with ([l] ++ b). rewrite app_assoc, E. by rewrite <- app_assoc. }
  rewrite E' in Hr. exists (prevof prev n a2). split; [|apply prevof_ok; [done|rewrite E; set_solver|rewrite E; set_solver]].
  erewrite sorted_count; [|exact Hr| |by eapply bound_head|].
  - f_equal. f_equal; [f_equal|].
    + f_equal. destruct (lastof_app a1 n a2) as (a' & E2). rewrite <- E in E2. by apply app_inj_tail in E2 as [_ <-].
    + f_equal. rewrite E in Ha. rewrite map_app in Ha. change (vals a1 ++ g_val n :: vals a2 = map PNum (lev A1 k)) in Ha. symmetry in Ha. apply map_eq_app in Ha as (l1 & l2' & El & _ & E2).
      destruct l2' as [|y' l2]; [done|]. cbn in E2. injection E2 as Ey E2. rewrite Hv in Ey. injection Ey as ->.
      rewrite <- (map_length g_val a2), <- E2, map_length. by eapply passed_ok.
  - apply Forall_forall. intros d Hd. destruct (vals_num _ _ d Ha) as (z & Ez & Hz); [rewrite E; set_solver|]. exists z. split; [done|]. apply nlt_leb. by eapply lev_below.
  - apply rep_size in Hr. rewrite app_length in Hr. cbn in Hr. rewrite app_length in Hr. lia.
Qed.
End Framed.
