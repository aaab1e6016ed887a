(** * The steps of a search, over all levels *)
From Coq Require Import Sorted.
From Verif Require Import Base NumOrd ListModel ListRep ListPure ListCore ListCore2 ListOps ListOps2 ListOps3 SkipModel SkipSpec SkipThm SkipThm2 SkipThm3 SkipCostModel SkipCostSpec SkipCostThm.
Local Open Scope py_scope.

Section Framed.
Context {F : frame}.
Lemma hit_count s os G A1 A2 k o a l f b x n y prev fuel c : Split s os G A1 A2 k o a l (f :: b) -> NoDup (lev A1 k) -> x <> NegInf -> below x A1 -> g_val f = PNum x -> (forall y, y ∈ up A2 k -> y = x \/ nlt x y) ->
  NoDup (up A2 k) -> n ∈ a ++ [l] -> last (lev A1 (S k)) = Some y -> g_val n = PNum y -> length (s_nodes s) < fuel ->
  search_sorted_c fuel prev (g_loc n) (PNum x) c s = Ok (Some (g_loc l), g_loc f, c + S (passed k A1)) s.
Proof.
  intros [Ho Hg Hr Ha Hb] Hndl Hx H1 Hfx H2 Hnd Hn HL Hv Hf. apply elem_of_list_split in Hn as (a1 & a2 & E).
  assert (a ++ l :: f :: b = a1 ++ n :: (a2 ++ [f]) ++ b) as E'. { change (l :: f :: b) with ([l] ++ f :: b). rewrite app_assoc, E. by rewrite <- !app_assoc. }
  rewrite E' in Hr. erewrite sorted_count; [|exact Hr| | |].
  - rewrite prevof_snoc, lastof_snoc. f_equal. f_equal; [f_equal|].
    + f_equal. f_equal. destruct (lastof_app a1 n a2) as (a' & E2). rewrite <- E in E2. by apply app_inj_tail in E2 as [_ <-].
    + f_equal. rewrite E in Ha. rewrite map_app in Ha. change (vals a1 ++ g_val n :: vals a2 = map PNum (lev A1 k)) in Ha. symmetry in Ha. apply map_eq_app in Ha as (l1 & l2' & El & _ & E2).
      destruct l2' as [|y' l2]; [done|]. cbn in E2. injection E2 as Ey E2. rewrite Hv in Ey. injection Ey as ->.
      rewrite app_length. cbn [length]. rewrite Nat.add_1_r. f_equal. rewrite <- (map_length g_val a2), <- E2, map_length. by eapply passed_ok.
  - apply Forall_app. split.
    + apply Forall_forall. intros d Hd. destruct (vals_num _ _ d Ha) as (z & Ez & Hz); [rewrite E; set_solver|]. exists z. split; [done|]. apply nlt_leb. by eapply lev_below.
    + apply Forall_singleton. exists x. split; [done|]. unfold num_leb. destruct (num_ltb x x) eqn:Exx; [|done]. by apply nlt_irrefl in Exx.
  - destruct (up A2 k) as [|x' ys]; [done|]. cbn in Hb. injection Hb as Ef Eb. rewrite Hfx in Ef. injection Ef as <-.
    apply NoDup_cons in Hnd as [Hni _]. eapply bound_head; [exact Eb|]. intros z Hz. destruct (H2 z) as [->|]; [by right|done|done].
  - apply rep_size in Hr. rewrite app_length in Hr. cbn in Hr. rewrite !app_length in Hr. cbn in *. rewrite app_length. cbn. lia.
Qed.
Lemma split_last s os G A1 A2 k o a l b y : Split s os G A1 A2 k o a l b -> last (lev A1 k) = Some y -> g_val l = PNum y.
Proof.
  intros [_ _ _ Ha _] HL. apply (f_equal last) in Ha. rewrite map_app in Ha. cbn [map] in Ha. rewrite last_snoc in Ha.
  change (map PNum (lev A1 k)) with (PNum <$> lev A1 k) in Ha. rewrite fmap_last, HL in Ha. by injection Ha.
Qed.
Lemma lev_last A k : exists y, last (lev A k) = Some y.
Proof. destruct (last (lev A k)) as [y|] eqn:E; [by exists y|]. by apply last_None in E. Qed.
Lemma rep_nodup_lev s os G A1 A2 k : Rep s os G (A1 ++ A2) -> NoDup (lev A1 k).
Proof.
  intros H. apply NoDup_cons. split.
  - intros (h & Hin & _)%up_in. pose proof (r_neg _ _ _ _ H) as HN. rewrite Forall_forall in HN. apply (HN (NegInf, h)); [set_solver|done].
  - apply up_nodup. pose proof (sorted_nodup _ (r_sort _ _ _ _ H)) as Hnd. unfold elems in Hnd. rewrite map_app in Hnd. by apply NoDup_app in Hnd as (? & _ & _).
Qed.
(** One round. *)
Lemma loop_down_count s os G A1 A2 j o a l b o' a' l' b' n y N x prev acc fuel c d : Rep s os G (A1 ++ A2) -> x <> NegInf -> below x A1 ->
  (forall y, y ∈ up A2 (S j) -> nlt x y) -> (forall y, y ∈ up A2 j -> ~ nlt y x) ->
  Split s os G A1 A2 (S j) o a l b -> Split s os G A1 A2 j o' a' l' b' -> n ∈ a ++ [l] -> last (lev A1 (S (S j))) = Some y -> g_val n = PNum y -> prev_ok (a ++ [l]) prev ->
  exists prev' m y', m ∈ a' ++ [l'] /\ last (lev A1 (S j)) = Some y' /\ g_val m = PNum y' /\ prev_ok (a' ++ [l']) prev' /\
    search_loop_c (S fuel) N prev (g_loc n) (PNum x) acc c d s = search_loop_c fuel N prev' (g_loc m) (PNum x) (acc ++ [g_loc l]) (c + passed (S j) A1) (S d) s.
Proof.
  intros H Hx H1 H2 H3 HS HS' Hn HL Hv Hp. pose proof (sp_rep _ _ _ _ _ _ _ _ _ _ HS) as Hr.
  assert (n ∈ a ++ l :: b) as Hn' by set_solver. assert (l ∈ a ++ l :: b) as Hl' by set_solver.
  destruct (split_down _ _ _ _ _ _ _ _ _ _ _ _ _ _ n x H Hx H1 H3 HS HS' Hn) as (m & _ & Hdn & _).
  destruct (split_down _ _ _ _ _ _ _ _ _ _ _ _ _ _ l x H Hx H1 H3 HS HS') as (ml & Hml & Hdl & Hvl); [set_solver|].
  destruct (pass_count _ _ _ _ _ _ _ _ _ _ x n y prev (S (length (s_nodes s))) c HS (rep_nodup_lev _ _ _ _ _ _ H) Hx H1 H2 Hn HL Hv Hp) as (p' & Es & Hp'); [lia|].
  assert (exists prev', (match p' with Some p => get_down p | None => ret None end) s = Ok prev' s /\ prev_ok (a' ++ [l']) prev') as (prev' & Ep & Hpp).
  { destruct p' as [p|]; [|by exists None]. destruct Hp' as (q & Hq & <-).
    destruct (split_down _ _ _ _ _ _ _ _ _ _ _ _ _ _ q x H Hx H1 H3 HS HS' Hq) as (mq & Hmq & Hdq & _).
    exists (Some (g_loc mq)). split; [|by exists mq]. rewrite <- Hdq. eapply get_down_in; [exact Hr|set_solver]. }
  destruct (lev_last A1 (S j)) as (y' & Hy').
  exists prev', ml, y'. split; [done|]. split; [done|]. split; [rewrite Hvl; by eapply split_last|]. split; [done|]. cbn [search_loop_c].
  rewrite (bind_ok get_fuel _ s (S (length (s_nodes s))) s eq_refl). rewrite (bind_ok _ _ _ _ _ (get_down_in _ _ _ _ Hr Hn')), Hdn.
  rewrite (bind_ok _ _ _ _ _ Es). cbn [fst snd]. rewrite (bind_ok _ _ _ _ _ (get_data_in _ _ _ _ Hr Hl')).
  destruct (vals_num _ _ l (sp_a _ _ _ _ _ _ _ _ _ _ HS)) as (z & Ez & Hz); [set_solver|]. rewrite Ez, py_eq_num, bool_decide_eq_false_2.
  2:{ intros ->. by eapply nlt_irrefl, lev_below. }
  rewrite (bind_ok _ _ _ _ _ (get_down_in _ _ _ _ Hr Hl')), Hdl. rewrite (bind_ok _ _ _ _ _ Ep). done.
Qed.
(** From level [k + d] down to level [k]. *)
Lemma loop_descend_count s os G A1 A2 N x k fuel : Rep s os G (A1 ++ A2) -> x <> NegInf -> below x A1 ->
  (forall y, y ∈ up A2 0 -> ~ nlt y x) -> (forall y, y ∈ up A2 (S k) -> nlt x y) ->
  forall d o a l b n y prev acc c e o' a' l' b',
  Split s os G A1 A2 (k + d) o a l b -> Split s os G A1 A2 k o' a' l' b' -> n ∈ a ++ [l] -> last (lev A1 (S (k + d))) = Some y -> g_val n = PNum y -> prev_ok (a ++ [l]) prev ->
  exists prev' m y' acc', m ∈ a' ++ [l'] /\ last (lev A1 (S k)) = Some y' /\ g_val m = PNum y' /\ prev_ok (a' ++ [l']) prev' /\ length acc' = d /\
    search_loop_c (d + fuel) N prev (g_loc n) (PNum x) acc c e s = search_loop_c fuel N prev' (g_loc m) (PNum x) (acc ++ acc') (c + passed_from A1 (S k) d) (e + d) s.
Proof.
  intros H Hx H1 H2 H3. induction d as [|d IH]; intros o a l b n y prev acc c e o' a' l' b' HS HS' Hn HL Hv Hp.
  - rewrite Nat.add_0_r in HS, HL. assert (a ++ l :: b = a' ++ l' :: b') as E.
    { pose proof (sp_g _ _ _ _ _ _ _ _ _ _ HS) as E1. rewrite (sp_g _ _ _ _ _ _ _ _ _ _ HS') in E1. by injection E1. }
    assert (a ++ [l] = a' ++ [l']) as E2.
    { change (l :: b) with ([l] ++ b) in E. change (l' :: b') with ([l'] ++ b') in E. rewrite !app_assoc in E.
      apply app_inj_1 in E as [? _]; [done|]. rewrite <- !(map_length g_val (_ ++ _)). by rewrite (sp_a _ _ _ _ _ _ _ _ _ _ HS), (sp_a _ _ _ _ _ _ _ _ _ _ HS'). }
    exists prev, n, y, []. rewrite <- E2, app_nil_r. split_and!; try done. cbn. by rewrite !Nat.add_0_r.
  - replace (k + S d) with (S (k + d)) in HS, HL by lia.
    assert (k + d < length G) as Hlt. { apply sp_g, lookup_lt_Some in HS. lia. }
    destruct (Rep_split s os G A1 A2 (k + d) H Hlt) as (o2 & a2 & l2 & b2 & HS2).
    destruct (loop_down_count s os G A1 A2 (k + d) o a l b o2 a2 l2 b2 n y N x prev acc (d + fuel) c e H Hx H1) as (prev2 & m2 & y2 & Hm2 & HL2 & Hv2 & Hp2 & E); try done.
    { intros z Hz. apply H3. eapply up_mono; [done|lia]. }
    { intros z Hz. apply H2. eapply up_mono; [done|lia]. }
    destruct (IH _ _ _ _ m2 y2 prev2 (acc ++ [g_loc l]) (c + passed (S (k + d)) A1) (S e) _ _ _ _ HS2 HS' Hm2 HL2 Hv2 Hp2) as (prev' & m & y' & acc' & Hm & HL' & Hv' & Hp' & Hl & E').
    exists prev', m, y', (g_loc l :: acc'). split_and!; try done; [cbn; lia|].
    cbn [Nat.add]. rewrite E, E', <- app_assoc. cbn [app]. f_equal; [|lia].
    unfold passed_from. rewrite seq_S, map_app. cbn [map]. assert (forall l x, sum_list (l ++ [x]) = sum_list l + x) as ->.
    { clear. intros l x. induction l as [|y l IH]; [cbn; unfold id; lia|]. cbn [app]. rewrite !sum_list_cons, IH. lia. }
    replace (S k + d) with (S (k + d)) by lia. lia.
Qed.
Lemma search_to_count self ks r os G A1 A2 x k : Inv self ks r os G (A1 ++ A2) -> x <> NegInf -> below x A1 ->
  (forall y, y ∈ up A2 0 -> ~ nlt y x) -> (forall y, y ∈ up A2 (S k) -> nlt x y) -> k < length G ->
  exists prev m y acc o a l b f, Split (k_st ks) os G A1 A2 k o a l b /\ m ∈ a ++ [l] /\ last (lev A1 (S k)) = Some y /\ g_val m = PNum y /\ prev_ok (a ++ [l]) prev /\ length acc = length G - 1 - k /\
    search_c self (PNum x) ks = lift (search_loop_c (S f) (length G) prev (g_loc m) (PNum x) acc (passed_from A1 (S k) (length G - 1 - k)) (length G - 1 - k)) ks.
Proof.
  intros H Hx H1 H2 H3 Hk. pose proof (i_rep _ _ _ _ _ _ H) as HR.
  destruct (Rep_split _ _ _ _ _ (length G - 1) HR) as (o & a & l & b & HS); [lia|].
  destruct (Rep_split _ _ _ _ _ k HR Hk) as (o' & a' & l' & b' & HS').
  assert (exists n, hd_loc (a ++ l :: b) None = Some (g_loc n) /\ n ∈ a ++ [l] /\ g_val n = PNum NegInf) as (n & Hn & Hn' & Hv).
  { pose proof (sp_a _ _ _ _ _ _ _ _ _ _ HS) as Ha. destruct a as [|n a]; [exists l|exists n]; cbn in Ha |- *; injection Ha as Ha _; split_and!; try done; set_solver. }
  assert (last (lev A1 (S (length G - 1))) = Some NegInf) as HL.
  { unfold lev. rewrite up_top; [done|]. replace (S (length G - 1)) with (length G) by lia. pose proof (r_top _ _ _ _ HR) as HT. by apply Forall_app in HT as [HT _]. }
  destruct (loop_descend_count (k_st ks) os G A1 A2 (length G) x k (S (length (s_nodes (k_st ks))) - (length G - 1 - k)) HR Hx H1 H2 H3 (length G - 1 - k) o a l b n NegInf None [] 0 0 o' a' l' b')
    as (prev & m & y & acc & Hm & HLm & Hvm & Hp & Hl & E); try done.
  { by replace (k + (length G - 1 - k)) with (length G - 1) by lia. }
  { by replace (k + (length G - 1 - k)) with (length G - 1) by lia. }
  pose proof (levels_bound _ _ _ _ HR) as Hb.
  exists prev, m, y, acc, o', a', l', b', (length (s_nodes (k_st ks)) - (length G - 1 - k)). split_and!; try done.
  unfold search_c. rewrite (bind_ok _ _ _ _ _ (num_levels_ok _ _ _ _ _ _ H)). rewrite (bind_ok _ _ _ _ _ (level_list_ok _ _ _ _ _ _ _ _ H (sp_o _ _ _ _ _ _ _ _ _ _ HS))).
  destruct (head_ok _ _ _ (sp_rep _ _ _ _ _ _ _ _ _ _ HS)) as (ob & Hob & Hh); [by destruct a|].
  unfold lift at 1. rewrite (bind_ok _ _ _ _ _ Hob), Hh, Hn. cbn [deref]. unfold ret at 1, bind at 1. unfold get_fuel at 1, bind at 1.
  replace (S (length (s_nodes (k_st ks)))) with ((length G - 1 - k) + (S (length (s_nodes (k_st ks))) - (length G - 1 - k))) by lia.
  rewrite E. cbn [app Nat.add]. replace (S (length (s_nodes (k_st ks))) - (length G - 1 - k)) with (S (length (s_nodes (k_st ks)) - (length G - 1 - k))) by lia. done.
Qed.
Lemma passed_from_split A k n : passed_from A k (S n) = passed k A + passed_from A (S k) n.
Proof. done. Qed.
Lemma absent_count self ks r os G A1 A2 x : Inv self ks r os G (A1 ++ A2) -> x <> NegInf -> below x A1 -> above x A2 ->
  exists res, search_c self (PNum x) ks = Ok (res, (visible (map snd A1), length G - 1)) ks.
Proof.
  intros H Hx H1 H2. pose proof (i_rep _ _ _ _ _ _ H) as HR. pose proof (r_pos _ _ _ _ HR) as Hpos.
  destruct (search_to_count self ks r os G A1 A2 x 0 H Hx H1) as (prev & m & y & acc & o & a & l & b & f & HS & Hm & HL & Hv & Hp & Hl & E).
  { intros z Hz Hlt. eapply nlt_irrefl, nlt_trans; [exact Hlt|]. by eapply up_above. }
  { intros z Hz. by eapply up_above. }
  { done. }
  pose proof (sp_rep _ _ _ _ _ _ _ _ _ _ HS) as Hr.
  destruct (pass_count _ _ _ _ _ _ _ _ _ _ x m y prev (S (length (s_nodes (k_st ks)))) (passed_from A1 1 (length G - 1)) HS (rep_nodup_lev _ _ _ _ _ _ HR) Hx H1) as (p' & Es & _); try done.
  { intros z Hz. by eapply up_above. }
  { lia. }
  eexists. rewrite E, Nat.sub_0_r. apply lift_ok0. cbn [search_loop_c]. unfold get_fuel at 1, bind at 1.
  erewrite bind_ok; [|eapply get_down_in; [exact Hr|set_solver]].
  pose proof (r_down _ _ _ _ HR 0 _ (sp_g _ _ _ _ _ _ _ _ _ _ HS)) as HD. cbn in HD. rewrite Forall_forall in HD. rewrite (HD m) by set_solver.
  rewrite (bind_ok _ _ _ _ _ Es). rewrite Hl, Nat.sub_0_r, Nat.eqb_refl. cbn [py_assert]. unfold bind, ret. cbn [fst snd].
  rewrite (visible_passed A1 (length G)); [|pose proof (r_top _ _ _ _ HR) as HT; by apply Forall_app in HT as [? _]].
  replace (length G) with (S (length G - 1)) at 3 by lia. rewrite passed_from_split, Nat.add_comm. done.
Qed.
Lemma passed_snoc k x h A : passed k (A ++ [(x, h)]) = if decide (k < h) then 0 else (if decide (k = h) then 1 else 0) + passed k A.
Proof.
  induction A as [|[y j] A IH].
  - cbn [app passed]. rewrite Nat.add_0_r. destruct (decide (k < h)); [rewrite bool_decide_eq_false_2; [done|intros [-> _]; lia]|]. destruct (decide (k = h)) as [->|]; [by rewrite bool_decide_eq_true_2|]. rewrite bool_decide_eq_false_2; [done|]. intros [-> _]. done.
  - cbn [app passed]. rewrite IH. destruct (decide (k < h)).
    + rewrite bool_decide_eq_false_2; [done|]. intros [_ HF]. apply Forall_app in HF as [_ HF]. rewrite Forall_singleton in HF. cbn in HF. lia.
    + assert (bool_decide (j = k /\ Forall (fun p => p.2 <= k) (A ++ [(x, h)])) = bool_decide (j = k /\ Forall (fun p => p.2 <= k) A)) as ->; [|lia].
      apply bool_decide_ext. rewrite Forall_app, Forall_singleton. cbn. split; [tauto|]. intros [? ?]. split_and!; try done. lia.
Qed.
Lemma visible_snoc x h A K : Forall (fun p => p.2 < K) A -> h < K -> visible (map snd (A ++ [(x, h)])) = S (passed_from A h (K - h)).
Proof.
  intros HA Hh. rewrite (visible_passed _ K); [|by apply Forall_app; split; [|apply Forall_singleton]].
  assert (forall n m, n + m = h -> passed_from (A ++ [(x, h)]) n (m + (K - h)) = S (passed_from A h (K - h))) as HQ.
  { intros n m. revert n. induction m as [|m IH]; intros n Hn.
    - assert (n = h) as -> by lia. cbn [Nat.add]. replace (K - h) with (S (K - h - 1)) by lia. rewrite !passed_from_split, passed_snoc, decide_False, decide_True by lia. cbn [Nat.add]. f_equal. f_equal.
      unfold passed_from. f_equal. apply map_ext_in. intros i Hi%elem_of_list_In. apply elem_of_seq in Hi. rewrite passed_snoc, !decide_False by lia. done.
    - cbn [Nat.add]. rewrite passed_from_split, IH by lia. rewrite passed_snoc, decide_True by lia. done. }
  rewrite <- (HQ 0 h eq_refl). f_equal. lia.
Qed.
Lemma present_count self ks r os G A1 A2 x h : Inv self ks r os G (A1 ++ (x, h) :: A2) -> x <> NegInf -> below x A1 -> above x A2 ->
  exists res, search_c self (PNum x) ks = Ok (res, (visible (map snd (A1 ++ [(x, h)])), length G - 1 - h)) ks.
Proof.
  intros H Hx H1 H2. pose proof (i_rep _ _ _ _ _ _ H) as HR.
  assert (Forall (fun p => p.2 < length G) A1 /\ h < length G) as [HA1 Hh]. { pose proof (r_top _ _ _ _ HR) as HT. apply Forall_app in HT as [? HT]. by apply Forall_cons in HT as [HT _]. }
  assert (forall k y, y ∈ up ((x, h) :: A2) k -> y = x \/ nlt x y) as H3.
  { intros k y. rewrite up_cons. intros [Hy|Hy]%elem_of_app; [left|right; by eapply up_above]. destruct (decide (k <= h)); set_solver. }
  destruct (search_to_count self ks r os G A1 ((x, h) :: A2) x h H Hx H1) as (prev & m & y & acc & o & a & l & b & f & HS & Hm & HL & Hv & Hp & Hl & E).
  { intros z Hz Hlt. destruct (H3 0 z Hz) as [->|Hlt']; [by eapply nlt_irrefl|]. eapply nlt_irrefl, nlt_trans; [exact Hlt|done]. }
  { intros z. rewrite up_cons, decide_False by lia. intros Hz. by eapply up_above. }
  { done. }
  pose proof (sp_b _ _ _ _ _ _ _ _ _ _ HS) as Hb. rewrite up_cons, decide_True in Hb by done. destruct b as [|fd b]; [done|]. cbn in Hb. injection Hb as Hfd Hb.
  pose proof (sp_rep _ _ _ _ _ _ _ _ _ _ HS) as Hr.
  assert (NoDup (up ((x, h) :: A2) h)) as Hnd.
  { apply up_nodup. pose proof (sorted_nodup _ (r_sort _ _ _ _ HR)) as Hnd. unfold elems in Hnd. rewrite map_app in Hnd. by apply NoDup_app in Hnd as (_ & _ & ?). }
  pose proof (hit_count _ _ _ _ _ _ _ _ _ _ _ x m y prev (S (length (s_nodes (k_st ks)))) (passed_from A1 (S h) (length G - 1 - h)) HS (rep_nodup_lev _ _ _ _ _ _ HR) Hx H1 Hfd (H3 h) Hnd Hm HL Hv ltac:(lia)) as Es.
  rewrite (visible_snoc x h A1 (length G)) by done. replace (length G - h) with (S (length G - 1 - h)) by lia. rewrite passed_from_split.
  exists (Some (g_loc l), g_loc fd, if decide (h = 0) then rev acc else acc). rewrite E. apply lift_ok0. cbn [search_loop_c]. unfold get_fuel at 1, bind at 1.
  erewrite bind_ok; [|eapply get_down_in; [exact Hr|set_solver]].
  assert (passed_from A1 (S h) (length G - 1 - h) + S (passed h A1) = S (passed h A1 + passed_from A1 (S h) (length G - 1 - h))) as EC by lia.
  destruct h as [|h].
  - pose proof (r_down _ _ _ _ HR 0 _ (sp_g _ _ _ _ _ _ _ _ _ _ HS)) as HD. cbn in HD. rewrite Forall_forall in HD. rewrite (HD m) by set_solver.
    rewrite (bind_ok _ _ _ _ _ Es). rewrite Hl, EC. rewrite Nat.sub_0_r, Nat.eqb_refl. done.
  - destruct (lookup_lt_is_Some_2 G h) as [g' Hg']; [lia|].
    pose proof (r_down _ _ _ _ HR (S h) _ (sp_g _ _ _ _ _ _ _ _ _ _ HS) _ Hg') as HD. rewrite Forall_forall in HD. destruct (HD m) as (m' & _ & _ & ->); [set_solver|].
    rewrite (bind_ok _ _ _ _ _ Es). rewrite EC. cbn [fst snd]. erewrite bind_ok; [|eapply get_data_in; [exact Hr|set_solver]].
    rewrite Hfd, py_eq_num, bool_decide_eq_true_2 by done. done.
Qed.
(** What the search costs in a SkipList that holds [A]. *)
Lemma heads_below x A : below x A -> heads_upto x A = map snd A.
Proof. induction 1 as [|[y h] A Hy HA IH]; [done|]. unfold heads_upto in *. rewrite filter_cons. cbn in Hy |- *. rewrite decide_True by (by apply nlt_leb). cbn. by rewrite IH. Qed.
Lemma heads_above x A : above x A -> heads_upto x A = [].
Proof. induction 1 as [|[y h] A Hy HA IH]; [done|]. unfold heads_upto in *. rewrite filter_cons. cbn in Hy |- *. rewrite decide_False by (by rewrite (nlt_nleb _ _ Hy)). done. Qed.
Lemma heads_app x A B : heads_upto x (A ++ B) = heads_upto x A ++ heads_upto x B.
Proof. unfold heads_upto. by rewrite filter_app, map_app. Qed.
Lemma heads_cons x h A : heads_upto x ((x, h) :: A) = h :: heads_upto x A.
Proof. unfold heads_upto. rewrite filter_cons. cbn. rewrite decide_True; [done|]. unfold num_leb. destruct (num_ltb x x) eqn:E; [|done]. by apply nlt_irrefl in E. Qed.
Lemma good_count self ks A x : Good self ks A -> x <> NegInf ->
  exists res d, search_c self (PNum x) ks = Ok (res, (visible (heads_upto x A), d)) ks /\
    (x ∉ elems A -> d = theight A - 1) /\ (forall h, (x, h) ∈ A -> d = theight A - 1 - h).
Proof.
  intros (r & os & G & HI & Hh) Hx. destruct (tower_cases x A (r_sort _ _ _ _ (i_rep _ _ _ _ _ _ HI))) as [(A1 & A2 & -> & H1 & H2 & _)|(A1 & h & A2 & -> & H1 & H2 & _)].
  - destruct (absent_count _ _ _ _ _ _ _ _ HI Hx H1 H2) as (res & E). exists res, (length G - 1). rewrite E, Hh, heads_app, (heads_below _ _ H1), (heads_above _ _ H2), app_nil_r. split_and!; try done.
    intros h [Hin|Hin]%elem_of_app; exfalso; [apply (proj1 (Forall_forall _ _) H1) in Hin|apply (proj1 (Forall_forall _ _) H2) in Hin]; by apply nlt_irrefl in Hin.
  - destruct (present_count _ _ _ _ _ _ _ _ _ HI Hx H1 H2) as (res & E). exists res, (length G - 1 - h). rewrite E, Hh, heads_app, heads_cons, (heads_below _ _ H1), (heads_above _ _ H2), map_app. split_and!; try done.
    + intros Hni. exfalso. apply Hni. unfold elems. rewrite map_app. set_solver.
    + intros h' [Hin|[[= ->]|Hin]%elem_of_cons]%elem_of_app; [|done|]; exfalso; [apply (proj1 (Forall_forall _ _) H1) in Hin|apply (proj1 (Forall_forall _ _) H2) in Hin]; by apply nlt_irrefl in Hin.
Qed.
End Framed.
