(** * The work of building a Treap *)
From Coq Require Import Sorted.
From iris.proofmode Require Import proofmode.
From Verif Require Import Base NumOrd TreeModel TreeSpec BstModel BalModel BuildModel BstSpec BstSep BstRules BstZip BstPure BstThm AvlThm SplayThm TreapThm TreapProps BuildProps
  DepthSpec TreapAvgSpec TreapAvgThm TreapAvgThm2 TreapAvgThm3 TreapAvgThm4 TreapAvgProps DepthThm4 BuildCostSpec BuildCostThm TreapBuildSpec.

(** ** The constructor and the insertions *)
Lemma drawn_item_ops vs : forall ps, length ps = length vs -> item_ops (drawn_items vs ps) = with_draws (inserts vs) ps.
Proof.
  induction vs as [|v vs IH]; intros ps Hl; [by destruct ps|]. destruct ps as [|p ps]; [done|]. injection Hl as Hl.
  unfold drawn_items. cbn [zip_with inserts List.map with_draws]. change (item_ops ((PNum v, Z.of_nat p) :: drawn_items vs ps) = TInsert (PNum v) (Drawn (Z.of_nat p)) :: with_draws (inserts vs) ps).
  rewrite -IH //.
Qed.
Lemma drawn_numbers vs : forall ps, all_numbers (drawn_items vs ps).
Proof.
  induction vs as [|v vs IH]; intros ps; [constructor|]. destruct ps as [|p ps]; [constructor|]. constructor; [by eexists|apply IH].
Qed.
Lemma inserts_default vs : default_priorities (inserts vs).
Proof. apply Forall_map, Forall_true. done. Qed.
Lemma inserts_count l : insertions (inserts l) = length l.
Proof. induction l as [|y l IH]; [done|]. change (S (insertions (inserts l)) = S (length l)). by rewrite IH. Qed.
Lemma with_draws_no_removals vs : forall ps, no_removals (with_draws (inserts vs) ps).
Proof.
  induction vs as [|v vs IH]; intros ps; [constructor|]. cbn [inserts List.map with_draws]. destruct ps as [|p ps]; [|constructor; [done|apply IH]].
  constructor; [done|]. apply inserts_no_removals.
Qed.
Lemma drawn_new vs ps : length ps = length vs -> exists rs s t, history CTreap (with_draws (inserts vs) ps) = Some (rs, s) /\
  tree_new CTreap (drawn_items vs ps) = Ok s tt /\ shape s = Some t.
Proof.
  intros Hl. destruct (insertions_set CTreap (with_draws (inserts vs) ps) (with_draws_no_removals vs ps)) as (rs & s & t & E & HA & Es & _).
  exists rs, s, t. split_and!; try done. unfold tree_new.
  rewrite (insert_all_calls CTreap (drawn_items vs ps) _ rs s []); [done|apply drawn_numbers|by rewrite drawn_item_ops|by rewrite drawn_item_ops].
Qed.
(** The nodes met by the insertion of item [i]. *)
Definition met (vs : list num) (ps : list nat) (i : nat) : nat :=
  nodes_on_path (inserts (take i vs)) (default (Fin 0) (vs !! i)) (take i ps).
Lemma met_meets vs ps : length ps = length vs -> drawn_building_meets vs ps (map (met vs ps) (seq 0 (length vs))).
Proof.
  intros Hl. split; [by rewrite map_length seq_length|]. intros i v k Hv Hk. pose proof (lookup_lt_Some _ _ _ Hv).
  apply list_lookup_fmap_inv in Hk as (j & -> & Hj). apply lookup_seq in Hj as [-> _]. cbn.
  destruct (drawn_new (take i vs) (take i ps)) as (rs & s & t & Eh & En & Es); [rewrite !take_length; lia|]. exists s, t. split_and!; try done.
  unfold met, nodes_on_path. by rewrite Hv Eh Es.
Qed.
Lemma meets_met vs ps ks : length ps = length vs -> drawn_building_meets vs ps ks -> ks = map (met vs ps) (seq 0 (length vs)).
Proof.
  intros Hl H. pose proof (met_meets vs ps Hl) as H'. pose proof (proj1 H) as Hl1. pose proof (proj1 H') as Hl2. revert H' Hl2. generalize (map (met vs ps) (seq 0 (length vs))). intros ks' H' Hl2.
  apply list_eq. intros i. destruct (ks !! i) as [k|] eqn:Hk.
  - pose proof (lookup_lt_Some _ _ _ Hk). destruct (lookup_lt_is_Some_2 vs i) as [v Hv]; [lia|]. destruct (lookup_lt_is_Some_2 ks' i) as [k' Hk']; [lia|]. rewrite Hk'.
    destruct (proj2 H i v k Hv Hk) as (s & t & E & Es & Hp). destruct (proj2 H' i v k' Hv Hk') as (s' & t' & E' & Es' & Hp').
    rewrite E in E'. injection E' as <-. rewrite Es in Es'. injection Es' as <-. by rewrite -Hp -Hp'.
  - apply lookup_ge_None in Hk. symmetry. apply lookup_ge_None. lia.
Qed.

(** ** Averages of what the first draws decide *)
Lemma sum_take R i j : forall f, sum (map (fun ps => f (take i ps)) (outcomes R (i + j))) = R ^ j * sum (map f (outcomes R i)).
Proof.
  induction i as [|i IH]; intros f.
  - rewrite (sum_map_ext _ (fun _ => f [])); [|by intros ps _]. rewrite sum_map_const outcomes_length Nat.add_0_l. change (outcomes R 0) with [@nil nat].
    cbn [List.map]. rewrite sum_cons. change (sum []) with 0. lia.
  - rewrite !sum_outcomes_S -sum_map_mul. apply sum_map_ext. intros p _.
    rewrite (sum_map_ext _ (fun ps => f (p :: take i ps))); [|done]. apply (IH (fun ps => f (p :: ps))).
Qed.
Lemma draws_len n ps : ps ∈ draws n -> length ps = n.
Proof. by intros [? _]%outcomes_elem. Qed.

(** ** A second increasing run below the first: what is above and greater stays so *)
Fixpoint rights (x : num) (T : ptree) : nat :=
  match T with Nil => 0 | Bin l ix u => if num_ltb x (p_val ix.2) then S (rights x l) else rights x u end.
Definition inls (K : ctx) : nat := length (filter (fun f => isl f = true) K).
Definition toward (x : num) (K : ctx) : Prop := Forall (fun f => num_ltb x (p_val (fnode f).2) = isl f) K.
Lemma rights_path x T : x ∉ ino T -> rights x T <= path x (values (bin_map snd T)).
Proof.
  induction T as [|l IHl ix u IHu]; intros Hx; [done|]. cbn [ino] in Hx. rewrite elem_of_app elem_of_cons in Hx. unfold values in *. cbn [bin_map path rights].
  rewrite decide_False; [|tauto]. destruct (num_ltb x (p_val ix.2)); [specialize (IHl ltac:(tauto))|specialize (IHu ltac:(tauto))]; lia.
Qed.
Lemma rights_plug x K : forall t, toward x K -> rights x (plug K t) = inls K + rights x t.
Proof.
  induction K as [|f K IH]; intros t H; [done|]. apply Forall_cons in H as [Hf H]. cbn [plug]. rewrite IH //. unfold inls. rewrite filter_cons.
  destruct f as [ix v|v ix]; cbn [fill rights isl fnode] in *; rewrite Hf; case_decide; try done; cbn [length]; lia.
Qed.
Lemma rights_tup x K : forall l jy u, toward x K -> num_ltb x (p_val jy.2) = false -> rights x (tup K l jy u) = inls K + rights x u.
Proof.
  induction K as [|f K IH]; intros l jy u H Hj; [cbn; by rewrite Hj|].
  destruct f as [ix v|v ix]; cbn [tup]; (destruct (num_ltb (pr jy) (pr ix)); [rewrite rights_plug //; cbn [rights]; by rewrite Hj|]);
    apply Forall_cons in H as [Hf H]; rewrite IH //; unfold inls; rewrite filter_cons; cbn [isl fnode rights] in *; rewrite ?Hf; case_decide; try done; cbn [length]; lia.
Qed.
Lemma zfind_toward x a T : a ∉ ino T -> Forall (fun y => num_ltb x y = num_ltb a y) (ino T) -> toward x (zfind a T).1.
Proof.
  induction T as [|l IHl ix u IHu]; intros Ha H; [constructor|]. cbn [ino] in *. rewrite elem_of_app elem_of_cons in Ha.
  apply Forall_app in H as [Hl H]. apply Forall_cons in H as [Hy Hu]. cbn [zfind]. rewrite bool_decide_eq_false_2; [|tauto].
  destruct (num_ltb a (p_val ix.2)) eqn:E; cbn [fst snd]; apply Forall_app; (split; [by (apply IHl + apply IHu); [tauto|]|]); constructor; try done.
Qed.
Lemma zfind_none x T : increasing (ino T) -> x ∉ ino T -> (zfind x T).2 = Nil.
Proof. intros Hi Hx. pose proof (zfind_in x T Hi) as HZ. unfold found in HZ. destruct ((zfind x T).2) eqn:E; [done|]. exfalso. by apply Hx, HZ. Qed.
Lemma second_run As : forall ps s T x, length ps = length As -> rep s T -> increasing (ino T) -> increasing (As ++ [x]) -> x ∉ ino T ->
  Forall (fun a => a ∉ ino T /\ Forall (fun y => num_ltb x y = num_ltb a y) (ino T)) As ->
  exists rs s' T', calls CTreap (with_draws (inserts As) ps) s = Some (rs, s') /\ rep s' T' /\ x ∉ ino T' /\ rights x T' = rights x T.
Proof.
  induction As as [|a As IH]; intros ps s T x Hl Hrep Hinc Hx Hn HG.
  { destruct ps; [|done]. by exists [], s, T. }
  destruct ps as [|p ps]; [done|]. injection Hl as Hl. apply Forall_cons in HG as [[Ha HGa] HG]. cbn [app] in Hx. apply StronglySorted_inv in Hx as [Hx Hax].
  assert (num_lt a x) as Hlt. { rewrite Forall_forall in Hax. apply Hax, elem_of_app. right. by left. }
  assert (num_ltb x a = false) as Hxa by (by apply num_lt_asym).
  destruct (treap_insert_new s T a (Drawn (Z.of_nat p)) (Fin (Z.of_nat p)) Hrep eq_refl Hinc Ha) as (s1 & new & E & H1).
  pose proof (zfind_plug a T) as HPl. rewrite zfind_none // in HPl. pose proof (zfind_toward x a T Ha HGa) as HK. set (K := (zfind a T).1) in *.
  set (T1 := tup K Nil (new, Pay a 0 (Fin (Z.of_nat p)) Red) Nil) in *.
  assert (ino T1 = zl K ++ a :: zr K) as Hi1. { by rewrite ino_pin (tup_pin K Nil (new, Pay a 0 (Fin (Z.of_nat p)) Red) Nil) !map_app -zl_pzl -zr_pzr. }
  assert (ino T = zl K ++ zr K) as Hi0 by (by rewrite -HPl ino_plug).
  assert (forall y, y ∈ ino T1 <-> y = a \/ y ∈ ino T) as Hel by (intros y; rewrite Hi1 Hi0 !elem_of_app elem_of_cons; tauto).
  assert (increasing (ino T1)) as Hinc1.
  { pose proof (zinsert_ino CTreap a new (Pay a 0 (Fin (Z.of_nat p)) Red) T eq_refl) as HZ.
    destruct (decide (T = Nil)) as [->|HT]; [rewrite Hi1; cbn; repeat constructor|].
    assert (ino T1 = set_add a (ino T)) as ->; [|by apply set_add_inc]. rewrite -(HZ HT Hinc) Hi1. unfold zinsert.
    destruct (zfind a T) as [K' t] eqn:EZ. pose proof (zfind_none a T Hinc Ha) as E2. rewrite EZ in E2. cbn [snd] in E2. subst t. subst K. cbn [fst] in *.
    destruct K' as [|f K']; [by subst T|]. destruct f as [[] ?|? []]; rewrite ino_plug; cbn [ino zl zr]; by rewrite -?app_assoc. }
  assert (rights x T1 = rights x T) as HR. { unfold T1. rewrite (rights_tup x K); [|done|done]. by rewrite -HPl rights_plug. }
  destruct (IH ps s1 T1 x) as (rs & s' & T' & Ec & Hr & Hx' & HR'); try done.
  - rewrite Hel. intros [->|?]; [|done]. by apply (num_lt_irrefl a).
  - apply Forall_forall. intros b Hb. rewrite Forall_forall in HG. destruct (HG b Hb) as [Hb1 Hb2].
    assert (num_lt a b) as Hab. { rewrite Forall_forall in Hax. apply Hax, elem_of_app. by left. } split.
    + rewrite Hel. intros [->|?]; [|done]. by apply (num_lt_irrefl a).
    + apply Forall_forall. intros y. rewrite Hel. intros [->|Hy]; [by rewrite Hxa (num_lt_asym a b Hab)|]. rewrite Forall_forall in Hb2. by apply Hb2.
  - exists (OUnit false :: rs), s', T'. split_and!; try done; [|by rewrite HR'].
    cbn [inserts List.map with_draws calls]. rewrite (call_ok CTreap (TInsert (PNum a) (Drawn (Z.of_nat p))) s (OUnit false) s1); [|cbn [exec]; by rewrite (bind_ok _ _ _ _ _ E)].
    fold (inserts As). by rewrite Ec.
Qed.
Lemma rights_below x T : Forall (num_lt x) (ino T) -> rights x T = left_branch T.
Proof.
  induction T as [|l IHl ix u IHu]; intros H; [done|]. cbn [ino] in H. apply Forall_app in H as [Hl H]. apply Forall_cons in H as [Hy _].
  cbn [rights left_branch]. unfold num_lt in Hy. rewrite Hy. by rewrite IHl.
Qed.
Lemma with_draws_app vs1 vs2 : forall ps1 ps2, length ps1 = length vs1 ->
  with_draws (inserts (vs1 ++ vs2)) (ps1 ++ ps2) = with_draws (inserts vs1) ps1 ++ with_draws (inserts vs2) ps2.
Proof.
  induction vs1 as [|v vs1 IH]; intros ps1 ps2 Hl; [by destruct ps1|]. destruct ps1 as [|p ps1]; [done|]. injection Hl as Hl.
  cbn [app inserts List.map with_draws]. f_equal. by apply IH.
Qed.
(** Every item of the second run meets as many nodes as there are hundreds in the first. *)
Lemma second_met As Bs ps j : increasing (As ++ Bs) -> ps ∈ draws (length (Bs ++ As)) -> j < length As ->
  hundreds (take (length Bs) ps) <= met (Bs ++ As) ps (length Bs + j).
Proof.
  intros Hinc Hps Hj. pose proof (draws_len _ _ Hps) as Hl. rewrite app_length in Hl. apply outcomes_elem in Hps as [_ HR].
  destruct (lookup_lt_is_Some_2 As j Hj) as [x Hx]. pose proof (take_drop_middle As j x Hx) as EA. set (A1 := take j As) in *.
  unfold met. rewrite lookup_app_r; [|lia]. replace (length Bs + j - length Bs) with j by lia. rewrite Hx. cbn [default].
  assert (take (length Bs + j) (Bs ++ As) = Bs ++ A1) as -> by (by rewrite firstn_app_2).
  assert (take (length Bs + j) ps = take (length Bs) ps ++ take j (drop (length Bs) ps)) as ->. { by rewrite take_take_drop. }
  unfold nodes_on_path. rewrite with_draws_app; [|rewrite take_length; lia].
  apply inc_app in Hinc as (HA & HB & HAB).
  destruct (increasing_run Bs (take (length Bs) ps) tst0 Nil) as (rs & s & T & Ec & Hr & Hi & Hb); [rewrite take_length; lia|by apply Forall_take|by apply rep0|done|constructor|].
  cbn [ino app] in Hi. rewrite -EA in HA. assert (increasing (A1 ++ [x])) as HA1. { rewrite (app_assoc A1 [x] (drop (S j) As)) in HA. by apply inc_app in HA as (? & _ & _). }
  assert (forall a, a ∈ As -> Forall (num_lt a) Bs) as Hab. { intros a Ha. apply Forall_forall. intros b Hb'. by apply HAB. }
  assert (forall a, a ∈ As -> a ∉ Bs) as Hni. { intros a Ha Hb'. apply (num_lt_irrefl a). specialize (Hab a Ha). rewrite Forall_forall in Hab. by apply Hab. }
  assert (x ∈ As) as HxA by (by eapply elem_of_list_lookup_2).
  destruct (second_run A1 (take j (drop (length Bs) ps)) s T x) as (rs' & s' & T' & Ec' & Hr' & Hx' & HR').
  - unfold A1. rewrite !take_length drop_length. lia.
  - done.
  - by rewrite Hi.
  - done.
  - rewrite Hi. by apply Hni.
  - apply Forall_forall. intros a Ha. assert (a ∈ As) as HaA by (rewrite -(take_drop j As); apply elem_of_app; by left). rewrite Hi. split; [by apply Hni|].
    apply Forall_forall. intros y Hy. pose proof (Hab a HaA) as H1. pose proof (Hab x HxA) as H2. rewrite Forall_forall in H1. rewrite Forall_forall in H2.
    pose proof (H1 y Hy) as H3. pose proof (H2 y Hy) as H4. unfold num_lt in *. by rewrite H3 H4.
  - unfold history. rewrite calls_app Ec Ec'. rewrite (rep_shape s' T' Hr').
    etrans; [|by apply rights_path]. rewrite HR' rights_below; [|rewrite Hi; by apply Hab]. cbn in Hb. lia.
Qed.
Lemma hundreds_total m n : 101 * sum (map (fun ps => hundreds (take m ps)) (draws (m + n))) = m * 101 ^ (m + n).
Proof. unfold draws. rewrite sum_take. pose proof (sum_hundreds m) as H. rewrite Nat.pow_add_r. change (sum_list ?l) with (sum l) in H. nia. Qed.

(** ** Increasing values: the priorities on the right-most branch are different *)
Fixpoint rpr (T : ptree) : list num := match T with Nil => [] | Bin _ ix u => rpr u ++ [pr ix] end.
Lemma rpr_plug K : forall t, onright K -> rpr (plug K t) = rpr t ++ map (fun f => pr (fnode f)) K.
Proof.
  induction K as [|f K IH]; intros t H; [by rewrite app_nil_r|]. apply Forall_cons in H as [Hf H]. destruct f as [|v ix]; [done|].
  cbn [plug fill]. rewrite IH //. cbn [rpr List.map fnode]. by rewrite -app_assoc.
Qed.
Lemma rpr_tup K : forall l jy, onright K -> increasing (map (fun f => pr (fnode f)) K) ->
  increasing (rpr (tup K l jy Nil)) /\ forall q, q ∈ rpr (tup K l jy Nil) -> q = pr jy \/ q ∈ map (fun f => pr (fnode f)) K.
Proof.
  induction K as [|f K IH]; intros l jy H Hi.
  { cbn. split; [repeat constructor|]. intros q Hq%elem_of_list_singleton. by left. }
  pose proof H as H0. apply Forall_cons in H as [Hf H]. destruct f as [|v ix]; [done|]. cbn [tup]. destruct (num_ltb (pr jy) (pr ix)) eqn:E.
  - rewrite rpr_plug //. cbn [rpr app]. split; [|intros q [->|Hq]%elem_of_cons; [by left|by right]].
    constructor; [done|]. cbn [List.map fnode] in *. constructor; [done|]. apply StronglySorted_inv in Hi as [_ Hi]. eapply Forall_impl; [exact Hi|].
    intros q Hq. by eapply num_lt_trans.
  - cbn [List.map fnode] in *. apply StronglySorted_inv in Hi as [Hi _]. destruct (IH (Bin v ix l) jy H Hi) as [H1 H2]. split; [done|].
    intros q Hq. destruct (H2 q Hq) as [?|?]; [by left|right; by right].
Qed.
Lemma sorted_run vs : forall ps s T, length ps = length vs -> Forall (fun p => p < 101) ps -> rep s T -> increasing (ino T ++ vs) ->
  increasing (rpr T) -> Forall (fun q => q ∈ map fin (seq 0 101)) (rpr T) ->
  exists rs s' T', calls CTreap (with_draws (inserts vs) ps) s = Some (rs, s') /\ rep s' T' /\ ino T' = ino T ++ vs /\
    increasing (rpr T') /\ Forall (fun q => q ∈ map fin (seq 0 101)) (rpr T').
Proof.
  induction vs as [|v vs IH]; intros ps s T Hl HR Hrep Hinc Hri Hrp.
  { destruct ps; [|done]. exists [], s, T. by rewrite app_nil_r. }
  destruct ps as [|p ps]; [done|]. cbn in Hl. injection Hl as Hl. apply Forall_cons in HR as [Hp HR].
  pose proof Hinc as Hinc0. apply inc_app in Hinc as (Hinc & _ & HX).
  assert (Forall (fun y => num_lt y v) (ino T)) as HA. { apply Forall_forall. intros y Hy. apply HX; [done|by left]. }
  assert (v ∉ ino T) as Hv. { intros Hv. rewrite Forall_forall in HA. by apply (num_lt_irrefl v), HA. }
  destruct (treap_insert_new s T v (Drawn (Z.of_nat p)) (Fin (Z.of_nat p)) Hrep eq_refl Hinc Hv) as (s1 & new & E & H1).
  destruct (zfind_above v T HA) as [HK HN]. pose proof (zfind_plug v T) as HPl. rewrite HN in HPl. set (K := (zfind v T).1) in *.
  set (T1 := tup K Nil (new, Pay v 0 (Fin (Z.of_nat p)) Red) Nil) in *.
  assert (pin T1 = pzl K ++ [Pay v 0 (Fin (Z.of_nat p)) Red] ++ pzr K) as HPin by (by apply tup_pin).
  assert (pzr K = []) as Hzr. { clear -HK. induction K as [|f K IH]; [done|]. apply Forall_cons in HK as [Hf HK]. destruct f; [done|]. by apply IH. }
  assert (pin T = pzl K) as HPT. { by rewrite -HPl pin_plug Hzr !app_nil_r. }
  assert (ino T1 = ino T ++ [v]) as Hi1. { by rewrite !ino_pin HPin Hzr HPT map_app. }
  rewrite -HPl rpr_plug // in Hri. rewrite -HPl rpr_plug // in Hrp. cbn [rpr app] in Hri, Hrp.
  destruct (rpr_tup K Nil (new, Pay v 0 (Fin (Z.of_nat p)) Red) HK Hri) as [HT1 HT2]. fold T1 in HT1, HT2.
  destruct (IH ps s1 T1) as (rs & s' & T' & Ec & Hr & Hi & Hx); try done.
  - rewrite Hi1 -app_assoc. done.
  - apply Forall_forall. intros q Hq. destruct (HT2 q Hq) as [->|Hq']; [|rewrite Forall_forall in Hrp; by apply Hrp].
    cbn [snd p_prio]. change (Fin (Z.of_nat p)) with (fin p). apply elem_of_list_fmap_1, elem_of_seq. lia.
  - exists (OUnit false :: rs), s', T'. split_and!; try done.
    + cbn [inserts List.map with_draws calls]. rewrite (call_ok CTreap (TInsert (PNum v) (Drawn (Z.of_nat p))) s (OUnit false) s1); [|cbn [exec]; by rewrite (bind_ok _ _ _ _ _ E)].
      fold (inserts vs). by rewrite Ec.
    + by rewrite Hi Hi1 -app_assoc.
    + by destruct Hx.
    + by destruct Hx.
Qed.
Lemma path_above x T : Forall (fun y => num_lt y x) (ino T) -> path x (values (bin_map snd T)) = length (rpr T).
Proof.
  induction T as [|l IHl ix u IHu]; intros H; [done|]. cbn [ino] in H. apply Forall_app in H as [_ H]. apply Forall_cons in H as [Hy Hr].
  unfold values in *. cbn [bin_map path rpr]. rewrite decide_False; [|intros ->; by apply (num_lt_irrefl (p_val ix.2))]. rewrite (num_lt_asym _ _ Hy) IHu // app_length. cbn. lia.
Qed.
Lemma sorted_met vs ps i : increasing vs -> ps ∈ draws (length vs) -> i < length vs -> met vs ps i <= 101.
Proof.
  intros Hinc Hps Hi. pose proof (draws_len _ _ Hps) as Hl. apply outcomes_elem in Hps as [_ HR]. destruct (lookup_lt_is_Some_2 vs i Hi) as [x Hx].
  unfold met, nodes_on_path. rewrite Hx. cbn [default]. pose proof (take_drop_middle vs i x Hx) as EV. rewrite -EV in Hinc. apply inc_app in Hinc as (H1 & _ & H2).
  destruct (sorted_run (take i vs) (take i ps) tst0 Nil) as (rs & s & T & Ec & Hr & Ei & Hri & Hrp); [rewrite !take_length; lia|by apply Forall_take|apply rep0|done|constructor|constructor|].
  unfold history. rewrite Ec (rep_shape s T Hr). rewrite path_above; [|cbn in Ei; rewrite Ei; apply Forall_forall; intros y Hy; apply H2; [done|by left]].
  rewrite -(seq_length 101 0) -(map_length fin (seq 0 101)). apply submseteq_length, NoDup_submseteq; [by apply inc_NoDup|].
  intros q Hq. rewrite Forall_forall in Hrp. by apply Hrp.
Qed.
(** ** All insertions on average *)
Lemma met_average vs i : i < length vs ->
  101 * sum (map (fun ps => met vs ps i) (draws (length vs))) <= 101 ^ length vs * (length vs + 202 * (Nat.log2 (length vs) + 1)).
Proof.
  intros Hi. set (n := length vs) in *. unfold draws. replace n with (i + (n - i)) at 1 by lia. unfold met. rewrite (sum_take 101 i (n - i) (nodes_on_path (inserts (take i vs)) (default (Fin 0) (vs !! i)))).
  pose proof (average (inserts (take i vs)) (default (Fin 0) (vs !! i)) (inserts_default _)) as H. cbn zeta in H. rewrite inserts_count in H.
  replace (length (take i vs)) with i in H by (rewrite take_length; fold n; lia).
  assert (length (set_after CTreap (inserts (take i vs)) []) <= n) as Hs.
  { pose proof (set_after_length CTreap (inserts (take i vs)) []) as Hs. unfold inserts in Hs at 2. rewrite map_length take_length in Hs. cbn [length] in Hs. fold n in Hs. lia. }
  set (m := length (set_after CTreap (inserts (take i vs)) [])) in *. pose proof (Nat.log2_le_mono m n Hs).
  replace (101 ^ n) with (101 ^ (n - i) * 101 ^ i) by (rewrite -Nat.pow_add_r; f_equal; lia).
  assert (101 ^ i * (m + 202 * (Nat.log2 m + 1)) <= 101 ^ i * (n + 202 * (Nat.log2 n + 1))) as H2 by (apply Nat.mul_le_mono_l; lia).
  unfold draws in H. change (sum_list ?l) with (sum l) in H. rewrite -!Nat.mul_assoc. rewrite Nat.mul_assoc (Nat.mul_comm 101) -Nat.mul_assoc. apply Nat.mul_le_mono_l. lia.
Qed.
