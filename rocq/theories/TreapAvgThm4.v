(** * Increasing values in a treap *)
From Coq Require Import Sorted.
From iris.proofmode Require Import proofmode.
From Verif Require Import Base NumOrd TreeModel TreeSpec BstModel BalModel BstSpec BstSep BstRules BstZip BstPure BstThm AvlThm TreapThm TreapProps
  DepthSpec TreapAvgSpec TreapAvgThm TreapAvgThm2 TreapAvgThm3.
Local Open Scope py_scope.

Lemma treap_insert_new s T x p q : rep s T -> prio_val p = Some q -> increasing (ino T) -> x ∉ ino T ->
  exists s' new, tree_insert CTreap (PNum x) p s = Ok false s' /\ rep s' (tup (zfind x T).1 Nil (new, Pay x 0 q Red) Nil).
Proof.
  intros H Hq Hinc Hx. cbn [tree_insert]. unfold treap_insert. rewrite (bind_ok (check_number (PNum x)) _ s x s eq_refl).
  assert (check_prio p s = Ok q s) as Ep. { unfold prio_val, check_prio in *. destruct p as [d|[]]; naive_solver. }
  rewrite (bind_ok _ _ _ _ _ Ep). rewrite (bind_ok _ _ _ _ _ (rep_empty s T H)). destruct (decide (T = Nil)) as [->|HT].
  { destruct (new_root s q x H) as (i & s' & E & HR). exists s', i. split_and!; try done. }
  assert ((match T with Nil => true | _ => false end) = false) as -> by (by destruct T).
  edestruct (rep_run (let! r := insert_value CTreap x q in
     let! p := get_parent r.2 in let! n := get_fuel in treap_up n p r.2;; ret r.1) s T
     (fun w T' => w = false /\ exists new, T' = tup (zfind x T).1 Nil (new, Pay x 0 q Red) Nil) H) as (w & s' & T' & E & HR & -> & new & ->); [|by exists s', new].
  iIntros "HT". wbind. iApply (twp_insert_value CTreap x q T); [done|done|]. iFrame "HT". iIntros (w j new) "%Hw HT".
  pose proof (zfind_plug x T) as HP. pose proof (insert_size x T Hinc) as HSz.
  pose proof (zinsert_ino CTreap x new (Pay x 0 q Red) T eq_refl HT Hinc) as HI.
  pose proof (zfind_in x T Hinc) as HZ.
  unfold found in *.
  assert ((zfind x T).2 = Nil) as E2. { destruct ((zfind x T).2) eqn:E; [done|]. exfalso. by apply Hx, HZ. }
  assert (exists K, (zfind x T).1 = K /\ w = false /\ j = new /\ zinsert CTreap x new (Pay x 0 q Red) T = plug K (Bin Nil (j, Pay x 0 q Red) Nil)) as (K & EK & -> & -> & EZ).
  { unfold zinsert. destruct (zfind x T) as [K t] eqn:EZ. cbn [fst snd] in *. subst t. exists K. destruct Hw as [-> ->]. split_and!; try done.
    destruct K as [|f K]; [by subst T|]. cbn [plug]. by destruct f as [[] ?|? []]. }
  rewrite EZ. assert (increasing (zl K ++ ino (Bin Nil (new, Pay x 0 q Red) Nil) ++ zr K)) as Hi2. { rewrite -ino_plug -EZ HI. by apply set_add_inc. }
  wbind. iApply (twp_get_parent_at (plug K (Bin Nil (new, Pay x 0 q Red) Nil)) K Nil (new, Pay x 0 q Red) Nil); [done|done|]. iFrame "HT". iIntros "HT". iDestruct (tree_at with "HT") as "[HK HT]".
  wbind. iApply (twp_get_fuel (ctxp K (rp (Bin Nil (new, Pay x 0 q Red) Nil))) (length K)); [apply plug_atleast|]. iFrame "HK". iIntros (fu Hfu) "HK".
  wbind. iApply (twp_treap_up fu K Nil new (Pay x 0 q Red) Nil); [lia| |done|].
  { rewrite -(rp_zinsert CTreap x new (Pay x 0 q Red)) // EZ rp_plug. done. }
  iFrame "HK HT". iIntros "HT". wret. cbn [fst].
  pose proof (tup_pin K Nil (new, Pay x 0 q Red) Nil) as HPin. rewrite -(pin_bin Nil (new, Pay x 0 q Red) Nil) -pin_plug in HPin.
  assert (ino (tup K Nil (new, Pay x 0 q Red) Nil) = set_add x (ino T)) as HI'. { rewrite ino_pin HPin -ino_pin -EZ HI //. }
  wpost (tup K Nil (new, Pay x 0 q Red) Nil); [done|by exists new; rewrite EK|done| |done].
  rewrite -(ino_length (tup _ _ _ _)) HI' HSz E2. lia.
Qed.

(** ** The largest value climbs along the right-most branch *)
Definition onright (K : ctx) : Prop := Forall (fun f => match f with InR _ _ => True | InL _ _ => False end) K.
Lemma zfind_above x T : Forall (fun y => num_lt y x) (ino T) -> onright (zfind x T).1 /\ (zfind x T).2 = Nil.
Proof.
  induction T as [|l IHl ix u IHu]; intros H; [by split; [constructor|]|]. cbn [ino] in H. apply Forall_app in H as [_ H]. apply Forall_cons in H as [Hy Hr].
  cbn [zfind]. rewrite bool_decide_eq_false_2; [|intros ->; by apply (num_lt_irrefl (p_val ix.2))]. rewrite (num_lt_asym (p_val ix.2) x) //.
  destruct (IHu Hr) as [H1 H2]. cbn [fst snd]. split; [|done]. apply Forall_app. split; [done|]. by repeat constructor.
Qed.
Lemma plug_left K : forall t t', onright K -> K <> [] -> left_branch (plug K t) = left_branch (plug K t').
Proof.
  induction K as [|f K IH]; intros t t' H HK; [done|]. apply Forall_cons in H as [Hf H]. destruct f as [|v ix]; [done|]. cbn [plug fill].
  destruct K as [|f K]; [done|]. by apply IH.
Qed.
Lemma tup_left K : forall l jy, onright K ->
  left_branch (plug K l) <= left_branch (tup K l jy Nil) /\
  (Forall (fun f => num_le (pr (fnode f)) (pr jy)) K -> left_branch (tup K l jy Nil) = S (left_branch (plug K l))).
Proof.
  induction K as [|f K IH]; intros l jy H; [cbn; split; [lia|done]|]. pose proof H as H0. apply Forall_cons in H as [Hf H]. destruct f as [|v ix]; [done|].
  cbn [tup]. destruct (num_ltb (pr jy) (pr ix)) eqn:E.
  - split.
    + rewrite (plug_left (InR v ix :: K) l (Bin l jy Nil)); [done|done|done].
    + intros [Hx _]%Forall_cons. cbn [fnode] in Hx. apply num_ltb_le in Hx. by rewrite E in Hx.
  - destruct (IH (Bin v ix l) jy H) as [H1 H2]. cbn [plug fill]. split; [done|]. intros [_ HF]%Forall_cons. by apply H2.
Qed.
Definition hundreds (ps : list nat) : nat := length (filter (fun p => p = 100) ps).
Lemma left_branch_map {A B} (f : A -> B) t : left_branch (bin_map f t) = left_branch t.
Proof. induction t as [|l IHl x r IHr]; [done|]. cbn. by rewrite IHl. Qed.
Lemma ctx_prios K t (P : num -> Prop) : Forall (fun x => P (p_prio x)) (pin (plug K t)) -> Forall (fun f => P (pr (fnode f))) K.
Proof.
  rewrite pin_plug. revert t. induction K as [|f K IH]; intros t H; [constructor|].
  rewrite !Forall_app in H. destruct H as (H1 & Ht & H2). destruct f as [ix v|v ix]; cbn [pzl pzr] in *.
  - rewrite Forall_cons Forall_app in H2. destruct H2 as (H2 & _ & H3). constructor; [done|]. apply (IH Nil). rewrite !Forall_app. split_and!; [done|constructor|done].
  - rewrite !Forall_app Forall_cons in H1. destruct H1 as (H1 & _ & H3 & _). constructor; [done|]. apply (IH Nil). rewrite !Forall_app. split_and!; [done|constructor|done].
Qed.
Lemma increasing_run vs : forall ps s T, length ps = length vs -> Forall (fun p => p < 101) ps -> rep s T -> increasing (ino T ++ vs) ->
  Forall (fun x => num_le (p_prio x) (Fin 100)) (pin T) ->
  exists rs s' T', calls CTreap (with_draws (inserts vs) ps) s = Some (rs, s') /\ rep s' T' /\ ino T' = ino T ++ vs /\
    left_branch T + hundreds ps <= left_branch T'.
Proof.
  induction vs as [|v vs IH]; intros ps s T Hl HR Hrep Hinc HP.
  { destruct ps; [|done]. exists [], s, T. rewrite app_nil_r. split_and!; try done. cbn. lia. }
  destruct ps as [|p ps]; [done|]. cbn in Hl. injection Hl as Hl. apply Forall_cons in HR as [Hp HR].
  pose proof Hinc as Hinc0. apply inc_app in Hinc as (Hinc & _ & HX).
  assert (Forall (fun y => num_lt y v) (ino T)) as HA. { apply Forall_forall. intros y Hy. apply HX; [done|by left]. }
  assert (v ∉ ino T) as Hv. { intros Hv. rewrite Forall_forall in HA. by apply (num_lt_irrefl v), HA. }
  destruct (treap_insert_new s T v (Drawn (Z.of_nat p)) (Fin (Z.of_nat p)) Hrep eq_refl Hinc Hv) as (s1 & new & E & H1).
  destruct (zfind_above v T HA) as [HK HN]. pose proof (zfind_plug v T) as HPl. rewrite HN in HPl. set (K := (zfind v T).1) in *.
  set (T1 := tup K Nil (new, Pay v 0 (Fin (Z.of_nat p)) Red) Nil) in *.
  assert (pin T1 = pzl K ++ [Pay v 0 (Fin (Z.of_nat p)) Red] ++ pzr K) as HPin by (by apply tup_pin).
  assert (pzr K = []) as Hzr. { clear -HK. induction K as [|f K IH]; [done|]. apply Forall_cons in HK as [Hf HK]. destruct f; [done|]. by apply IH. }
  assert (pin T = pzl K) as HPT. { by rewrite -HPl pin_plug Hzr !app_nil_r. }
  assert (ino T1 = ino T ++ [v]) as Hi1. { by rewrite !ino_pin HPin Hzr HPT map_app. }
  destruct (tup_left K Nil (new, Pay v 0 (Fin (Z.of_nat p)) Red) HK) as [HL1 HL2]. fold T1 in HL1, HL2. rewrite HPl in HL1, HL2.
  assert (left_branch T + (if decide (p = 100) then 1 else 0) <= left_branch T1) as HL.
  { case_decide as Ep; [|lia]. rewrite HL2; [lia|]. subst p. cbn [snd p_prio]. apply (ctx_prios K Nil (fun z => num_le z (Fin 100))). by rewrite HPl. }
  destruct (IH ps s1 T1) as (rs & s' & T' & Ec & Hr & Hi & Hlb); try done.
  - rewrite Hi1 -app_assoc. done.
  - rewrite HPin Hzr -HPT. apply Forall_app. split; [done|]. repeat constructor. cbn. lia.
  - exists (OUnit false :: rs), s', T'. split_and!; try done.
    + cbn [inserts List.map with_draws calls]. rewrite (call_ok CTreap (TInsert (PNum v) (Drawn (Z.of_nat p))) s (OUnit false) s1); [|cbn [exec]; by rewrite (bind_ok _ _ _ _ _ E)].
      fold (inserts vs). by rewrite Ec.
    + by rewrite Hi Hi1 -app_assoc.
    + unfold hundreds in *. rewrite filter_cons. case_decide; cbn [length]; lia.
Qed.
Lemma sum_hundreds n : 101 * sum_list (map hundreds (outcomes 101 n)) = n * 101 ^ n.
Proof.
  induction n as [|n IH]; [cbn; lia|]. rewrite sum_outcomes_S.
  rewrite (sum_map_ext _ (fun p => (if p =? 100 then 101 ^ n else 0) + sum (map hundreds (outcomes 101 n)))).
  2:{ intros p _. rewrite (sum_map_ext _ (fun ps => (if p =? 100 then 1 else 0) + hundreds ps)).
      - rewrite sum_map_add sum_map_const outcomes_length. destruct (p =? 100); lia.
      - intros ps _. unfold hundreds. rewrite filter_cons. destruct (p =? 100) eqn:E; [apply Nat.eqb_eq in E; rewrite decide_True //|apply Nat.eqb_neq in E; rewrite decide_False //]. }
  rewrite sum_map_add sum_map_const seq_length. change (seq 0 101) with (seq 0 100 ++ [100]). rewrite map_app sum_app.
  rewrite (sum_map_ext _ (fun _ => 0) (seq 0 100)). 2:{ intros p [_ Hp]%elem_of_seq. rewrite (proj2 (Nat.eqb_neq p 100)); [done|lia]. }
  rewrite sum_map_const. assert (sum (map (fun p => if p =? 100 then 101 ^ n else 0) [100]) = 101 ^ n) as ->. { change (101 ^ n + 0 = 101 ^ n). lia. }
  change (101 ^ S n) with (101 * 101 ^ n). lia.
Qed.
