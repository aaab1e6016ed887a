(** * The work of every call on a SplayTree (C68) *)
From Coq Require Import Sorted.
From iris.proofmode Require Import proofmode.
From Verif Require Import Base NumOrd TreeModel TreeSpec BstModel BalModel BstSpec BstSep BstRules BstZip BstDel BinThm BstPure BstThm AvlThm SplayThm SplayCostSpec SplayCost.
Local Open Scope py_scope.
Local Open Scope nat_scope.

(** ** Paths *)
Lemma visits_zfind x T : visits x (vals T) = length (zfind x T).1 + (if found x T then 1 else 0).
Proof.
  unfold found, vals. induction T as [|l IHl ix u IHu]; [done|]. cbn [bin_map visits zfind].
  destruct (decide (x = p_val ix.2)) as [->|Hx]; [by rewrite bool_decide_eq_true_2|]. rewrite bool_decide_eq_false_2 //.
  destruct (num_ltb x (p_val ix.2)); cbn [fst snd]; rewrite app_length /=; [rewrite IHl|rewrite IHu]; lia.
Qed.
Lemma visits_zlast x T : T <> Nil -> visits x (vals T) = S (length (zlast (zfind x T)).1).
Proof.
  intros HT. rewrite visits_zfind. unfold found. pose proof (zfind_plug x T) as HP. destruct (zfind x T) as [[|f K] [|l ix u]]; cbn [fst snd zlast length] in *; try lia.
  by subst.
Qed.
Lemma zmin_length u : u <> Nil -> S (length (zmin u).1) = left_arm u.
Proof.
  induction u as [|l IHl ix u IHu]; [done|]. intros _. cbn [zmin left_arm]. destruct l as [|l1 jy l2]; [done|].
  cbn [fst]. rewrite app_length -IHl //. cbn. lia.
Qed.
Lemma zmax_length u : u <> Nil -> S (length (zmax u).1) = right_arm u.
Proof.
  induction u as [|l IHl ix u IHu]; [done|]. intros _. cbn [zmax right_arm]. destruct u as [|l1 jy l2]; [done|].
  cbn [fst]. rewrite app_length -IHu //. cbn. lia.
Qed.
Lemma left_arm_map {A B} (f : A -> B) t : left_arm (bin_map f t) = left_arm t.
Proof. induction t as [|l IH x r]; cbn; [done|]. by rewrite IH. Qed.
Lemma right_arm_map {A B} (f : A -> B) t : right_arm (bin_map f t) = right_arm t.
Proof. induction t as [|l _ x r IH]; cbn; [done|]. by rewrite IH. Qed.
Lemma to_replacement_map {A B} (f : A -> B) t : to_replacement (bin_map f t) = to_replacement t.
Proof. destruct t as [|l x [|r1 y r2]]; cbn [bin_map to_replacement]; [done|by rewrite right_arm_map|]. cbn. by rewrite left_arm_map. Qed.
Lemma pot_map {A B} (f : A -> B) t : pot (bin_map f t) = pot t.
Proof.
  assert (forall t : bin A, bsize (bin_map f t) = bsize t) as Hs.
  { clear t. induction t as [|l IHl x r IHr]; cbn [bsize bin_map]; [done|]. by rewrite IHl IHr. }
  induction t as [|l IHl x r IHr]; cbn [pot bin_map]; [done|]. by rewrite !Hs IHl IHr.
Qed.

(** ** The three kinds of work *)
Lemma splay_pot2 K l jy u : 2 ^ (length K + 2) * pot (atroot K l jy u) <= pot (plug K (Bin l jy u)) * wt (plug K (Bin l jy u)) ^ 3.
Proof.
  pose proof (splay_pot K l jy u) as H. assert (2 ^ 3 <= wt (Bin l jy u) ^ 3) as H8 by (apply Nat.pow_le_mono_l; unfold wt; cbn; lia).
  change (2 ^ 3) with 8 in H8. rewrite Nat.pow_add_r. change (2 ^ 2) with 4.
  set (a := 2 ^ length K * pot (atroot K l jy u)) in *. assert (a * 8 <= a * wt (Bin l jy u) ^ 3) by by apply Nat.mul_le_mono_l.
  set (W := wt (plug K (Bin l jy u)) ^ 3) in *. set (P := pot (plug K (Bin l jy u))) in *. unfold a in *. lia.
Qed.
Lemma pow34 a b p : 1 <= p -> a <= b -> p * a ^ 3 <= p * b ^ 4 \/ b = 0.
Proof.
  intros Hp Ha. destruct (decide (b = 0)) as [|Hb]; [by right|left]. apply Nat.mul_le_mono_l.
  transitivity (b ^ 3); [by apply Nat.pow_le_mono_l|]. by apply Nat.pow_le_mono_r; [|lia].
Qed.
Definition cheap (k : nat) (T T' : ptree) : Prop := 2 ^ k * pot T' <= pot T * (Nat.max (bsize T) (bsize T') + 1) ^ 4.
Lemma cheap_at k K l jy u T T' : T = plug K (Bin l jy u) -> T' = atroot K l jy u -> k <= length K + 2 -> cheap k T T'.
Proof.
  intros -> -> Hk. unfold cheap. rewrite atroot_size Nat.max_id. pose proof (splay_pot2 K l jy u) as H.
  transitivity (2 ^ (length K + 2) * pot (atroot K l jy u)); [apply Nat.mul_le_mono_r; by apply Nat.pow_le_mono_r|].
  etrans; [exact H|]. unfold wt. replace (S (bsize (plug K (Bin l jy u)))) with (bsize (plug K (Bin l jy u)) + 1) by lia.
  destruct (pow34 (bsize (plug K (Bin l jy u)) + 1) (bsize (plug K (Bin l jy u)) + 1) (pot (plug K (Bin l jy u)))); [apply pot_pos|done|done|lia].
Qed.
Lemma cheap_access x T : T <> Nil -> cheap (visits x (vals T)) T (access x T).
Proof.
  intros HT. destruct (zlast_node x T HT) as (l & jy & u & E & _).
  eapply (cheap_at _ (zlast (zfind x T)).1 l jy u); [by rewrite -E zlast_plug zfind_plug|unfold access; by rewrite E|].
  rewrite visits_zlast //. lia.
Qed.
Lemma cheap_insert x T T1 K j y : zfind x T = (K, Nil) -> T1 = plug K (Bin Nil (j, y) Nil) ->
  cheap (visits x (vals T)) T (atroot K Nil (j, y) Nil).
Proof.
  intros HZ ->. unfold cheap. pose proof (zfind_plug x T) as HP. rewrite HZ in HP. cbn [fst snd] in HP.
  rewrite visits_zfind. unfold found. rewrite HZ. cbn [fst snd]. rewrite atroot_size Nat.add_0_r.
  pose proof (splay_pot2 K Nil (j, y) Nil) as H. pose proof (leaf_pot K Nil (Bin Nil (j, y) Nil) eq_refl) as HL. cbn [pot wt bsize] in HL.
  specialize (HL ltac:(cbn; lia)). rewrite HP in HL. set (T1 := plug K (Bin Nil (j, y) Nil)) in *. set (T' := atroot K Nil (j, y) Nil) in *.
  transitivity (2 ^ (length K + 2) * pot T'); [apply Nat.mul_le_mono_r; apply Nat.pow_le_mono_r; lia|]. etrans; [exact H|].
  transitivity (pot T * wt T1 * wt T1 ^ 3); [by apply Nat.mul_le_mono_r|].
  transitivity (pot T * wt T1 ^ 4); [cbn [Nat.pow]; lia|]. apply Nat.mul_le_mono_l. apply Nat.pow_le_mono_l. unfold wt. lia.
Qed.
Lemma chain_pot t : bsize (chain CSplay t) <= bsize t /\ pot (chain CSplay t) <= pot t.
Proof.
  induction t as [|l [IHl1 IHl2] ix u [IHu1 IHu2]]; [done|]. destruct l as [|l1 jy l2].
  - destruct u as [|u1 jy u2]; [cbn; lia|]. rewrite chain_u.
    assert (forall A : ptree, bsize A <= bsize (Bin u1 jy u2) -> pot A <= pot (Bin u1 jy u2) ->
      forall ix', bsize (Bin Nil ix' A) <= bsize (Bin Nil ix (Bin u1 jy u2)) /\ pot (Bin Nil ix' A) <= pot (Bin Nil ix (Bin u1 jy u2))) as H.
    { intros A H1 H2 ix'. exact ((fun H => conj (proj2 H) (proj1 H)) (pot_mono [InR Nil ix] _ _ H1 H2)). }
    destruct (leafb _); by apply H.
  - rewrite chain_l.
    assert (forall A : ptree, bsize A <= bsize (Bin l1 jy l2) -> pot A <= pot (Bin l1 jy l2) ->
      forall ix', bsize (Bin A ix' u) <= bsize (Bin (Bin l1 jy l2) ix u) /\ pot (Bin A ix' u) <= pot (Bin (Bin l1 jy l2) ix u)) as H.
    { intros A H1 H2 ix'. exact ((fun H => conj (proj2 H) (proj1 H)) (pot_mono [InL ix u] _ _ H1 H2)). }
    destruct (leafb _); by apply H.
Qed.
Lemma putdel_pot f t : t <> Nil -> bsize (putdel CSplay f t) <= bsize (fill f t) /\ pot (putdel CSplay f t) <= pot (fill f t).
Proof.
  intros Ht. unfold putdel. destruct (leafb t) eqn:El.
  - assert (forall A B : ptree, bsize A <= bsize B -> pot A <= pot B -> bsize (fill f A) <= bsize (fill f B) /\ pot (fill f A) <= pot (fill f B)) as H.
    { intros A B H1 H2. destruct (pot_mono [f] _ _ H1 H2). done. }
    destruct (H Nil t) as [H1 H2]; [cbn; lia|apply pot_pos|]. by destruct f as [[] ?|? []].
  - destruct (chain_pot t) as [H1 H2]. destruct (pot_mono [f] _ _ H1 H2). done.
Qed.
Lemma zrep_pot K l ix u : pot (plug (zrep CSplay (K, Bin l ix u)).1 (zrep CSplay (K, Bin l ix u)).2) = pot (plug K (Bin l ix u)) /\
  bsize (plug (zrep CSplay (K, Bin l ix u)).1 (zrep CSplay (K, Bin l ix u)).2) = bsize (plug K (Bin l ix u)) /\
  (zrep CSplay (K, Bin l ix u)).2 <> Nil /\ length (zrep CSplay (K, Bin l ix u)).1 = length K + to_replacement (Bin l ix u).
Proof.
  assert (forall l u ix ix', pot (plug K (Bin l ix' u)) = pot (plug K (Bin l ix u)) /\ bsize (plug K (Bin l ix' u)) = bsize (plug K (Bin l ix u))) as HP.
  { intros l' u' a b. rewrite !pot_plug. split; [done|]. by apply bsize_plug. }
  destruct u as [|u1 jy u2].
  - destruct l as [|l1 jy l2]; [cbn; split_and!; try done; lia|]. cbn [zrep]. cbn zeta. destruct (zmax_shape (Bin l1 jy l2)) as (l3 & ky & E); [done|]. rewrite E.
    cbn [fst snd]. rewrite plug_app. cbn [plug fill]. rewrite -E zmax_plug. destruct (HP (Bin l1 jy l2) Nil ix (ix.1, take_pay CSplay ix.2 ky.2)) as [-> ->]. split_and!; [done|done|by rewrite E|].
    rewrite app_length. cbn [length to_replacement]. rewrite -zmax_length //. lia.
  - cbn [zrep]. cbn zeta. destruct (zmin_shape (Bin u1 jy u2)) as (ky & l3 & E); [done|]. rewrite E.
    cbn [fst snd]. rewrite plug_app. cbn [plug fill]. rewrite -E zmin_plug. destruct (HP l (Bin u1 jy u2) ix (ix.1, take_pay CSplay ix.2 ky.2)) as [-> ->]. split_and!; [done|done|by rewrite E|].
    rewrite app_length. cbn [length to_replacement]. rewrite -zmin_length //. lia.
Qed.
Lemma looks_found x T K l ix u p : zfind x T = (K, Bin l ix u) ->
  looks (TRemove (PNum x)) (vals T) = S (length K + to_replacement (Bin l ix u)) /\ looks (TInsert (PNum x) p) (vals T) = S (length K).
Proof.
  intros HZ. cbn [looks]. rewrite visits_zfind. unfold found, vals. rewrite subtree_at_zfind HZ !to_replacement_map. cbn [fst snd]. lia.
Qed.
Lemma cheap_remove x T K l ix u z zl jy zu : zfind x T = (K, Bin l ix u) -> ~ (K = [] /\ l = Nil /\ u = Nil) ->
  z = zremove CSplay (K, Bin l ix u) -> z.2 = Bin zl jy zu ->
  cheap (looks (TRemove (PNum x)) (vals T)) T (atroot z.1 zl jy zu).
Proof.
  intros HZ HN -> Ez. pose proof (zfind_plug x T) as HP. rewrite HZ in HP. cbn [fst snd] in HP.
  destruct (looks_found x T K l ix u (Drawn 0) HZ) as [-> _]. destruct (zrep_pot K l ix u) as (HR1 & HR2 & HR3 & HR4). rewrite HP in HR1, HR2.
  unfold zremove in *. destruct (zrep CSplay (K, Bin l ix u)) as [K' t]. cbn [fst snd] in *. destruct K' as [|f K'].
  { exfalso. cbn [length] in HR4. apply HN. destruct K; [|cbn in HR4; lia]. destruct u; [|cbn in HR4; lia]. destruct l; [done|cbn in HR4; lia]. }
  cbn [fst snd length] in *. rewrite -HR4. destruct (putdel_pot f t HR3) as [HS1 HS2]. destruct (pot_mono K' _ _ HS1 HS2) as [HM1 HM2].
  change (plug K' (fill f t)) with (plug (f :: K') t) in HM1, HM2. rewrite HR1 in HM1. rewrite HR2 in HM2. rewrite Ez in HM1, HM2.
  unfold cheap. rewrite atroot_size. rewrite Nat.max_l //. pose proof (splay_pot2 K' zl jy zu) as H. replace (length K' + 2) with (S (S (length K'))) in H by lia. etrans; [exact H|].
  transitivity (pot T * wt (plug K' (Bin zl jy zu)) ^ 3); [by apply Nat.mul_le_mono_r|].
  destruct (pow34 (wt (plug K' (Bin zl jy zu))) (bsize T + 1) (pot T)); [apply pot_pos|unfold wt; lia|done|lia].
Qed.

(** ** The calls *)
Lemma splay_contains_cost s T x : rep s T -> T <> Nil -> increasing (ino T) ->
  exists w s' T', splay_contains (PNum x) s = Ok w s' /\ rep s' T' /\ cheap (visits x (vals T)) T T'.
Proof.
  intros H HT Hinc. destruct (splay_contains_run s T x H HT Hinc) as (s' & E & HR). eexists _, s', _. split_and!; [done|done|]. by apply cheap_access.
Qed.
(** The tree after an insertion. *)
Lemma splay_insert_exact s T x p : rep s T -> increasing (ino T) ->
  exists w s' T' l jy u, tree_insert CSplay (PNum x) p s = Ok w s' /\ rep s' T' /\ T' = atroot (zfind x T).1 l jy u /\
    (((zfind x T).2 = Nil /\ l = Nil /\ u = Nil /\ p_val jy.2 = x) \/ (zfind x T).2 = Bin l jy u).
Proof.
  intros H Hinc. cbn [tree_insert]. unfold splay_insert. rewrite (bind_ok (check_number (PNum x)) _ s x s eq_refl).
  rewrite (bind_ok _ _ _ _ _ (rep_empty s T H)). destruct (decide (T = Nil)) as [->|HT].
  { destruct (new_root s (Fin 0) x H) as (i & s' & E & HR). exists false, s', (leaf_of i (Pay x 0 (Fin 0) Red)), Nil, (i, Pay x 0 (Fin 0) Red), Nil. split_and!; try done. by left. }
  assert ((match T with Nil => true | _ => false end) = false) as -> by (by destruct T).
  edestruct (rep_run (let! r := insert_value CSplay x (Fin 0) in splay r.2 ;; ret r.1) s T
     (fun w T' => exists l jy u, T' = atroot (zfind x T).1 l jy u /\
       (((zfind x T).2 = Nil /\ l = Nil /\ u = Nil /\ p_val jy.2 = x) \/ (zfind x T).2 = Bin l jy u)) H) as (w & s' & T' & E & HR & l & jy & u & HQ); [|by exists w, s', T', l, jy, u].
  iIntros "HT". wbind. iApply (twp_insert_value CSplay x (Fin 0) T); [done|done|]. iFrame "HT". iIntros (w j new) "%Hw HT".
  pose proof (zfind_plug x T) as HP. pose proof (insert_size x T Hinc) as HSz.
  pose proof (zinsert_ino CSplay x new (Pay x 0 (Fin 0) Red) T eq_refl HT Hinc) as HI. unfold found in *.
  assert (exists l y u, zinsert CSplay x new (Pay x 0 (Fin 0) Red) T = plug (zfind x T).1 (Bin l (j, y) u) /\
     w = (match (zfind x T).2 with Nil => false | _ => true end) /\
     (((zfind x T).2 = Nil /\ l = Nil /\ u = Nil /\ p_val y = x) \/ (zfind x T).2 = Bin l (j, y) u)) as (l & y & u & EZ & -> & HC).
  { unfold zinsert. destruct (zfind x T) as [K t] eqn:EZ. cbn [fst snd] in *. destruct t as [|l [i y] u].
    - destruct Hw as [-> ->]. destruct K as [|f K]; [by subst|].
      exists Nil, (Pay x 0 (Fin 0) Red), Nil. split_and!; [by destruct f as [[] ?|? []]|done|by left].
    - destruct Hw as [-> Hw]. injection Hw as ->. exists l, y, u. split_and!; [by destruct K|done|by right]. }
  rewrite EZ. cbn [snd]. wbind. iApply (twp_splay (plug (zfind x T).1 (Bin l (j, y) u)) (zfind x T).1 l j y u); [done| |].
  { rewrite -EZ HI. by apply set_add_inc. }
  iFrame "HT". iIntros "HT". wret. cbn [fst]. wpost (atroot (zfind x T).1 l (j, y) u); [by exists l, (j, y), u|done| |done].
  rewrite -(ino_length (atroot _ _ _ _)) atroot_ino -EZ HI HSz. destruct (zfind x T).2; lia.
Qed.
Lemma splay_insert_cost s T x p : rep s T -> increasing (ino T) ->
  exists w s' T', tree_insert CSplay (PNum x) p s = Ok w s' /\ rep s' T' /\ cheap (visits x (vals T)) T T'.
Proof.
  intros H Hinc. destruct (splay_insert_exact s T x p H Hinc) as (w & s' & T' & l & [j y] & u & E & HR & -> & HC). eexists w, s', _. split_and!; [done|done|].
  destruct (zfind x T) as [K t] eqn:EZ. cbn [fst snd] in *. destruct HC as [(-> & -> & -> & _)| ->]; [by eapply cheap_insert|].
  pose proof (zfind_plug x T) as HP. rewrite EZ in HP. cbn [fst snd] in HP. eapply cheap_at; [by symmetry|done|].
  destruct (looks_found x T K l _ u p EZ) as [_ E']. cbn [looks] in E'. lia.
Qed.
(** The tree after a removal. *)
Lemma splay_remove_exact s T x : rep s T -> increasing (ino T) -> replaceable (zfind x T).2 ->
  exists w s' T', tree_remove CSplay (PNum x) s = Ok w s' /\ rep s' T' /\ (((zfind x T).2 = Nil /\ T' = access x T) \/
       (exists ix, T = Bin Nil ix Nil /\ p_val ix.2 = x /\ T' = Nil) \/
       (exists zl jy zu, (zremove CSplay (zfind x T)).2 = Bin zl jy zu /\ T' = atroot (zremove CSplay (zfind x T)).1 zl jy zu /\
         (zfind x T).2 <> Nil /\ ~ ((zfind x T).1 = [] /\ leafb (zfind x T).2 = true))).
Proof.
  intros H Hinc Hrep. cbn [tree_remove]. unfold splay_remove.
  destruct (remove_guard s T x (fun x => let! r := remove_value CSplay x in match r.2 with Some i => splay i;; ret r.1 | None => raise AssertionError end)
     (fun w T' => ((zfind x T).2 = Nil /\ T' = access x T) \/
       (exists ix, T = Bin Nil ix Nil /\ p_val ix.2 = x /\ T' = Nil) \/
       (exists zl jy zu, (zremove CSplay (zfind x T)).2 = Bin zl jy zu /\ T' = atroot (zremove CSplay (zfind x T)).1 zl jy zu /\
         (zfind x T).2 <> Nil /\ ~ ((zfind x T).1 = [] /\ leafb (zfind x T).2 = true))) H) as (w & s' & T' & E & HR & HQ).
  - intros ->. by left.
  - intros l [i y] u -> Hl ->. destruct l, u; try done. right. left. by exists (i, y).
  - intros HT Hl. iIntros "HT". wbind. iApply (twp_remove_value CSplay x T); [done|done| |].
    { intros HK. pose proof (zfind_plug x T) as HP. pose proof (zfind_val x T) as HV.
      destruct (zfind x T) as [K t]. cbn [fst snd] in *. subst K. cbn in HP. subst t.
      destruct (leafb T) eqn:El; [|done]. exfalso. destruct T as [|l ix u]; [done|]. by eapply Hl; [..|symmetry; apply (HV l ix u)]. }
    iFrame "HT". destruct (zfind x T) as [K t] eqn:EZ. cbn [fst snd] in *. destruct t as [|l ix u].
    + iIntros (j) "%Hj HT". cbn [snd].
      destruct (zlast_node x T HT) as (l & [j' y] & u & E & Hb). rewrite EZ in E. rewrite E in Hj. injection Hj as ->.
      pose proof (zlast_plug (K, Nil)) as HPl. pose proof (zfind_plug x T) as HP. rewrite EZ in HP. cbn [fst snd] in HPl, HP. rewrite HP E in HPl.
      wbind. iApply (twp_splay T (zlast (K, Nil)).1 l j y u); [done|done|]. iFrame "HT". iIntros "HT". wret.
      wpost (atroot (zlast (K, Nil)).1 l (j, y) u); [|done| |done].
      * left. split; [done|]. unfold access. by rewrite EZ E.
      * by rewrite atroot_size HPl.
    + assert (~ (K = [] /\ l = Nil /\ u = Nil)) as HL.
      { intros (-> & -> & ->). pose proof (zfind_plug x T) as HP. pose proof (zfind_val x T) as HV.
        rewrite EZ in HP HV. cbn in HP, HV. subst T. by eapply Hl; [done|done|symmetry; eapply HV]. }
      iIntros "HT". set (z := zremove CSplay (K, Bin l ix u)) in *.
      assert (ino (plug z.1 z.2) = set_del x (ino T)) as Hi.
      { apply (removed_exact CSplay x T); [done| |by rewrite EZ]. unfold removed. rewrite EZ. by apply zremove_ino. }
      assert (bsize T = S (bsize (plug z.1 z.2))) as Hn.
      { rewrite -!ino_length. unfold z. rewrite (zremove_ino CSplay K l ix u HL). rewrite -(zfind_plug x T) EZ ino_plug. cbn [fst snd ino].
        rewrite !app_length. cbn. rewrite (Permutation_length (rest_perm CSplay l u)) app_length. lia. }
      destruct z.2 as [|zl1 [j y] zu] eqn:Ez.
      { exfalso. by apply (zremove_ne CSplay K l ix u). }
      cbn [rp snd fst]. wbind. iApply (twp_splay (plug z.1 (Bin zl1 (j, y) zu)) z.1 zl1 j y zu); [done| |].
      { rewrite Hi. by apply set_del_inc. }
      iFrame "HT". iIntros "HT". wret. wpost (atroot z.1 zl1 (j, y) zu); [|done| |done];
        [right; right; exists zl1, (j, y), zu; split_and!; try done; intros [-> Hlf]; apply HL; by destruct l, u|].
      rewrite atroot_size. cbn [fst]. lia.
  - by exists w, s', T'.
Qed.
Lemma splay_remove_cost s T x : rep s T -> increasing (ino T) -> replaceable (zfind x T).2 ->
  exists w s' T', tree_remove CSplay (PNum x) s = Ok w s' /\ rep s' T' /\ cheap (looks (TRemove (PNum x)) (vals T)) T T'.
Proof.
  intros H Hinc Hrep. destruct (splay_remove_exact s T x H Hinc Hrep) as (w & s' & T' & E & HR & HC). exists w, s', T'. split_and!; [done|done|].
  destruct HC as [[EZ ->]|[(ix & -> & Hx & ->)|(zl & jy & zu & Ez & -> & Hne & HL)]].
  - cbn [looks]. unfold vals at 2. rewrite subtree_at_zfind EZ. cbn [snd bin_map to_replacement]. rewrite Nat.add_0_r.
    destruct (decide (T = Nil)) as [->|HT]; [unfold cheap; cbn; lia|by apply cheap_access].
  - unfold cheap, vals. cbn. rewrite Hx !decide_True //. cbn. lia.
  - destruct (zfind x T) as [K t] eqn:EZ. cbn [fst snd] in *. destruct t as [|l ix u]; [done|].
    eapply cheap_remove; [done| |done|done]. intros (-> & -> & ->). by apply HL.
Qed.
Lemma cheap_same T : cheap 0 T T.
Proof.
  unfold cheap. rewrite Nat.mul_1_l Nat.max_id. pose proof (pot_pos T).
  assert (1 ^ 4 <= (bsize T + 1) ^ 4) as H1 by (apply Nat.pow_le_mono_l; lia). change (1 ^ 4) with 1 in H1. set (q := (bsize T + 1) ^ 4) in *. nia.
Qed.
Lemma pot_shape s T T' : rep s T -> rep s T' -> pot T = pot T' /\ bsize T = bsize T'.
Proof.
  intros H H'. apply rep_shape in H, H'. rewrite H in H'. injection H' as E. rewrite -(pot_map snd T) -(pot_map snd T') E. split; [done|].
  assert (forall t : ptree, bsize (bin_map snd t) = bsize t) as Hs by (induction t as [|l IHl x r IHr]; cbn [bsize bin_map]; [done|]; by rewrite IHl IHr).
  by rewrite -(Hs T) -(Hs T') E.
Qed.
Lemma splay_cost_step s T o : rep s T -> increasing (ino T) -> (forall x, o = TRemove (PNum x) -> replaceable (zfind x T).2) ->
  exists r s' T', call CSplay o s = Some (r, s') /\ rep s' T' /\ ino T' = next CSplay o (ino T) /\ cheap (looks o (vals T)) T T'.
Proof.
  intros H Hinc Hr. destruct (splay_step s T o H Hinc Hr) as (r & s' & T' & E & HR & Hro & HA & HN). exists r, s', T'. split_and!; [done|done|done|].
  assert (forall w (s1 : tst) T1, exec CSplay o s = Ok w s1 -> rep s1 T1 -> cheap (looks o (vals T)) T T1 -> cheap (looks o (vals T)) T T') as HG.
  { intros w s1 T1 E1 HR1 HC. apply call_ok in E1. rewrite E1 in E. injection E as -> ->. destruct (pot_shape _ _ _ HR1 HR) as [HP HB]. unfold cheap in *. by rewrite -HP -HB. }
  destruct o as [v p|v|v| | | | | | | | | | | |]; cbn [root_ok] in Hro; subst; try apply cheap_same.
  - destruct v as [|x| | | |]; subst; try apply cheap_same. destruct (splay_insert_cost s T x p H Hinc) as (w & s1 & T1 & E1 & HR1 & HC).
    eapply HG; [|done|done]. cbn [exec]. by rewrite (bind_ok _ _ _ _ _ E1).
  - destruct (decide (exists x, v = PNum x)) as [[x ->]|Hv].
    + destruct (splay_remove_cost s T x H Hinc) as (w & s1 & T1 & E1 & HR1 & HC); [by apply Hr|].
      eapply HG; [|done|done]. cbn [exec]. by rewrite (bind_ok _ _ _ _ _ E1).
    + assert (tree_remove CSplay v s = Ok true s) as E1.
      { cbn [tree_remove]. unfold splay_remove, remove_with. unfold bind, get_root. destruct (t_root s); [|done]. destruct v; try done. exfalso. apply Hv. by eexists. }
      apply (HG (OUnit true) s T); [|done|].
      * cbn [exec]. by rewrite (bind_ok _ _ _ _ _ E1).
      * destruct v as [|z| | | |]; try apply cheap_same. exfalso. apply Hv. by exists z.
  - destruct v as [|x| | | |]; cbn [root_ok] in Hro; subst; try apply cheap_same.
    all: try (assert (s' = s) as -> by (revert E; cbn; by intros [= _ <-])); try (destruct (pot_shape _ _ _ H HR) as [HP HB]; pose proof (cheap_same T) as HC; unfold cheap in *; cbn [looks]; by rewrite -HP -HB).
    destruct (decide (T = Nil)) as [->|HT].
    { cbn [next] in HN. apply ino_nil in HN as ->. unfold cheap. cbn. lia. }
    destruct (splay_contains_cost s T x H HT Hinc) as (w & s1 & T1 & E1 & HR1 & HC).
    eapply HG; [|done|done]. cbn [exec tree_contains]. by rewrite (bind_ok _ _ _ _ _ E1).
  - cbn [next] in HN. apply ino_nil in HN as ->. unfold cheap. cbn [looks Nat.pow pot bsize]. pose proof (pot_pos T). pose proof (cheap_same T) as HC. unfold cheap in HC. rewrite Nat.max_id in HC. rewrite Nat.max_0_r. lia.
Qed.

(** ** Histories *)
Lemma total_splay n os : forall s T, rep s T -> increasing (ino T) -> bsize T <= n ->
  (forall pre post, os = pre ++ post -> length (set_after CSplay pre (ino T)) <= n) ->
  (forall pre x post rs s' t, os = pre ++ TRemove (PNum x) :: post -> calls CSplay pre s = Some (rs, s') -> shape s' = Some t -> replaceable (subtree_at x (bin_map p_val t))) ->
  exists w, total_from CSplay looks os s = Some w /\ 2 ^ w <= pot T * (n + 1) ^ (4 * length os).
Proof.
  induction os as [|o os IH]; intros s T H Hinc Hb Hn HB.
  { exists 0. split; [done|]. cbn. pose proof (pot_pos T). lia. }
  destruct (splay_cost_step s T o H Hinc) as (r & s1 & T1 & E & HR & HN & HC).
  { intros x ->. rewrite -(replaceable_map snd) -(replaceable_map p_val) -subtree_at_zfind. eapply (HB [] x os); try done. by apply rep_shape. }
  assert (bsize T1 <= n) as Hb1 by (rewrite -ino_length HN; exact (Hn [o] os eq_refl)).
  destruct (IH s1 T1 HR) as (w & Ew & Hw).
  - rewrite HN. by apply next_inc.
  - done.
  - intros pre post ->. rewrite HN. exact (Hn (o :: pre) post eq_refl).
  - intros pre x post rs s' t -> Ec Ht. eapply (HB (o :: pre) x post); try done. cbn [calls]. by rewrite E Ec.
  - exists (looks o (vals T) + w). cbn [total_from]. rewrite (rep_shape _ _ H) E Ew. split; [done|].
    rewrite Nat.pow_add_r. cbn [length]. replace (4 * S (length os)) with (4 + 4 * length os) by lia. rewrite Nat.pow_add_r. unfold cheap in HC.
    transitivity (2 ^ looks o (vals T) * (pot T1 * (n + 1) ^ (4 * length os))); [by apply Nat.mul_le_mono_l|].
    rewrite Nat.mul_assoc. rewrite (Nat.mul_assoc (pot T)). apply Nat.mul_le_mono_r. etrans; [exact HC|]. apply Nat.mul_le_mono_l, Nat.pow_le_mono_l. lia.
Qed.
