(** * The work of building a SplayTree: different orders take different ways *)
From Coq Require Import Sorted Factorial.
From iris.proofmode Require Import proofmode.
From Verif Require Import Base NumOrd TreeModel TreeSpec BstModel BalModel BuildModel BstSpec BstSep BstRules BstZip BstDel BinThm BstPure BstThm AvlThm AvlProps SplayThm TreapThm SplayCost SplayCostThm BuildProps
  HeapCostSpec HeapCostThm DepthSpec DepthThm5 TreapAvgSpec TreapAvgThm BstAvgSpec BstAvgThm BuildCostSpec BuildCostThm.

(** ** Shapes *)
Definition sh {A} (t : bin A) : bin unit := bin_map (fun _ => tt) t.
Definition fsame (f g : frame) : Prop := isl f = isl g /\ sh (side f) = sh (side g).
Lemma sh_size {A B} (t : bin A) : forall t' : bin B, sh t = sh t' -> bsize t = bsize t'.
Proof. induction t as [|l IHl x r IHr]; intros [|l' x' r']; try done. cbn. intros [= H1 H2]. by rewrite (IHl _ H1) (IHr _ H2). Qed.
Lemma splayed_same K1 : forall K2 l1 l2 u1 u2, Forall2 fsame K1 K2 -> sh l1 = sh l2 -> sh u1 = sh u2 ->
  sh (splayed K1 l1 u1).1 = sh (splayed K2 l2 u2).1 /\ sh (splayed K1 l1 u1).2 = sh (splayed K2 l2 u2).2.
Proof.
  induction K1 as [|f|f g K IH] using ctx_ind2; intros K2 l1 l2 u1 u2 H Hl Hu.
  - apply Forall2_nil_inv_l in H as ->. done.
  - apply Forall2_cons_inv_l in H as (f' & K' & [Hf Hs] & H & ->). apply Forall2_nil_inv_l in H as ->.
    destruct f, f'; try done; cbn [side] in Hs; cbn; unfold sh in *; by rewrite ?Hl ?Hu ?Hs.
  - apply Forall2_cons_inv_l in H as (f' & K' & [Hf Hs] & H & ->). apply Forall2_cons_inv_l in H as (g' & K2' & [Hg Hs'] & H & ->).
    rewrite !splayed_two. apply IH; [done|..]; destruct f, f'; try done; destruct g, g'; try done; cbn [side] in Hs, Hs'; cbn; unfold sh in *; by rewrite ?Hl ?Hu ?Hs ?Hs'.
Qed.
Lemma fsame_zl K1 K2 : Forall2 fsame K1 K2 -> length (zl K1) = length (zl K2).
Proof.
  induction 1 as [|f g K1 K2 [Hf Hs] H IH]; [done|]. apply sh_size in Hs. destruct f, g; try done. cbn [zl]. cbn [side] in Hs.
  rewrite !app_length IH !ino_length Hs. done.
Qed.
Lemma zfind_same x y T1 : forall T2, sh T1 = sh T2 -> x ∉ ino T1 -> y ∉ ino T2 ->
  map isl (zfind x T1).1 = map isl (zfind y T2).1 -> Forall2 fsame (zfind x T1).1 (zfind y T2).1.
Proof.
  induction T1 as [|l IHl ix u IHu]; intros [|l' ix' u']; try done; [constructor|]. intros [= El Eu] Hx Hy. cbn [ino] in Hx, Hy. rewrite elem_of_app elem_of_cons in Hx. rewrite elem_of_app elem_of_cons in Hy.
  cbn [zfind]. rewrite !bool_decide_eq_false_2; [|tauto|tauto].
  destruct (num_ltb x (p_val ix.2)), (num_ltb y (p_val ix'.2)); cbn [fst snd]; rewrite !map_app; cbn [List.map isl]; intros [H H']%app_inj_tail; try done;
    (apply Forall2_app; [(apply IHl || apply IHu); [done|tauto|tauto|done]|repeat constructor; done]).
Qed.
(** The turns on the way of [x], the last one first. *)
Fixpoint turns (x : num) (t : bin num) : list bool :=
  match t with Nil => [] | Bin l y r => if num_ltb x y then turns x l ++ [true] else turns x r ++ [false] end.
Lemma turns_length x t : x ∉ inorder t -> length (turns x t) = path x t.
Proof.
  induction t as [|l IHl y r IHr]; intros Hx; [done|]. cbn [inorder] in Hx. rewrite elem_of_app elem_of_cons in Hx. cbn [turns path]. rewrite decide_False; [|tauto].
  destruct (num_ltb x y); rewrite app_length; [rewrite IHl; [|tauto]|rewrite IHr; [|tauto]]; cbn; lia.
Qed.
Lemma turns_zfind x T : x ∉ ino T -> map isl (zfind x T).1 = turns x (values (bin_map snd T)).
Proof.
  induction T as [|l IHl ix u IHu]; intros Hx; [done|]. cbn [ino] in Hx. rewrite elem_of_app elem_of_cons in Hx. unfold values in *. cbn [zfind bin_map turns].
  rewrite bool_decide_eq_false_2; [|tauto]. destruct (num_ltb x (p_val ix.2)); cbn [fst snd]; rewrite map_app; [rewrite IHl|rewrite IHu]; try done; tauto.
Qed.
(** ** Ranks *)
Definition smaller (x : num) (l : list num) : nat := length (List.filter (fun w => num_ltb w x) l).
Lemma smaller_perm x l l' : l ≡ₚ l' -> smaller x l = smaller x l'.
Proof. apply filter_perm. Qed.
Lemma smaller_all x l : Forall (fun w => num_lt w x) l -> smaller x l = length l.
Proof. unfold smaller. induction 1 as [|w l Hw H IH]; [done|]. cbn. unfold num_lt in Hw. rewrite Hw. cbn. by rewrite IH. Qed.
Lemma smaller_none x l : Forall (fun w => num_lt x w) l -> smaller x l = 0.
Proof. unfold smaller. induction 1 as [|w l Hw H IH]; [done|]. cbn. by rewrite (num_lt_asym _ _ Hw). Qed.
Lemma smaller_app x l l' : smaller x (l ++ l') = smaller x l + smaller x l'.
Proof. unfold smaller. by rewrite List.filter_app app_length. Qed.
Lemma smaller_mono x y l : num_lt x y -> x ∈ l -> smaller x l < smaller y l.
Proof.
  intros Hxy Hx. assert (forall l, smaller x l <= smaller y l) as Hle.
  { intros k. unfold smaller. induction k as [|w k IH]; [done|]. cbn. destruct (num_ltb w x) eqn:E.
    - assert (num_ltb w y = true) as -> by (by eapply num_lt_trans). cbn. lia.
    - destruct (num_ltb w y); cbn; lia. }
  apply elem_of_list_split in Hx as (l1 & l2 & ->). change (x :: l2) with ([x] ++ l2). rewrite !smaller_app.
  pose proof (Hle l1). pose proof (Hle l2). assert (smaller x [x] = 0) as ->. { unfold smaller. cbn. pose proof (num_lt_irrefl x) as Hi. unfold num_lt in Hi. by destruct (num_ltb x x). }
  assert (smaller y [x] = 1) as ->; [|lia]. unfold smaller. cbn. unfold num_lt in Hxy. by rewrite Hxy.
Qed.
Definition rank (vs : list num) (i : nat) : nat := smaller (default (Fin 0) (vs !! i)) (take i vs).
Lemma rank_app vs x i : i < length vs -> rank (vs ++ [x]) i = rank vs i.
Proof. intros Hi. unfold rank. rewrite lookup_app_l // take_app_le; [done|lia]. Qed.
Lemma rank_last vs x : rank (vs ++ [x]) (length vs) = smaller x vs.
Proof. unfold rank. rewrite list_lookup_middle // take_app. done. Qed.
Lemma ranks_determine vs : forall ws, vs ≡ₚ ws -> NoDup vs -> (forall i, i < length vs -> rank vs i = rank ws i) -> vs = ws.
Proof.
  induction vs as [|x vs IH] using rev_ind; intros ws HP Hnd H.
  { by apply Permutation_nil_l in HP. }
  pose proof (Permutation_length HP) as Hl. rewrite app_length in Hl. cbn in Hl. destruct ws as [|y ws _] using rev_ind; [cbn in Hl; lia|]. rewrite app_length in Hl. cbn in Hl.
  assert (length ws = length vs) as Hl' by lia. rewrite app_length in H. cbn in H.
  assert (smaller x (vs ++ [x]) = smaller y (vs ++ [x])) as Hs.
  { pose proof (H (length vs) ltac:(lia)) as Hr. rewrite rank_last -{1}Hl' rank_last in Hr. rewrite (smaller_perm y _ _ HP) !smaller_app Hr.
    assert (forall z, smaller z [z] = 0) as Hz. { intros z. unfold smaller. cbn. pose proof (num_lt_irrefl z) as Hi. unfold num_lt in Hi. by destruct (num_ltb z z). }
    by rewrite !Hz. }
  assert (x ∈ vs ++ [x]) as Hx by (apply elem_of_app; right; by left). assert (y ∈ vs ++ [x]) as Hy by (rewrite HP; apply elem_of_app; right; by left).
  assert (x = y) as ->.
  { destruct (num_ltb x y) eqn:E1; [pose proof (smaller_mono x y _ E1 Hx); lia|]. destruct (num_ltb y x) eqn:E2; [pose proof (smaller_mono y x _ E2 Hy); lia|].
    by apply num_le_antisym; apply num_ltb_le. }
  f_equal. apply IH.
  - apply (Permutation_cons_inv (a := y)). etrans; [apply Permutation_cons_append|]. etrans; [exact HP|]. symmetry. apply Permutation_cons_append.
  - by apply NoDup_app in Hnd as (? & _ & _).
  - intros i Hi. pose proof (H i ltac:(lia)) as Hr. rewrite !rank_app in Hr; [done|lia|done].
Qed.
(** ** The tree after some insertions *)
Definition way (vs : list num) (i : nat) : list bool :=
  match history CSplay (inserts (take i vs)) with
  | Some (_, s) => match shape s with Some t => turns (default (Fin 0) (vs !! i)) (values t) | None => [] end
  | None => []
  end.
Definition built (vs : list num) (T : ptree) : Prop :=
  exists rs s, history CSplay (inserts vs) = Some (rs, s) /\ rep s T /\ increasing (ino T) /\ ino T ≡ₚ vs.
Lemma built_snoc vs x T : built vs T -> x ∉ vs -> exists jy, built (vs ++ [x]) (atroot (zfind x T).1 Nil jy Nil).
Proof.
  intros (rs & s & E & Hr & Hi & HP) Hx. assert (x ∉ ino T) as Hx' by (by rewrite HP).
  destruct (splay_insert_exact s T x (Drawn 0) Hr Hi) as (w & s' & T' & l & jy & u & E' & HR & -> & HC).
  assert ((zfind x T).2 = Nil) as E2. { pose proof (zfind_in x T Hi) as HZ. destruct ((zfind x T).2) eqn:E2; [done|]. exfalso. by apply Hx', HZ. }
  pose proof (zfind_plug x T) as Hpl. pose proof (zfind_bounds x T Hi) as HB. destruct HC as [(_ & -> & -> & Hv)|HC]; [|by rewrite E2 in HC].
  exists jy. exists (rs ++ [OUnit w]), s'. rewrite E2 in Hpl. assert (ino T = zl (zfind x T).1 ++ zr (zfind x T).1) as ET by (by rewrite -{1}Hpl ino_plug).
  assert (ino (atroot (zfind x T).1 Nil jy Nil) = zl (zfind x T).1 ++ x :: zr (zfind x T).1) as EI. { rewrite atroot_ino ino_plug. cbn [ino]. by rewrite Hv. }
  split_and!.
  - unfold history, inserts in *. rewrite map_app calls_app E. cbn [List.map calls]. rewrite (call_ok CSplay (TInsert (PNum x) (Drawn 0)) s (OUnit w) s'); [done|]. cbn [exec]. by rewrite (bind_ok _ _ _ _ _ E').
  - done.
  - destruct (splay_insert_run s T x (Drawn 0) Hr Hi) as (s2 & T2 & E3 & HR2 & Hi2 & _). rewrite E' in E3. injection E3 as _ <-.
    assert (ino (atroot (zfind x T).1 Nil jy Nil) = ino T2) as ->; [|rewrite Hi2; by apply set_add_inc].
    pose proof (rep_shape _ _ HR) as S1. pose proof (rep_shape _ _ HR2) as S2. rewrite S1 in S2. apply (inj Some) in S2.
    rewrite !ino_pin. unfold pin. by rewrite S2.
  - rewrite EI -Permutation_middle -ET HP. apply Permutation_cons_append.
Qed.
(** The same turns give the same shape, and so the same ranks. *)
Lemma way_app vs x i : i < length vs -> way (vs ++ [x]) i = way vs i.
Proof. intros Hi. unfold way. rewrite lookup_app_l // take_app_le; [done|lia]. Qed.
Lemma way_last vs x T : built vs T -> x ∉ vs -> way (vs ++ [x]) (length vs) = map isl (zfind x T).1.
Proof.
  intros (rs & s & E & Hr & Hi & HP) Hx. unfold way. rewrite list_lookup_middle // take_app E (rep_shape _ _ Hr). cbn [default]. by rewrite turns_zfind // HP.
Qed.
Lemma rank_built vs x T : built vs T -> x ∉ vs -> rank (vs ++ [x]) (length vs) = length (zl (zfind x T).1).
Proof.
  intros (rs & s & E & Hr & Hi & HP) Hx. rewrite rank_last -(smaller_perm x _ _ HP). assert (x ∉ ino T) as Hx' by (by rewrite HP).
  assert ((zfind x T).2 = Nil) as E2. { pose proof (zfind_in x T Hi) as HZ. destruct ((zfind x T).2) eqn:E2; [done|]. exfalso. by apply Hx', HZ. }
  pose proof (zfind_plug x T) as Hpl. destruct (zfind_bounds x T Hi) as [H1 H2]. rewrite E2 in Hpl. rewrite -{1}Hpl ino_plug. cbn [ino app].
  rewrite smaller_app smaller_all // smaller_none //.
Qed.
Lemma same_ways vs : forall ws, length ws = length vs -> NoDup vs -> NoDup ws -> (forall i, i < length vs -> way vs i = way ws i) ->
  exists T U, built vs T /\ built ws U /\ sh T = sh U /\ forall i, i < length vs -> rank vs i = rank ws i.
Proof.
  induction vs as [|x vs IH] using rev_ind; intros ws Hl Hv Hw H.
  { destruct ws; [|done]. assert (built [] Nil) as HB. { exists [], tst0. split_and!; [done|apply rep0|constructor|done]. } exists Nil, Nil. split_and!; done. }
  rewrite app_length in Hl, H. cbn in Hl, H. destruct ws as [|y ws _] using rev_ind; [cbn in Hl; lia|]. rewrite app_length in Hl. cbn in Hl. assert (length ws = length vs) as Hl' by lia.
  apply NoDup_app in Hv as (Hv & Hx & _). apply NoDup_app in Hw as (Hw & Hy & _).
  assert (x ∉ vs) as Hx'. { intros ?. apply (Hx x); [done|by left]. } assert (y ∉ ws) as Hy'. { intros ?. apply (Hy y); [done|by left]. }
  destruct (IH ws Hl' Hv Hw) as (T & U & HT & HU & HS & HR).
  { intros i Hi. pose proof (H i ltac:(lia)) as Hr. rewrite !way_app in Hr; [done|lia|done]. }
  pose proof (H (length vs) ltac:(lia)) as Hlast. rewrite (way_last _ _ _ HT Hx') -{1}Hl' (way_last _ _ _ HU Hy') in Hlast.
  assert (Forall2 fsame (zfind x T).1 (zfind y U).1) as HF.
  { apply zfind_same; try done; [destruct HT as (? & ? & _ & _ & _ & HP)|destruct HU as (? & ? & _ & _ & _ & HP)]; by rewrite HP. }
  destruct (built_snoc _ _ _ HT Hx') as (jy & HT'). destruct (built_snoc _ _ _ HU Hy') as (jz & HU'). eexists _, _. split_and!; [exact HT'|exact HU'| |].
  - destruct (splayed_same _ _ Nil Nil Nil Nil HF eq_refl eq_refl) as [H1 H2]. unfold atroot, sh in *. cbn [bin_map]. by rewrite H1 H2.
  - intros i Hi. rewrite app_length in Hi. cbn in Hi. destruct (decide (i < length vs)) as [Hi'|Hi'].
    + rewrite !rank_app; [by apply HR|lia|done].
    + assert (i = length vs) as -> by lia. rewrite (rank_built _ _ _ HT Hx') -{1}Hl' (rank_built _ _ _ HU Hy'). by apply fsame_zl.
Qed.
Lemma ways_determine vs ws : vs ≡ₚ ws -> NoDup vs -> map (way vs) (seq 0 (length vs)) = map (way ws) (seq 0 (length ws)) -> vs = ws.
Proof.
  intros HP Hnd H. pose proof (Permutation_length HP) as Hl. rewrite -Hl in H.
  destruct (same_ways vs ws) as (_ & _ & _ & _ & _ & HR); [done|done|by rewrite -HP| |by apply ranks_determine].
  intros i Hi. assert (seq 0 (length vs) !! i = Some i) as Es by (by apply lookup_seq_lt).
  assert (map (way vs) (seq 0 (length vs)) !! i = Some (way vs i)) as E1. { change (map (way vs) ?l) with (way vs <$> l). by rewrite list_lookup_fmap Es. }
  assert (map (way ws) (seq 0 (length vs)) !! i = Some (way ws i)) as E2. { change (map (way ws) ?l) with (way ws <$> l). by rewrite list_lookup_fmap Es. }
  rewrite H in E1. rewrite E1 in E2. by injection E2.
Qed.
(** ** Writing the turns down *)
Fixpoint enc1 (d : list bool) : list nat := match d with [] => [0] | b :: d' => 1 :: (if b then 1 else 0) :: enc1 d' end.
Fixpoint enc (c : list (list bool)) : list nat := match c with [] => [] | d :: c' => enc1 d ++ enc c' end.
Lemma enc1_inj d : forall d' r r', enc1 d ++ r = enc1 d' ++ r' -> d = d' /\ r = r'.
Proof.
  induction d as [|b d IH]; intros [|b' d'] r r'; cbn; [by intros [= ->]|done|done|]. intros [= Hb H]. destruct (IH _ _ _ H) as [-> ->]. by destruct b, b'.
Qed.
Lemma enc_inj c : forall c' r r', length c = length c' -> enc c ++ r = enc c' ++ r' -> c = c'.
Proof.
  induction c as [|d c IH]; intros [|d' c'] r r' Hl H; try done. cbn in Hl. cbn [enc] in H. rewrite -!app_assoc in H. apply enc1_inj in H as [-> H].
  f_equal. by apply (IH c' r r'); [lia|].
Qed.
Lemma enc1_length d : length (enc1 d) = 2 * length d + 1.
Proof. induction d as [|b d IH]; [done|]. cbn. rewrite IH. lia. Qed.
Lemma enc_length c : length (enc c) = 2 * sum (map length c) + length c.
Proof. induction c as [|d c IH]; [done|]. cbn [enc List.map length]. rewrite app_length enc1_length IH sum_cons. lia. Qed.
Lemma enc_bits c : Forall (fun b => b < 2) (enc c).
Proof.
  induction c as [|d c IH]; [constructor|]. cbn [enc]. apply Forall_app. split; [|done]. clear. induction d as [|b d IH]; cbn; constructor; [lia|constructor|lia|]. constructor; [destruct b; lia|done].
Qed.
Definition bits (w n : nat) (c : list (list bool)) : list nat := enc c ++ replicate (2 * w + n - length (enc c)) 0.
Lemma bits_elem w n c : length c = n -> sum (map length c) <= w -> bits w n c ∈ outcomes 2 (2 * w + n).
Proof.
  intros Hn Hw. apply outcomes_elem. unfold bits. rewrite app_length replicate_length enc_length. split; [lia|]. apply Forall_app. split; [apply enc_bits|]. apply Forall_replicate. lia.
Qed.
(** ** The orders with few nodes met are few *)
Lemma few_orders vs w l : NoDup vs -> NoDup l -> (forall p, p ∈ l -> p ≡ₚ vs /\ sum (map (fun i => length (way p i)) (seq 0 (length p))) <= w) ->
  length l <= 2 ^ (2 * w + length vs).
Proof.
  intros Hnd Hl H. set (n := length vs). set (code := fun p => bits w n (map (way p) (seq 0 (length p)))).
  rewrite -(outcomes_length 2 (2 * w + n)) -(map_length code l). apply submseteq_length, NoDup_submseteq.
  - apply NoDup_fmap_2_strong; [|done]. intros p q Hp Hq E. destruct (H p Hp) as [HPp _]. destruct (H q Hq) as [HPq _].
    apply ways_determine; [by rewrite HPp HPq|by rewrite HPp|]. unfold code, bits in E. eapply enc_inj; [|exact E].
    rewrite !map_length !seq_length. by rewrite (Permutation_length HPp) (Permutation_length HPq).
  - intros b (p & -> & Hp)%elem_of_list_fmap. destruct (H p Hp) as [HPp Hw]. unfold code. apply bits_elem.
    + rewrite map_length seq_length. by apply Permutation_length.
    + by rewrite map_map.
Qed.
(** The turns are the nodes met. *)
Lemma way_met vs ks : NoDup vs -> building_meets CSplay vs ks -> sum ks = sum (map (fun i => length (way vs i)) (seq 0 (length vs))).
Proof.
  intros Hnd H. assert (ks = map (fun i => length (way vs i)) (seq 0 (length vs))) as ->; [|done]. pose proof (proj1 H) as Hl.
  apply list_eq. intros i. change (map ?f ?l) with (f <$> l). rewrite list_lookup_fmap. destruct (ks !! i) as [k|] eqn:Hk.
  - pose proof (lookup_lt_Some _ _ _ Hk). rewrite lookup_seq_lt; [|lia]. cbn. f_equal. destruct (lookup_lt_is_Some_2 vs i) as [v Hv]; [lia|].
    destruct (building_tree _ _ _ _ _ _ H Hv Hk) as (rs & s & t & E & Es & <- & Hi). unfold way. rewrite E Es Hv. cbn [default]. symmetry. apply turns_length.
    unfold values. rewrite inorder_map Hi. pose proof (take_drop_middle vs i v Hv) as EV. rewrite -EV in Hnd. apply NoDup_app in Hnd as (Hnd & Hd & _).
    rewrite (proj2 (inserts_set CSplay (take i vs) Hnd)). intros Hv'. apply (Hd v Hv'). by left.
  - apply lookup_ge_None in Hk. rewrite lookup_ge_None_2; [done|]. rewrite seq_length. lia.
Qed.
Lemma fact_log n : 2 ^ log_sum n <= fact n.
Proof.
  induction n as [|n IH]; [done|]. change (log_sum (S n)) with (Nat.log2 (S n) + log_sum n). rewrite Nat.pow_add_r. change (fact (S n)) with (S n * fact n).
  apply Nat.mul_le_mono; [|done]. apply (Nat.log2_spec (S n)). lia.
Qed.
