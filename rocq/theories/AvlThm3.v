(** * AVL: exactly when a removal keeps the balance *)
From Coq Require Import Sorted.
From iris.proofmode Require Import proofmode.
From Verif Require Import Base NumOrd TreeModel TreeSpec BstModel BalModel BstSpec BstSep BstRules BstZip BstDel BinThm BstPure BstThm AvlThm AvlDelSpec.
Local Open Scope py_scope.

(** ** Along a context *)
Definition evenr (t : ptree) : bool := match t with Nil => true | Bin l _ r => Nat.eqb (hh l) (hh r) end.
Definition wrongs (l : ptree) : Prop :=
  match l with Bin a _ (Bin b1 _ b2 as b) => hh a = hh b /\ hh b1 < hh b2 | _ => False end.
Definition shr1 (h o : nat) (ev sh : bool) : bool := sh && (Nat.ltb o h || (Nat.ltb h o && negb ev)).
Fixpoint steadyK (K : ctx) (h : nat) (sh : bool) : Prop :=
  match K with
  | [] => True
  | InL _ u :: K' => steadyK K' (S (Nat.max h (hh u))) (shr1 h (hh u) (evenr u) sh)
  | InR l _ :: K' => ~ (sh = true /\ h < hh l /\ wrongs l) /\ steadyK K' (S (Nat.max (hh l) h)) (shr1 h (hh l) (evenr l) sh)
  end.
Lemma steadyK_false K h : steadyK K h false.
Proof. revert h. induction K as [|[ix u|l ix] K IH]; intros h; cbn; [done|apply IH|]. split; [naive_solver|apply IH]. Qed.
Lemma climb_same K : forall t h, exact t -> exactK K -> avlK K h -> hh t = h -> (avlb (climb K t) <-> avlb t).
Proof.
  induction K as [|[ix u|l ix] K IH]; intros t h Ht HK AK H; [done|..]; cbn [exactK avlK climb] in *; destruct HK as [Hu HK], AK as (Au & H1 & H2 & AK).
  - assert (fixup t ix u = nd t ix u) as E. { unfold fixup. destruct (balb_true t u) as [_ ->]; [done|lia]. }
    rewrite E. rewrite (IH (nd t ix u) (S (Nat.max h (hh u)))); [|by apply exact_nd|done|done|rewrite hh_nd; lia]. rewrite avlb_nd. split; [tauto|]. intros. split_and!; done || lia.
  - assert (fixup l ix t = nd l ix t) as E. { unfold fixup. destruct (balb_true l t) as [_ ->]; [done|lia]. }
    rewrite E. rewrite (IH (nd l ix t) (S (Nat.max (hh l) h))); [|by apply exact_nd|done|done|rewrite hh_nd; lia]. rewrite avlb_nd. split; [tauto|]. intros. split_and!; done || lia.
Qed.
(** One step up, from a subtree that has shrunk. *)
Lemma fix_L t ix u : exact t -> exact u -> avlb t -> avlb u -> S (hh t) <= hh u + 1 -> hh u <= S (hh t) + 1 ->
  avlb (fixup t ix u) /\
  hh (fixup t ix u) = (if shr1 (S (hh t)) (hh u) (evenr u) true then Nat.max (S (hh t)) (hh u) else S (Nat.max (S (hh t)) (hh u))).
Proof.
  intros Ht Hu At Au H1 H2. unfold fixup, shr1. cbn [andb]. destruct (balb t u) eqn:Eb.
  - apply balb_true in Eb. rewrite hh_nd avlb_nd. split; [tauto|].
    destruct (Nat.ltb_spec (hh u) (S (hh t))), (Nat.ltb_spec (S (hh t)) (hh u)); cbn [orb andb]; lia.
  - assert (~ (hh t <= hh u + 1 /\ hh u <= hh t + 1)) as Hn by (rewrite -balb_true Eb; done).
    assert (Nat.ltb (hh u) (S (hh t)) = false) as -> by (apply Nat.ltb_ge; lia).
    assert (Nat.ltb (S (hh t)) (hh u) = true) as -> by (apply Nat.ltb_lt; lia). cbn [orb andb].
    pattern (rebal t ix u). apply rebal_cases; [done..| | | |].
    + intros; lia.
    + intros; lia.
    + intros a1 kz a2 jy b -> _ Hab. pose proof Hu as (Ea & Eb' & _). pose proof (exact_bin _ _ _ Hu) as EH. pose proof (exact_bin _ _ _ Ea) as EH2.
      cbn [avlb] in Au. destruct Au as ((Ab1 & Ab2 & ? & ?) & Ab & ? & ?).
      rewrite !hh_nd !avlb_nd !hh_nd. split; [split_and!; try done; lia|]. cbn [evenr]. destruct (Nat.eqb_spec (hh (Bin a1 kz a2)) (hh b)); cbn [negb]; lia.
    + intros a jy b -> _ Hab. pose proof Hu as (Ea & Eb' & _). pose proof (exact_bin _ _ _ Hu) as EH. cbn [avlb] in Au. destruct Au as (Aa & Ab & ? & ?).
      rewrite !hh_nd !avlb_nd !hh_nd. split; [split_and!; try done; lia|]. cbn [evenr]. destruct (Nat.eqb_spec (hh a) (hh b)); cbn [negb]; lia.
Qed.
Lemma fix_R t ix l : exact t -> exact l -> avlb t -> avlb l -> S (hh t) <= hh l + 1 -> hh l <= S (hh t) + 1 ->
  (avlb (fixup l ix t) <-> ~ (S (hh t) < hh l /\ wrongs l)) /\
  hh (fixup l ix t) = (if shr1 (S (hh t)) (hh l) (evenr l) true then Nat.max (hh l) (S (hh t)) else S (Nat.max (hh l) (S (hh t)))) /\
  (S (hh t) < hh l -> wrongs l -> evenr l = true).
Proof.
  intros Ht Hu At Au H1 H2. split_and!; [| |].
  3:{ intros _ Hw. destruct l as [|a jy [|b1 kz b2]]; try done. cbn [evenr wrongs] in *. apply Nat.eqb_eq. tauto. }
  all: unfold fixup, shr1; cbn [andb]; destruct (balb l t) eqn:Eb.
  - apply balb_true in Eb. rewrite avlb_nd. split; [lia|]. intros _. split_and!; done || lia.
  - assert (~ (hh l <= hh t + 1 /\ hh t <= hh l + 1)) as Hn by (rewrite -balb_true Eb; done).
    pattern (rebal l ix t). apply rebal_cases; [done..| | | |].
    + intros a jy b -> _ Hab. pose proof Hu as (Ea & Eb' & _). pose proof (exact_bin _ _ _ Hu) as EH. cbn [avlb] in Au. destruct Au as (Aa & Ab & ? & ?).
      rewrite !avlb_nd !hh_nd. split.
      * intros _ [_ Hw]. destruct b as [|b1 kz b2]; [done|]. unfold wrongs in Hw. lia.
      * intros _. split_and!; try done; lia.
    + intros a jy b1 kz b2 -> _ Hab. pose proof Hu as (Ea & Eb' & _). pose proof (exact_bin _ _ _ Hu) as EH. pose proof (exact_bin _ _ _ Eb') as EH2.
      cbn [avlb] in Au. destruct Au as (Aa & (Ab1 & Ab2 & ? & ?) & ? & ?). rewrite !avlb_nd !hh_nd. unfold wrongs. split.
      * intros Hb Hw. lia.
      * intros Hw. split_and!; try done; lia.
    + intros; lia.
    + intros; lia.
  - apply balb_true in Eb. rewrite hh_nd.
    destruct (Nat.ltb_spec (hh l) (S (hh t))), (Nat.ltb_spec (S (hh t)) (hh l)); cbn [orb andb]; lia.
  - assert (~ (hh l <= hh t + 1 /\ hh t <= hh l + 1)) as Hn by (rewrite -balb_true Eb; done).
    assert (Nat.ltb (hh l) (S (hh t)) = false) as -> by (apply Nat.ltb_ge; lia).
    assert (Nat.ltb (S (hh t)) (hh l) = true) as -> by (apply Nat.ltb_lt; lia). cbn [orb andb].
    pattern (rebal l ix t). apply rebal_cases; [done..| | | |].
    + intros a jy b -> _ Hab. pose proof (exact_bin _ _ _ Hu) as EH. cbn [avlb] in Au. destruct Au as (Aa & Ab & ? & ?).
      rewrite !hh_nd. cbn [evenr]. destruct (Nat.eqb_spec (hh a) (hh b)); cbn [negb]; lia.
    + intros a jy b1 kz b2 -> _ Hab. pose proof Hu as (Ea & Eb' & _). pose proof (exact_bin _ _ _ Hu) as EH. pose proof (exact_bin _ _ _ Eb') as EH2.
      cbn [avlb] in Au. destruct Au as (Aa & (Ab1 & Ab2 & ? & ?) & ? & ?). rewrite !hh_nd. cbn [evenr].
      destruct (Nat.eqb_spec (hh a) (hh (Bin b1 kz b2))); cbn [negb]; lia.
    + intros; lia.
    + intros; lia.
Qed.
Lemma climb_iff K : forall t, exact t -> exactK K -> avlb t -> avlK K (S (hh t)) -> (avlb (climb K t) <-> steadyK K (S (hh t)) true).
Proof.
  induction K as [|[ix u|l ix] K IH]; intros t Ht HK At AK; [done|..]; cbn [exactK avlK climb steadyK] in *; destruct HK as [Hu HK], AK as (Au & H1 & H2 & AK).
  - destruct (fix_L t ix u) as [A1 A2]; [done..|]. pose proof (fixup_exact t ix u Ht Hu) as HE. destruct (shr1 (S (hh t)) (hh u) (evenr u) true).
    + rewrite (IH (fixup t ix u)); [|done..|]; rewrite A2; done.
    + rewrite (climb_same K _ (S (S (hh t) `max` hh u))); [|done..]. split; [|done]. intros _. apply steadyK_false.
  - destruct (fix_R t ix l) as (A1 & A2 & A3); [done..|]. pose proof (fixup_exact l ix t Hu Ht) as HE. destruct (shr1 (S (hh t)) (hh l) (evenr l) true) eqn:Es.
    + assert (~ (S (hh t) < hh l /\ wrongs l)) as Hno.
      { intros [Hlt Hw]. rewrite (A3 Hlt Hw) in Es. unfold shr1 in Es. cbn [andb negb] in Es. apply orb_true_iff in Es as [Es%Nat.ltb_lt|[_ ?]%andb_true_iff]; [lia|done]. }
      rewrite (IH (fixup l ix t)); [|done|done|by apply A1|]; rewrite A2; naive_solver.
    + rewrite (climb_same K _ (S (hh l `max` S (hh t)))); [|done..]. rewrite A1. pose proof (steadyK_false K (S (hh l `max` S (hh t)))). naive_solver.
Qed.

(** ** From contexts to places *)
Fixpoint pathK (K : ctx) : list bool :=
  match K with [] => [] | InL _ _ :: K' => pathK K' ++ [false] | InR _ _ :: K' => pathK K' ++ [true] end.
Lemma pathK_app K K' : pathK (K ++ K') = pathK K' ++ pathK K.
Proof. induction K as [|[ix u|l ix] K IH]; cbn [app pathK]; [by rewrite app_nil_r|..]; by rewrite IH app_assoc. Qed.
Lemma evenr_even t : exact t -> evenr t = even_root t.
Proof. destruct t as [|l ix u]; [done|]. intros (Hl & Hu & _). cbn [evenr even_root]. by rewrite (exact_hh l Hl) (exact_hh u Hu). Qed.
Lemma wrongs_wrong t : exact t -> (wrongs t <-> wrong_side t).
Proof.
  destruct t as [|a ix [|b1 jy b2]]; [done|done|]. intros (Ha & Hb & _). pose proof Hb as (Hb1 & Hb2 & _). unfold wrongs, wrong_side.
  by rewrite (exact_hh a Ha) (exact_hh _ Hb) (exact_hh b1 Hb1) (exact_hh b2 Hb2).
Qed.
Lemma steady_plug K : forall t p, exact (plug K t) -> (steady (plug K t) (pathK K ++ p) <-> steady t p /\ steadyK K (hh t) (shrinks t p)).
Proof.
  induction K as [|[ix u|l ix] K IH]; intros t p He; cbn [plug pathK steadyK fill] in *; [naive_solver|..].
  - rewrite -app_assoc (IH (Bin t ix u) (false :: p) He). apply exact_plug in He as [He _]. pose proof (exact_bin _ _ _ He) as ->. destruct He as (Ht & Hu & _).
    cbn [steady shrinks]. unfold shr1. by rewrite (evenr_even u Hu) -(exact_hh u Hu) -(exact_hh t Ht).
  - rewrite -app_assoc (IH (Bin l ix t) (true :: p) He). apply exact_plug in He as [He _]. pose proof (exact_bin _ _ _ He) as ->. destruct He as (Hu & Ht & _).
    cbn [steady shrinks]. unfold shr1. rewrite (evenr_even l Hu) (wrongs_wrong l Hu) -(exact_hh l Hu) -(exact_hh t Ht). tauto.
Qed.
Lemma pathK_zmin t : pathK (zmin t).1 = to_leftmost t.
Proof. induction t as [|l IHl ix u IHu]; [done|]. cbn [zmin]. destruct l as [|l1 jy l2]; [done|]. cbn [fst]. rewrite pathK_app IHl. done. Qed.
Lemma pathK_zmax t : pathK (zmax t).1 = to_rightmost t.
Proof. induction t as [|l IHl ix u IHu]; [done|]. cbn [zmax]. destruct u as [|l1 jy l2]; [done|]. cbn [fst]. rewrite pathK_app IHu. done. Qed.
Notation vals := (fun T : ptree => bin_map p_val (bin_map snd T)).
Lemma pathK_zfind x T : pathK (zfind x T).1 = turns x (vals T).
Proof.
  induction T as [|l IHl ix u IHu]; [done|]. cbn [zfind bin_map turns]. destruct (decide (x = p_val ix.2)) as [->|Hne].
  - by rewrite bool_decide_eq_true_2.
  - rewrite bool_decide_eq_false_2 //. destruct (num_ltb x (p_val ix.2)); cbn [fst]; rewrite pathK_app; cbn [pathK app]; by f_equal.
Qed.
Lemma to_leftmost_map {A B} (f : A -> B) t : to_leftmost (bin_map f t) = to_leftmost t.
Proof. induction t as [|l IHl y r IHr]; [done|]. destruct l; [done|]. cbn [bin_map to_leftmost]. f_equal. exact IHl. Qed.
Lemma to_rightmost_map {A B} (f : A -> B) t : to_rightmost (bin_map f t) = to_rightmost t.
Proof. induction t as [|l IHl y r IHr]; [done|]. destruct r; [done|]. cbn [bin_map to_rightmost]. f_equal. exact IHr. Qed.
Lemma nlevels_map {A B} (f : A -> B) t : nlevels (bin_map f t) = nlevels t.
Proof. induction t as [|l IHl y r IHr]; [done|]. cbn -[Nat.max]. by rewrite IHl IHr. Qed.
Lemma even_map {A B} (f : A -> B) t : even_root (bin_map f t) = even_root t.
Proof. destruct t; [done|]. cbn [bin_map even_root]. by rewrite !nlevels_map. Qed.
Lemma shrinks_map {A B} (f : A -> B) t p : shrinks (bin_map f t) p = shrinks t p.
Proof.
  revert p. induction t as [|l IHl y r IHr]; intros p; [done|]. destruct p as [|[] p]; [done|..]; cbn [bin_map shrinks]; by rewrite ?IHl ?IHr !even_map !nlevels_map.
Qed.
Lemma wrong_map {A B} (f : A -> B) t : wrong_side (bin_map f t) <-> wrong_side t.
Proof. destruct t as [|a y [|b1 z b2]]; [done|done|]. unfold wrong_side. cbn [bin_map]. change (Bin (bin_map f b1) (f z) (bin_map f b2)) with (bin_map f (Bin b1 z b2)). by rewrite !nlevels_map. Qed.
Lemma steady_map {A B} (f : A -> B) t p : steady (bin_map f t) p <-> steady t p.
Proof.
  revert p. induction t as [|l IHl y r IHr]; intros p; [done|]. destruct p as [|[] p]; [done|..]; cbn [bin_map steady]; [|by apply IHl].
  by rewrite IHr shrinks_map !nlevels_map wrong_map.
Qed.
(** The frames of [zrep] are those of the tree, up to the value that moves. *)
Lemma steadyK_frame K1 K l ix ix' : forall h b, steadyK (K1 ++ InR l ix :: K) h b = steadyK (K1 ++ InR l ix' :: K) h b.
Proof. induction K1 as [|[jy u|l1 jy] K1 IH]; intros h b; cbn [app steadyK]; [done|..]; by rewrite IH. Qed.
Lemma steadyK_frameL K1 K u ix ix' : forall h b, steadyK (K1 ++ InL ix u :: K) h b = steadyK (K1 ++ InL ix' u :: K) h b.
Proof. induction K1 as [|[jy u1|l1 jy] K1 IH]; intros h b; cbn [app steadyK]; [done|..]; by rewrite IH. Qed.
Lemma avlK_frame K1 K l ix ix' : forall h, avlK (K1 ++ InR l ix :: K) h = avlK (K1 ++ InR l ix' :: K) h.
Proof. induction K1 as [|[jy u|l1 jy] K1 IH]; intros h; cbn [app avlK]; [done|..]; by rewrite IH. Qed.
Lemma avlK_frameL K1 K u ix ix' : forall h, avlK (K1 ++ InL ix u :: K) h = avlK (K1 ++ InL ix' u :: K) h.
Proof. induction K1 as [|[jy u1|l1 jy] K1 IH]; intros h; cbn [app avlK]; [done|..]; by rewrite IH. Qed.
Lemma zrep_place x T l ix u : (zfind x T).2 = Bin l ix u -> exists K0 K1 t0, zrep CAVL (zfind x T) = (K1, t0) /\
  plug K0 t0 = T /\ pathK K0 = gap x (vals T) /\
  (forall h, avlK K1 h = avlK K0 h) /\ (forall h b, steadyK K1 h b = steadyK K0 h b).
Proof.
  intros Hz. pose proof (zfind_plug x T) as HP. pose proof (pathK_zfind x T) as Hp. unfold gap. rewrite subtree_at_zfind -Hp.
  destruct (zfind x T) as [K t]. cbn [fst snd] in *. subst t. destruct u as [|u1 jy u2].
  - destruct l as [|l1 jy l2].
    + exists K, K, (Bin Nil ix Nil). cbn [bin_map]. rewrite app_nil_r. done.
    + destruct (zmax_shape (Bin l1 jy l2)) as (l3 & ky & E); [done|]. 
      exists ((zmax (Bin l1 jy l2)).1 ++ InL ix Nil :: K). eexists _, _. split.
      { cbn [zrep]. rewrite E. reflexivity. } rewrite -E. split; [by rewrite plug_app zmax_plug|]. split; [|split; intros; [apply avlK_frameL|apply steadyK_frameL]].
      rewrite pathK_app pathK_zmax. cbn [pathK]. rewrite -(to_rightmost_map (fun ix => p_val ix.2)).
      assert (forall t : ptree, bin_map (fun ix => p_val ix.2) t = vals t) as EM. { induction t as [|? IH1 ? ? IH2]; [done|]. cbn [bin_map]. by rewrite IH1 IH2. }
      rewrite EM -app_assoc. done.
  - destruct (zmin_shape (Bin u1 jy u2)) as (ky & l3 & E); [done|]. 
    exists ((zmin (Bin u1 jy u2)).1 ++ InR l ix :: K). eexists _, _. split.
    { cbn [zrep]. rewrite E. reflexivity. } rewrite -E. split; [by rewrite plug_app zmin_plug|]. split; [|split; intros; [apply avlK_frame|apply steadyK_frame]].
    rewrite pathK_app pathK_zmin. cbn [pathK]. rewrite -(to_leftmost_map (fun ix => p_val ix.2)).
    assert (forall t : ptree, bin_map (fun ix => p_val ix.2) t = vals t) as EM. { induction t as [|? IH1 ? ? IH2]; [done|]. cbn [bin_map]. by rewrite IH1 IH2. }
    rewrite EM -app_assoc. cbn [bin_map]. by destruct (bin_map p_val (bin_map snd l)).
Qed.
Lemma short_shrinks t : exact t -> t <> Nil -> short t -> exact (chain CAVL t) /\ avlb (chain CAVL t) /\ hh t = S (hh (chain CAVL t)).
Proof.
  intros He Hn H. split; [by apply short_chain|]. pose proof (exact_hh _ He) as HE. pose proof (exact_hh _ (proj1 (short_chain _ H))) as HE2. rewrite HE HE2.
  destruct t as [|l ix u]; [done|]. destruct l as [|l1 jy l2].
  - destruct u as [|u1 jy u2]; [done|]. destruct H as [?|H]; [done|]. destruct u1, u2; try done. cbn. lia.
  - destruct u; [|done]. change (leafb (Bin l1 jy l2) = true) in H. destruct l1, l2; try done. cbn. lia.
Qed.
Lemma avl_del_iff x T : avl_ok T -> increasing (ino T) -> x ∈ ino T ->
  (avlb (avl_del (zfind x T)) <-> steady (vals T) (gap x (vals T))).
Proof.
  intros [He Ha] Hi Hx. apply zfind_in in Hx; [|done]. destruct ((zfind x T).2) as [|l ix u] eqn:EZ; [done|].
  destruct (zrep_place x T l ix u EZ) as (K0 & K1 & t0 & Er & EP & Ep & E1 & E2).
  pose proof (zfind_plug x T) as HP. assert (exactK K1 /\ short t0) as [HK HS].
  { destruct (zfind x T) as [K t]. cbn [fst snd] in *. subst t. rewrite -HP in He Ha. pose proof (zrep_exact K l ix u He Ha) as H. by rewrite Er in H. }
  assert (exact t0 /\ avlb t0 /\ avlK K0 (hh t0)) as (Et & At & AK). { rewrite -EP in He Ha. destruct (avl_plug _ _ He Ha). split_and!; try done. by apply exact_plug in He as [? _]. }
  destruct (short_shrinks t0 Et) as (S1 & S2 & S3); [by destruct t0|done|].
  unfold avl_del. rewrite Er. cbn [fst snd]. rewrite climb_iff; [|done|done|done|by rewrite -S3 E1].
  rewrite E2 -S3 -Ep. rewrite !steady_map. pose proof (steady_plug K0 t0 []) as HSp. rewrite EP app_nil_r in HSp. rewrite (HSp He).
  split; [|by destruct t0; intros [_ ?]]. intros ?. by destruct t0.
Qed.

(** ** The removal *)
Lemma avl_remove_iff s T x : rep s T -> avl_ok T -> increasing (ino T) ->
  exists s' T', tree_remove CAVL (PNum x) s = Ok (bool_decide (x ∉ ino T)) s' /\ rep s' T' /\ ino T' = set_del x (ino T) /\
    exact T' /\ (avlb T' <-> (x ∈ ino T -> steady (vals T) (gap x (vals T)))).
Proof.
  intros H HA Hinc. cbn [tree_remove]. unfold avl_remove.
  edestruct (remove_guard s T x (fun x => let! length_before := get_len in
    let! r := remove_value CAVL x in
    let! length_after := get_len in
    if Z.eqb length_after length_before then ret (fst r)
    else
      let! n := get_fuel in
      avl_up n (snd r) ;;
      ret (fst r)) (fun w T' => w = bool_decide (x ∉ ino T) /\ ino T' = set_del x (ino T) /\
    exact T' /\ (avlb T' <-> (x ∈ ino T -> steady (vals T) (gap x (vals T))))) H) as (w & s' & T' & E & HR & -> & HQ); [| | |by exists s', T'].
  - intros ->. split_and!; try done.
  - intros l ix u -> Hl ->. destruct l, u; try done. cbn [ino app]. split_and!; try done.
    + symmetry. apply bool_decide_eq_false. set_solver.
    + unfold set_del. rewrite filter_cons_False; [|tauto]. done.
    + split; [|done]. intros _ _. cbn [bin_map]. unfold gap. cbn [turns subtree_at]. rewrite !decide_True //.
  - intros HT Hl. destruct (decide (x ∈ ino T)) as [Hx|Hx].
    + assert ((zfind x T).1 = [] -> leafb (zfind x T).2 = false) as HL.
      { intros HK. pose proof (zfind_plug x T) as HP. pose proof (zfind_val x T) as HV.
        destruct (zfind x T) as [K t]. cbn [fst snd] in *. subst K. cbn in HP. subst t.
        destruct (leafb T) eqn:El; [|done]. exfalso. destruct T as [|l ix u]; [done|]. by eapply Hl; [..|symmetry; apply (HV l ix u)]. }
      assert (exact (avl_del (zfind x T)) /\ ino (avl_del (zfind x T)) = set_del x (ino T)) as [HE HI].
      { destruct HA as [He Ha]. apply zfind_in in Hx; [|done]. pose proof (zfind_plug x T) as HP.
        destruct (zfind x T) as [K t] eqn:EZ. cbn [fst snd] in *. destruct t as [|l ix u]; [done|]. rewrite -HP in He Ha.
        pose proof (zrep_exact K l ix u He Ha) as [HK HS]. apply short_chain in HS as [HS _].
        split; [by apply climb_exact|]. unfold avl_del. rewrite climb_ino //.
        assert (~ (K = [] /\ l = Nil /\ u = Nil)) as HL2. { intros (-> & -> & ->). by specialize (HL eq_refl). }
        rewrite -(ino_zremove CAVL (K, Bin l ix u)); [|by right|].
        - rewrite (zremove_ino CAVL K l ix u HL2). apply (removed_exact CAVL x T); [done|unfold removed; by rewrite EZ|].
          rewrite EZ. cbn [snd]. apply avl_replaceable; [by eapply exact_plug|by eapply avlb_plug].
        - unfold zrep. cbn zeta. destruct u as [|u1 jy u2]; [destruct l as [|l1 jy l2]|].
          + intros HK0. by apply HL2.
          + destruct (zmax_shape (Bin l1 jy l2)) as (l3 & ky & E); [done|]. rewrite E. cbn [fst]. intros E'. by apply app_nil in E' as [_ ?].
          + destruct (zmin_shape (Bin u1 jy u2)) as (ky & l3 & E); [done|]. rewrite E. cbn [fst]. intros E'. by apply app_nil in E' as [_ ?]. }
      pose proof (avl_del_iff x T HA Hinc Hx) as Hiff.
      iIntros "HT". iApply (twp_avl_remove x T); [done..|]. iFrame "HT". iIntros "HT". wpost (avl_del (zfind x T)); try done.
      * symmetry. apply bool_decide_eq_false. tauto.
      * rewrite Hiff. tauto.
      * rewrite -(rest_size x T) // -HI ino_length. lia.
    + iIntros "HT". wbind. iApply twp_get_len. wbind. pose proof (zfind_in x T Hinc) as HZ.
      destruct ((zfind x T).2) as [|? ? ?] eqn:EZ; [|exfalso; apply Hx, HZ; done].
      iApply (twp_remove_value CAVL x T); [done|done| |].
      { intros HK. by rewrite EZ. }
      iFrame "HT". rewrite EZ. iIntros (j) "%Hj HT". wbind. iApply twp_get_len. rewrite Z.eqb_refl. wret.
      wpost T; try done.
      * symmetry. by apply bool_decide_eq_true.
      * by rewrite set_del_notin.
      * apply HA.
      * split; [done|]. intros _. apply HA.
Qed.
