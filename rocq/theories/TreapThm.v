(** * Treap: insertion and removal *)
From Coq Require Import Sorted.
From iris.proofmode Require Import proofmode.
From Verif Require Import Base NumOrd TreeModel TreeSpec BstModel BalModel BstSpec BstSep BstRules BstZip BstDel BinThm BstPure BstThm AvlThm.
Local Open Scope py_scope.

(** ** Payloads in order *)
Definition pin (T : ptree) : list pay := inorder (bin_map snd T).
Fixpoint pzl (K : ctx) : list pay :=
  match K with [] => [] | InL _ _ :: K' => pzl K' | InR u ix :: K' => pzl K' ++ pin u ++ [ix.2] end.
Fixpoint pzr (K : ctx) : list pay :=
  match K with [] => [] | InL ix u :: K' => ix.2 :: pin u ++ pzr K' | InR _ _ :: K' => pzr K' end.
Lemma pin_bin l ix u : pin (Bin l ix u) = pin l ++ ix.2 :: pin u.
Proof. done. Qed.
Lemma pin_plug K : forall t, pin (plug K t) = pzl K ++ pin t ++ pzr K.
Proof.
  induction K as [|[ix u|u ix] K IH]; intros t; cbn [plug pzl pzr fill]; [by rewrite app_nil_r|..]; rewrite IH pin_bin -!app_assoc //.
Qed.
Lemma ino_pin T : ino T = map p_val (pin T).
Proof. by rewrite -inorder_pays. Qed.
Lemma zl_pzl K : zl K = map p_val (pzl K).
Proof. induction K as [|[ix u|u ix] K IH]; cbn [zl pzl]; try done. rewrite !map_app IH ino_pin //. Qed.
Lemma zr_pzr K : zr K = map p_val (pzr K).
Proof. induction K as [|[ix u|u ix] K IH]; cbn [zr pzr]; try done. rewrite /= !map_app IH ino_pin //. Qed.

(** ** Heap order *)
Notation pr ix := (p_prio (snd ix)).
Definition tle (t : ptree) (p : num) : Prop := match t with Nil => True | Bin _ ix _ => num_le (pr ix) p end.
Fixpoint heap (t : ptree) : Prop :=
  match t with Nil => True | Bin l ix u => tle l (pr ix) /\ tle u (pr ix) /\ heap l /\ heap u end.
Definition topK (K : ctx) (p : num) : Prop := match K with [] => True | f :: _ => num_le p (pr (fnode f)) end.
Definition leK (K : ctx) (t : ptree) : Prop := match t with Nil => True | Bin _ ix _ => topK K (pr ix) end.
Fixpoint heapK (K : ctx) : Prop :=
  match K with
  | [] => True
  | InL ix u :: K' | InR u ix :: K' => tle u (pr ix) /\ heap u /\ topK K' (pr ix) /\ heapK K'
  end.
Lemma heap_ordered_heap T : heap T <-> heap_ordered (bin_map snd T).
Proof.
  assert (forall (t : ptree) p, tle t p <-> root_prio_le (bin_map snd t) p) as HL.
  { intros [|l ix u] p; [done|]. cbn. by rewrite num_ltb_le. }
  induction T as [|l IHl ix u IHu]; [done|]. cbn [heap bin_map heap_ordered]. by rewrite IHl IHu !HL.
Qed.
Lemma heap_plug K : forall t, heap (plug K t) <-> heap t /\ leK K t /\ heapK K.
Proof.
  induction K as [|[ix u|u ix] K IH]; intros t; cbn [plug fill heapK].
  - destruct t; cbn; tauto.
  - rewrite IH. cbn [heap leK]. destruct t; cbn [leK tle topK fnode]; tauto.
  - rewrite IH. cbn [heap leK]. destruct t; cbn [leK tle topK fnode]; tauto.
Qed.
Lemma tle_trans t p q : tle t p -> num_le p q -> tle t q.
Proof. destruct t; [done|]. apply num_le_trans. Qed.
Lemma topK_trans K p q : num_le p q -> topK K q -> topK K p.
Proof. destruct K; [done|]. apply num_le_trans. Qed.
Lemma leK_tle K t p : tle t p -> topK K p -> leK K t.
Proof. destruct t; [done|]. cbn. apply topK_trans. Qed.

(** ** Climbing *)
Fixpoint tup (K : ctx) (l : ptree) (jy : nat * pay) (u : ptree) : ptree :=
  match K with
  | [] => Bin l jy u
  | InL ix v :: K' => if num_ltb (pr jy) (pr ix) then plug K (Bin l jy u) else tup K' l jy (Bin u ix v)
  | InR v ix :: K' => if num_ltb (pr jy) (pr ix) then plug K (Bin l jy u) else tup K' (Bin v ix l) jy u
  end.
Lemma tup_pin K : forall l jy u, pin (tup K l jy u) = pzl K ++ (pin l ++ jy.2 :: pin u) ++ pzr K.
Proof.
  induction K as [|[ix v|v ix] K IH]; intros l jy u; cbn [tup].
  - cbn [pzl pzr]. by rewrite app_nil_r.
  - case_match; [by rewrite pin_plug|]. rewrite IH pin_bin. cbn [pzl pzr]. by rewrite -?app_assoc /= -?app_assoc.
  - case_match; [by rewrite pin_plug|]. rewrite IH pin_bin. cbn [pzl pzr]. by rewrite -?app_assoc /= -?app_assoc.
Qed.
Lemma tup_heap K : forall l jy u, heap (Bin l jy u) -> leK K l -> leK K u -> heapK K -> heap (tup K l jy u).
Proof.
  induction K as [|[ix v|v ix] K IH]; intros l jy u Ht Hl Hu HK; cbn [tup]; [done|..].
  - case_match eqn:E.
    + apply heap_plug. split_and!; try done. cbn. by apply num_ltb_lt.
    + destruct HK as (H1 & H2 & H3 & H4). apply num_ltb_le in E. destruct Ht as (Ht1 & Ht2 & Ht3 & Ht4). apply IH; try done.
      eapply (leK_tle K l (pr ix)); [by destruct l|done].
  - case_match eqn:E.
    + apply heap_plug. split_and!; try done. cbn. by apply num_ltb_lt.
    + destruct HK as (H1 & H2 & H3 & H4). apply num_ltb_le in E. destruct Ht as (Ht1 & Ht2 & Ht3 & Ht4). apply IH; try done.
      eapply (leK_tle K u (pr ix)); [by destruct u|done].
Qed.
Lemma recontext_treap t K : recontext CTreap t K = K.
Proof. by destruct K as [|[[i x] u|u [i x]] K]. Qed.
Lemma node_treap l i x u : node CTreap l (i, x) u = Bin l (i, x) u.
Proof. done. Qed.
Lemma twp_treap_up fu : forall K l j y u r n Q, length K <= fu -> r = croot K (Some j) ->
  increasing (zl K ++ ino (Bin l (j, y) u) ++ zr K) ->
  ctxp K (Some j) ∗ tree (cpar K) (Bin l (j, y) u) ∗
  (tree None (tup K l (j, y) u) -∗ Q tt (rp (tup K l (j, y) u)) n) ⊢
  twp (treap_up fu (cpar K) j) r n Q.
Proof.
  induction fu as [|fu IH]; intros K l j y u r n Q Hfu Hr Hinc.
  { destruct K; [|cbn in Hfu; lia]. iIntros "(_ & HT & HQ)". cbn in Hr. subst r. cbn. wret. by iApply "HQ". }
  destruct K as [|f K].
  { iIntros "(_ & HT & HQ)". cbn in Hr. subst r. cbn. wret. by iApply "HQ". }
  cbn in Hfu. destruct f as [[i x] v|v [i x]]; cbn [ctxp tree cpar fnode fst snd rp].
  - iIntros "((Hi & Hv & HK) & (Hj & Hl & Hu) & HQ)". cbn [treap_up]. wget. unfold get_prio. wbind. wbind. wrd. wret. wbind. wbind. wrd. wret.
    cbn [tup snd fst]. destruct (num_ltb (p_prio y) (p_prio x)) eqn:E.
    + wret. rewrite Hr. cbn [croot plug fill fnode fst]. rewrite rp_plug. cbn [rp fst]. iApply "HQ". rewrite -plug_tree. cbn [tree fst snd rp]. iFrame.
    + wbind. iApply (twp_is_left_child j y _ _ i x). iFrame "Hi Hj". iIntros "Hj Hi".
      assert (num_ltb (p_val y) (p_val x) = true) as ->. { by apply (side_ok_in (InL (i, x) v :: K) _ Hinc). }
      wbind. iApply (twp_rotate_right CTreap (cpar K) l i x u j y v). cbn [tree fst snd rp]. iFrame "Hi Hj Hl Hu Hv". rewrite !node_treap. iIntros "HT".
      assert (increasing (zl K ++ ino (Bin l (j, y) (Bin u (i, x) v)) ++ zr K)) as Hinc'.
      { cbn [zl zr ino snd] in Hinc |- *. by rewrite -!app_assoc /= -?app_assoc in Hinc |- *. }
      wbind. iApply (twp_attach CTreap K _ (cpar K) (Bin l (j, y) (Bin u (i, x) v))); [done|by apply side_ok_in|]. iFrame "HK HT".
      rewrite recontext_treap. iIntros "HK HT".
      iApply (IH K l j y (Bin u (i, x) v)); [lia|by destruct K; subst r|done|]. iFrame "HK HQ". by destruct K.
  - iIntros "((Hi & Hv & HK) & (Hj & Hl & Hu) & HQ)". cbn [treap_up]. wget. unfold get_prio. wbind. wbind. wrd. wret. wbind. wbind. wrd. wret.
    cbn [tup snd fst]. destruct (num_ltb (p_prio y) (p_prio x)) eqn:E.
    + wret. rewrite Hr. cbn [croot plug fill fnode fst]. rewrite rp_plug. cbn [rp fst]. iApply "HQ". rewrite -plug_tree. cbn [tree fst snd rp]. iFrame.
    + wbind. iApply (twp_is_left_child j y _ _ i x). iFrame "Hi Hj". iIntros "Hj Hi".
      assert (num_ltb (p_val y) (p_val x) = false) as ->. { by apply (side_ok_in (InR v (i, x) :: K) _ Hinc). }
      wbind. iApply (twp_rotate_left CTreap (cpar K) v i x l j y u). cbn [tree fst snd rp]. iFrame "Hi Hj Hl Hu Hv". rewrite !node_treap. iIntros "HT".
      assert (increasing (zl K ++ ino (Bin (Bin v (i, x) l) (j, y) u) ++ zr K)) as Hinc'.
      { cbn [zl zr ino snd] in Hinc |- *. by rewrite -!app_assoc /= -?app_assoc in Hinc |- *. }
      wbind. iApply (twp_attach CTreap K _ (cpar K) (Bin (Bin v (i, x) l) (j, y) u)); [done|by apply side_ok_in|]. iFrame "HK HT".
      rewrite recontext_treap. iIntros "HK HT".
      iApply (IH K (Bin v (i, x) l) j y u); [lia|by destruct K; subst r|done|]. iFrame "HK HQ". by destruct K.
Qed.

(** ** Insertion *)
Definition pairs (T : ptree) : list (num * num) := pairs_of (bin_map snd T).
Lemma pairs_pin T : pairs T = map (fun x => (p_val x, p_prio x)) (pin T).
Proof. done. Qed.
Lemma pairs_fst T : map fst (pairs T) = ino T.
Proof. rewrite pairs_pin ino_pin map_map. by apply map_ext. Qed.
Definition pq (x : pay) : num * num := (p_val x, p_prio x).
Lemma ino_of_pin K t T : pin T = pzl K ++ pin t ++ pzr K -> ino T = ino (plug K t).
Proof. rewrite !ino_pin. intros ->. by rewrite pin_plug. Qed.
Lemma treap_insert_run s T x p q : rep s T -> prio_val p = Some q -> heap T -> increasing (ino T) ->
  exists s' T', tree_insert CTreap (PNum x) p s = Ok (bool_decide (x ∈ ino T)) s' /\ rep s' T' /\ ino T' = set_add x (ino T) /\
    heap T' /\ pairs T' ≡ₚ pairs_next (TInsert (PNum x) p) (pairs T).
Proof.
  intros H Hq Hh Hinc. cbn [tree_insert pairs_next]. rewrite Hq pairs_fst. unfold treap_insert. rewrite (bind_ok (check_number (PNum x)) _ s x s eq_refl).
  assert (check_prio p s = Ok q s) as Ep. { unfold prio_val, check_prio in *. destruct p as [d|[]]; naive_solver. }
  rewrite (bind_ok _ _ _ _ _ Ep). rewrite (bind_ok _ _ _ _ _ (rep_empty s T H)). destruct (decide (T = Nil)) as [->|HT].
  { destruct (new_root s q x H) as (i & s' & E & HR). exists s', (leaf_of i (Pay x 0 q Red)). split_and!; try done. }
  assert ((match T with Nil => true | _ => false end) = false) as -> by (by destruct T).
  edestruct (rep_run (let! r := insert_value CTreap x q in
     let! p := get_parent r.2 in let! n := get_fuel in treap_up n p r.2;; ret r.1) s T
     (fun w T' => w = bool_decide (x ∈ ino T) /\ ino T' = set_add x (ino T) /\ heap T' /\
        pairs T' ≡ₚ (if decide (x ∈ ino T) then pairs T else (x, q) :: pairs T)) H) as (w & s' & T' & E & HR & -> & HQ); [|by exists s', T'].
  rewrite -(found_in x T Hinc).
  iIntros "HT". wbind. iApply (twp_insert_value CTreap x q T); [done|done|]. iFrame "HT". iIntros (w j new) "%Hw HT".
  pose proof (zfind_plug x T) as HP. pose proof (insert_size x T Hinc) as HSz.
  pose proof (zinsert_ino CTreap x new (Pay x 0 q Red) T eq_refl HT Hinc) as HI.
  pose proof (zfind_in x T Hinc) as HZ.
  unfold found in *.
  assert (exists K l y u, zinsert CTreap x new (Pay x 0 q Red) T = plug K (Bin l (j, y) u) /\
     heap (Bin l (j, y) u) /\ leK K l /\ leK K u /\ heapK K /\
     pairs (plug K (Bin l (j, y) u)) ≡ₚ (if decide (x ∈ ino T) then pairs T else (x, q) :: pairs T) /\
     w = (match (zfind x T).2 with Nil => false | _ => true end)) as (K & l & y & u & EZ & Ht & HKl & HKu & HK & HPs & ->).
  { unfold zinsert. destruct (zfind x T) as [K t] eqn:EZ. cbn [fst snd] in *. rewrite -HP in Hh. apply heap_plug in Hh as (Ht & HKt & HK).
    destruct t as [|l [i y] u].
    - destruct Hw as [-> ->]. destruct K as [|f K]; [by subst|].
      exists (f :: K), Nil, (Pay x 0 q Red), Nil. split_and!; try done.
      + by destruct f as [[] ?|? []].
      + rewrite decide_False; [|tauto]. rewrite -HP !pairs_pin !pin_plug !map_app /=. by rewrite Permutation_middle.
    - destruct Hw as [-> Hw]. injection Hw as ->. exists K, l, y, u. cbn [heap] in Ht. cbn [leK] in HKt. destruct Ht as (? & ? & ? & ?). split_and!; try done.
      + by destruct K.
      + by eapply leK_tle.
      + by eapply leK_tle.
      + rewrite decide_True; [|by apply HZ]. by rewrite -HP. }
  rewrite EZ. assert (increasing (zl K ++ ino (Bin l (j, y) u) ++ zr K)) as Hi2. { rewrite -ino_plug -EZ HI. by apply set_add_inc. }
  wbind. iApply (twp_get_parent_at (plug K (Bin l (j, y) u)) K l (j, y) u); [done|done|]. iFrame "HT". iIntros "HT". iDestruct (tree_at with "HT") as "[HK HT]".
  wbind. iApply (twp_get_fuel (ctxp K (rp (Bin l (j, y) u))) (length K)); [apply plug_atleast|]. iFrame "HK". iIntros (fu Hfu) "HK".
  wbind. iApply (twp_treap_up fu K l j y u); [lia| |done|].
  { rewrite -(rp_zinsert CTreap x new (Pay x 0 q Red)) // EZ rp_plug. done. }
  iFrame "HK HT". iIntros "HT". wret. cbn [fst].
  pose proof (tup_pin K l (j, y) u) as HPin. rewrite -(pin_bin l (j, y) u) -pin_plug in HPin.
  assert (ino (tup K l (j, y) u) = set_add x (ino T)) as HI'. { rewrite ino_pin HPin -ino_pin -EZ HI //. }
  wpost (tup K l (j, y) u); [done|done|by apply tup_heap| |done| |done].
  - by rewrite pairs_pin HPin.
  - rewrite -(ino_length (tup _ _ _ _)) HI' HSz. destruct (zfind x T).2; lia.
Qed.

(** ** Sinking *)
Lemma heap_max T y : heap T -> y ∈ pin T -> forall l ix u, T = Bin l ix u -> num_le (p_prio y) (pr ix).
Proof.
  revert y. induction T as [|l IHl ix u IHu]; intros y Hh Hy ? ? ? [= <- <- <-]. destruct Hh as (H1 & H2 & H3 & H4).
  rewrite pin_bin elem_of_app elem_of_cons in Hy. destruct Hy as [Hy|[->|Hy]]; [|apply num_le_refl|].
  - destruct l as [|l1 jy l2]; [by apply elem_of_nil in Hy|]. eapply num_le_trans; [by eapply IHl|done].
  - destruct u as [|l1 jy l2]; [by apply elem_of_nil in Hy|]. eapply num_le_trans; [by eapply IHu|done].
Qed.
Definition tprio (t : ptree) : num := match t with Nil => Fin (-1) | Bin _ ix _ => pr ix end.
Fixpoint tdown (n : nat) (K : ctx) (l u : ptree) : ctx :=
  match n with
  | 0 => K
  | S n =>
      match l, u with
      | Nil, Nil => K
      | _, _ =>
          if num_ltb (tprio u) (tprio l) then match l with Bin a jy b => tdown n (InR a jy :: K) b u | Nil => K end
          else match u with Bin a jy b => tdown n (InL jy b :: K) l a | Nil => K end
      end
  end.
(** All priorities are above -1. *)
Definition okp (l : list pay) : Prop := Forall (fun x => num_lt (Fin (-1)) (p_prio x)) l.
Lemma okp_app l l' : okp (l ++ l') <-> okp l /\ okp l'.
Proof. apply Forall_app. Qed.
Lemma okp_cons x l : okp (x :: l) <-> num_lt (Fin (-1)) (p_prio x) /\ okp l.
Proof. unfold okp. by rewrite Forall_cons. Qed.
(** The node can sink to the bottom: its in-order neighbours below it have priorities
    above -1 (on the left) and at least -1 (on the right). *)
Definition sk (l u : ptree) : Prop :=
  (forall p, last (pin l) = Some p -> num_lt (Fin (-1)) (p_prio p)) /\ (forall q, head (pin u) = Some q -> num_le (Fin (-1)) (p_prio q)).
Lemma pin_nil t : pin t = [] -> t = Nil.
Proof. destruct t as [|l ix u]; [done|]. rewrite pin_bin. by destruct (pin l). Qed.
Lemma last_pin a jy b : last (pin (Bin a jy b)) = match pin b with [] => Some jy.2 | _ => last (pin b) end.
Proof. rewrite pin_bin. destruct (pin b) as [|y l] eqn:E; [by rewrite last_snoc|]. rewrite -E last_app last_cons E. by destruct (last_is_Some (y :: l)) as [_ [z ->]]. Qed.
Lemma head_pin a jy b : head (pin (Bin a jy b)) = match pin a with [] => Some jy.2 | _ => head (pin a) end.
Proof. rewrite pin_bin. by destruct (pin a). Qed.
Lemma num_lt_le a b c : num_lt a b -> num_le b c -> num_lt a c.
Proof. unfold num_lt, num_le. destruct a, b, c; cbn; try done; rewrite ?Z.ltb_lt; lia. Qed.
Lemma num_le_lt a b c : num_le a b -> num_lt b c -> num_lt a c.
Proof. unfold num_lt, num_le. destruct a, b, c; cbn; try done; rewrite ?Z.ltb_lt; lia. Qed.
Lemma sk_left l u : heap l -> sk l u -> l = Nil \/ num_lt (Fin (-1)) (tprio l).
Proof.
  intros Hh [H _]. destruct l as [|a jy b]; [by left|right]. destruct (last (pin (Bin a jy b))) as [p|] eqn:E.
  - eapply num_lt_le; [by apply H|]. eapply heap_max; [done|by apply last_Some_elem_of|done].
  - apply last_None, pin_nil in E. done.
Qed.
Lemma sk_right l u : heap u -> sk l u -> num_le (Fin (-1)) (tprio u).
Proof.
  intros Hh [_ H]. destruct u as [|a jy b]; [apply num_le_refl|]. destruct (head (pin (Bin a jy b))) as [p|] eqn:E.
  - eapply num_le_trans; [by apply H|]. eapply heap_max; [done|by apply head_Some_elem_of|done].
  - apply head_None, pin_nil in E. done.
Qed.
Lemma sk_okp l u : okp (pin l) -> okp (pin u) -> sk l u.
Proof.
  unfold okp. rewrite !Forall_forall. intros Hl Hu. split; intros p Hp; [by apply Hl, last_Some_elem_of|]. by apply num_ltb_lt, Hu, head_Some_elem_of.
Qed.
(** A step of sinking keeps that condition, and its failure. *)
Lemma sk_step_left a jy b u : heap (Bin a jy b) -> heap u -> num_ltb (tprio u) (pr jy) = true -> sk b u <-> sk (Bin a jy b) u.
Proof.
  intros Hl Hu E. split.
  - intros H. split; [|apply H]. intros p. rewrite last_pin. destruct (pin b) eqn:Eb; [|rewrite -Eb; apply H]. intros [= <-].
    eapply num_le_lt; [by apply (sk_right b u)|done].
  - intros H. split; [|apply H]. intros p Hp. apply H. rewrite last_pin. by destruct (pin b).
Qed.
Lemma sk_step_right l a jy b : heap l -> heap (Bin a jy b) -> num_ltb (pr jy) (tprio l) = false -> sk l a <-> sk l (Bin a jy b).
Proof.
  intros Hl Hu E. apply num_ltb_le in E. split.
  - intros H. split; [apply H|]. intros p. rewrite head_pin. destruct (pin a) eqn:Ea; [|rewrite -Ea; apply H]. intros [= <-].
    destruct (sk_left l a Hl H) as [->|H']; [done|]. apply num_ltb_lt. by eapply num_lt_le.
  - intros H. split; [apply H|]. intros p Hp. apply H. rewrite head_pin. by destruct (pin a).
Qed.
(** The three ways a sinking step can go. *)
Lemma tdown_cases n K l u (P : ctx -> Prop) : heap l -> heap u -> sk l u ->
  (l = Nil -> u = Nil -> P K) ->
  (forall a jy b, l = Bin a jy b -> num_ltb (tprio u) (tprio l) = true -> tle u (pr jy) -> heap b -> sk b u -> P (tdown n (InR a jy :: K) b u)) ->
  (forall a jy b, u = Bin a jy b -> num_ltb (tprio u) (tprio l) = false -> tle l (pr jy) -> heap a -> sk l a -> P (tdown n (InL jy b :: K) l a)) ->
  P (tdown (S n) K l u).
Proof.
  intros Hl Hu Hk H0 H1 H2. cbn [tdown]. destruct l as [|a jy b].
  - destruct u as [|a jy b]; [by apply H0|].
    destruct (num_ltb (tprio (Bin a jy b)) (tprio Nil)) eqn:E; [exfalso|].
    + apply (sk_right _ _ Hu), num_ltb_le in Hk. cbn [tprio] in E, Hk. congruence.
    + apply H2; try done; [by destruct Hu as (_ & _ & ? & _)|]. by apply (sk_step_right Nil a jy b).
  - destruct (num_ltb (tprio u) (tprio (Bin a jy b))) eqn:E.
    + replace (match u with Nil | _ => tdown n (InR a jy :: K) b u end) with (tdown n (InR a jy :: K) b u) by (by destruct u).
      apply H1; try done; [|by destruct Hl as (_ & _ & _ & ?)|by apply (sk_step_left a jy b u)]. destruct u; [done|]. by apply num_ltb_lt.
    + destruct u as [|c kz d]; [exfalso|].
      * apply (sk_left _ _ Hl) in Hk as [?|Hk]; [done|]. unfold num_lt in Hk. cbn [tprio] in E, Hk. congruence.
      * apply H2; try done; [cbn; by apply num_ltb_le|by destruct Hu as (_ & _ & ? & _)|]. by apply (sk_step_right _ c kz d).
Qed.
Lemma tdown_split n : forall K l u, bsize l + bsize u <= n -> heap l -> heap u -> sk l u ->
  pzl (tdown n K l u) = pzl K ++ pin l /\ pzr (tdown n K l u) = pin u ++ pzr K.
Proof.
  induction n as [|n IH]; intros K l u Hn Hl Hu Hk.
  { destruct l, u; cbn in Hn; try lia. cbn [tdown]. by rewrite app_nil_r. }
  pattern (tdown (S n) K l u). apply tdown_cases; try done.
  - intros -> ->. by rewrite app_nil_r.
  - intros a jy b -> _ _ Hb Hk'. cbn in Hn. destruct (IH (InR a jy :: K) b u) as [-> ->]; [lia|done..|]. cbn [pzl pzr]. by rewrite pin_bin -?app_assoc /= -?app_assoc.
  - intros a jy b -> _ _ Ha Hk'. cbn in Hn. destruct (IH (InL jy b :: K) l a) as [-> ->]; [lia|done..|]. cbn [pzl pzr]. by rewrite pin_bin -?app_assoc /= -?app_assoc.
Qed.
Lemma tdown_heap n : forall K l u, bsize l + bsize u <= n -> sk l u ->
  heap l -> heap u -> leK K l -> leK K u -> heapK K -> heapK (tdown n K l u).
Proof.
  induction n as [|n IH]; intros K l u Hn Hk Hhl Hhu HKl HKu HK; [done|].
  pattern (tdown (S n) K l u). apply tdown_cases; try done.
  - intros a jy b -> _ Htu Hb Hk'. cbn in Hn. destruct Hhl as (? & ? & ? & ?). apply IH; try done; lia.
  - intros a jy b -> _ Htl Ha Hk'. cbn in Hn. destruct Hhu as (? & ? & ? & ?). apply IH; try done; lia.
Qed.
Lemma tdown_nonempty n : forall K l u, bsize l + bsize u <= n -> heap l -> heap u -> sk l u ->
  ~ (K = [] /\ l = Nil /\ u = Nil) -> tdown n K l u <> [].
Proof.
  induction n as [|n IH]; intros K l u Hn Hl Hu Hk HK.
  { destruct l, u; cbn in Hn; try lia. naive_solver. }
  pattern (tdown (S n) K l u). apply tdown_cases; try done.
  - naive_solver.
  - intros a jy b -> _ Htu Hb Hk'. cbn in Hn. apply IH; try done; [lia|]. naive_solver.
  - intros a jy b -> _ Htl Ha Hk'. cbn in Hn. apply IH; try done; [lia|]. naive_solver.
Qed.
Lemma twp_prio_of q t r n Q :
  tree q t ∗ (tree q t -∗ Q (tprio t) r n) ⊢ twp (prio_of (rp t)) r n Q.
Proof.
  iIntros "[Ht HQ]". destruct t as [|a [i x] b]; cbn [rp tree fst snd prio_of tprio].
  - wret. iApply "HQ". done.
  - iDestruct "Ht" as "(Hi & Ha & Hb)". unfold get_prio. wbind. wrd. wret. iApply "HQ". iFrame.
Qed.
Lemma twp_treap_down m : forall fu K l i x u r n Q, bsize l + bsize u <= m -> m <= fu -> heap l -> heap u -> sk l u ->
  r = croot K (Some i) -> increasing (zl K ++ ino (Bin l (i, x) u) ++ zr K) ->
  ctxp K (Some i) ∗ tree (cpar K) (Bin l (i, x) u) ∗
  (ctxp (tdown m K l u) (Some i) -∗ tree (cpar (tdown m K l u)) (Bin Nil (i, x) Nil) -∗
     Q (cpar (tdown m K l u), i) (croot (tdown m K l u) (Some i)) n) ⊢
  twp (treap_down fu (cpar K) i) r n Q.
Proof.
  induction m as [|m IH]; intros fu K l i x u r n Q Hm Hfu Hl Hu Hk -> Hinc.
  { destruct l, u; cbn in Hm; try lia. cbn [tdown tree fst snd]. iIntros "(HK & (Hi & _) & HQ)".
    destruct fu; cbn [treap_down]; wbind; iApply (twp_node_is_leaf i x Nil Nil); iFrame "Hi"; iIntros "Hi"; cbn [leafb]; wret;
      iApply ("HQ" with "HK"); cbn [tree fst snd rp]; iFrame; by iSplit. }
  destruct fu as [|fu]; [lia|]. cbn [treap_down].
  iIntros "(HK & HT & HQ)". cbn [tree fst snd]. iDestruct "HT" as "(Hi & Hl & Hu)".
  wbind. iApply (twp_node_is_leaf i x l u). iFrame "Hi". iIntros "Hi". destruct (leafb (Bin l (i, x) u)) eqn:El.
  { destruct l, u; try done. wret. cbn [tdown]. iApply ("HQ" with "HK"). cbn [tree fst snd]. iFrame. }
  wget. wget. wbind. iApply (twp_prio_of _ l). iFrame "Hl". iIntros "Hl". wbind. iApply (twp_prio_of _ u). iFrame "Hu". iIntros "Hu".
  iRevert "HQ". pattern (tdown (S m) K l u). apply tdown_cases; [done|done|done|by intros -> ->|..].
  - intros a [j y] b -> E Htu Hb Hk'. cbn in Hm. iIntros "HQ". rewrite E. cbn [tree fst snd].
    wbind. iApply (twp_rotate_right CTreap (cpar K) a i x b j y u). cbn [tree fst snd rp]. iFrame "Hi Hl Hu". rewrite !node_treap. iIntros "HT".
    assert (increasing (zl K ++ ino (Bin a (j, y) (Bin b (i, x) u)) ++ zr K)) as Hinc'.
    { cbn [zl zr ino snd] in Hinc |- *. by rewrite -?app_assoc /= -?app_assoc in Hinc |- *. }
    wbind. iApply (twp_attach CTreap K _ (cpar K) (Bin a (j, y) (Bin b (i, x) u))); [done|by apply side_ok_in|]. iFrame "HK HT".
    rewrite recontext_treap. iIntros "HK HT".
    iAssert (tree (cpar K) (Bin a (j, y) (Bin b (i, x) u))) with "[HT]" as "HT"; [by destruct K|].
    cbn [tree fst snd rp]. iDestruct "HT" as "(Hj & Ha & Hi & Hb & Hu)". wget. wbind. wret.
    iApply (IH fu (InR a (j, y) :: K) b i x u); [lia|lia|done|done|done| | |].
    + cbn [croot fnode fst]. by destruct K.
    + cbn [zl zr ino snd] in Hinc |- *. by rewrite -?app_assoc /= -?app_assoc in Hinc |- *.
    + cbn [ctxp cpar fnode tree fst snd]. iFrame.
  - intros a [j y] b -> E Htl Ha Hk'. cbn in Hm. iIntros "HQ". rewrite E. cbn [tree fst snd].
    wbind. iApply (twp_rotate_left CTreap (cpar K) l i x a j y b). cbn [tree fst snd rp]. iFrame "Hi Hl Hu". rewrite !node_treap. iIntros "HT".
    assert (increasing (zl K ++ ino (Bin (Bin l (i, x) a) (j, y) b) ++ zr K)) as Hinc'.
    { cbn [zl zr ino snd] in Hinc |- *. by rewrite -?app_assoc /= -?app_assoc in Hinc |- *. }
    wbind. iApply (twp_attach CTreap K _ (cpar K) (Bin (Bin l (i, x) a) (j, y) b)); [done|by apply side_ok_in|]. iFrame "HK HT".
    rewrite recontext_treap. iIntros "HK HT".
    iAssert (tree (cpar K) (Bin (Bin l (i, x) a) (j, y) b)) with "[HT]" as "HT"; [by destruct K|].
    cbn [tree fst snd rp]. iDestruct "HT" as "(Hj & (Hi & Hl & Ha) & Hb)". wget. wbind. wret.
    iApply (IH fu (InL (j, y) b :: K) l i x a); [lia|lia|done|done|done| | |].
    + cbn [croot fnode fst]. by destruct K.
    + cbn [zl zr ino snd] in Hinc |- *. by rewrite -?app_assoc /= -?app_assoc in Hinc |- *.
    + cbn [ctxp cpar fnode tree fst snd]. iFrame.
Qed.

(** ** Removal *)
Lemma filter_pairs_mid l1 x l2 : x ∉ map p_val l1 -> x ∉ map p_val l2 ->
  filter (fun y : num * num => y.1 <> x) (map pq (l1 ++ l2)) = map pq (l1 ++ l2).
Proof.
  intros H1 H2. assert (x ∉ map p_val (l1 ++ l2)) as H by (rewrite map_app elem_of_app; tauto). clear H1 H2.
  induction (l1 ++ l2) as [|y l IH]; [done|]. cbn in H. apply not_elem_of_cons in H as [Hy Hl].
  change (map pq (y :: l)) with (pq y :: map pq l). rewrite filter_cons_True; [|cbn; congruence]. by rewrite IH.
Qed.
Lemma filter_pairs_del l1 y l2 : p_val y ∉ map p_val l1 -> p_val y ∉ map p_val l2 ->
  filter (fun z : num * num => z.1 <> p_val y) (map pq (l1 ++ y :: l2)) = map pq (l1 ++ l2).
Proof.
  intros H1 H2. rewrite map_app filter_app. change (map pq (y :: l2)) with (pq y :: map pq l2). rewrite filter_cons_False; [|cbn; tauto].
  rewrite -filter_app -map_app. by apply filter_pairs_mid.
Qed.
Lemma twp_cut {A} f K i x r n Q (k : M tst A) : side_ok (f :: K) (Bin Nil (i, x) Nil) ->
  ctxp (f :: K) (Some i) ∗ tree (Some (fnode f).1) (Bin Nil (i, x) Nil) ∗ (tree None (plug (f :: K) Nil) -∗ twp k r n Q) ⊢
  twp (let! b := is_left_child i in let! q := deref (Some (fnode f).1) in
       (if b then set_left CTreap q None else set_right CTreap q None) ;; k) r n Q.
Proof.
  intros Hs. iIntros "(HK & HT & HQ)". cbn [tree fst snd rp]. iDestruct "HT" as "(Hi & _)".
  destruct f as [[j y] u|u [j y]]; cbn [ctxp fnode fst snd side_ok] in *; iDestruct "HK" as "(Hj & Hu & HK)"; wbind;
    iApply (twp_is_left_child i x _ _ j y); iFrame "Hi Hj"; iIntros "Hi Hj"; rewrite Hs; wbind; wret; wbind.
  - iApply (twp_set_left CTreap j None y _ Nil None u); [done|done|]. iFrame "Hj Hu". iIntros "Hj _ Hu".
    iApply "HQ". iApply at_tree. cbn [ctxp fnode fst snd cpar rp]. cbn [tree]. iFrame.
  - iApply (twp_set_right CTreap j None y _ Nil None u); [done|done|]. iFrame "Hj Hu". iIntros "Hj _ Hu".
    iApply "HQ". iApply at_tree. cbn [ctxp fnode fst snd cpar rp]. cbn [tree]. iFrame.
Qed.
(** What [sk] says of the value [x]. *)
Definition sks (x : num) (T : ptree) : Prop := match (zfind x T).2 with Nil => True | Bin l _ u => sk l u end.
Lemma okp_sks x T : okp (pin T) -> sks x T.
Proof.
  unfold sks. rewrite -{1}(zfind_plug x T) pin_plug !okp_app. destruct (zfind x T).2 as [|l ix u]; [done|]. rewrite pin_bin okp_app okp_cons.
  intros (_ & (? & _ & ?) & _). by apply sk_okp.
Qed.
Lemma treap_remove_run s T x : rep s T -> heap T -> sks x T -> increasing (ino T) ->
  exists s' T', tree_remove CTreap (PNum x) s = Ok (bool_decide (x ∉ ino T)) s' /\ rep s' T' /\ ino T' = set_del x (ino T) /\
    heap T' /\ pairs T' = filter (fun y => y.1 <> x) (pairs T).
Proof.
  intros H Hh Hok Hinc. cbn [tree_remove]. unfold treap_remove.
  set (k := fun x : num => _).
  edestruct (remove_guard s T x k (fun w T' => w = bool_decide (x ∉ ino T) /\ ino T' = set_del x (ino T) /\
    heap T' /\ pairs T' = filter (fun y => y.1 <> x) (pairs T)) H) as (w & s' & T' & E & HR & -> & HQ); [| | |by exists s', T'].
  - by intros ->.
  - intros l [i y] u -> Hl ->. destruct l, u; try done. cbn [ino app]. split_and!; try done.
    + symmetry. apply bool_decide_eq_false. set_solver.
    + unfold set_del. rewrite filter_cons_False; [|tauto]. done.
    + change (pairs (Bin Nil (i, y) Nil)) with [(p_val y, p_prio y)]. rewrite filter_cons_False; [|cbn; tauto]. done.
  - intros HT Hl. unfold k. clear k. iIntros "HT".
    pose proof (zfind_plug x T) as HP. pose proof (zfind_in x T Hinc) as HZ. pose proof (found_in x T Hinc) as HF.
    destruct (zlast_node x T HT) as (l' & [i' y'] & u' & EL & Hb).
    wbind. iApply (twp_search_root x T); [done|done|]. iFrame "HT". iIntros (j) "%Hj HT".
    rewrite EL in Hj. injection Hj as <-.
    wbind. iApply (twp_get_data_at T (zlast (zfind x T)).1 l' (i', y') u'); [by rewrite -EL zlast_plug zfind_plug|done|].
    iFrame "HT". iIntros "HT". rewrite Hb. unfold found in HF |- *. destruct (zfind x T) as [K t] eqn:EZ. cbn [fst snd] in *. destruct t as [|l [i y] u].
    + assert (x ∉ ino T) as Hx by tauto. wret. wpost T; try done.
      * symmetry. by apply bool_decide_eq_true.
      * by rewrite set_del_notin.
      * rewrite pairs_pin. rewrite -(app_nil_r (pin T)). symmetry. apply (filter_pairs_mid (pin T) x []); [by rewrite -ino_pin|set_solver].
    + rewrite zlast_bin in EL. injection EL as <- <- <- <-. assert (x ∈ ino T) as Hx by (by apply HZ). unfold sks in Hok. rewrite EZ in Hok. cbn [snd] in Hok.
      assert (p_val y = x) as Hv. { pose proof (zfind_val x T l (i, y) u) as HV. rewrite EZ in HV. by apply HV. }
      cbn [negb]. rewrite -HP.
      wbind. iApply (twp_get_parent_at (plug K (Bin l (i, y) u)) K l (i, y) u); [done|done|]. iFrame "HT". iIntros "HT".
      wbind. iApply (twp_get_fuel (tree None (plug K (Bin l (i, y) u))) (bsize (plug K (Bin l (i, y) u)))); [apply tree_atleast|]. iFrame "HT". iIntros (fu Hfu) "HT".
      iDestruct (tree_at with "HT") as "[HK HT]". cbn [rp fst].
      assert (bsize l + bsize u <= fu) as Hfu'. { pose proof (ino_length (plug K (Bin l (i, y) u))) as HL. rewrite ino_plug app_length app_length (ino_length (Bin l (i, y) u)) in HL. cbn [bsize] in HL. lia. }
      rewrite -HP in Hh. apply heap_plug in Hh as (Hht & HKt & HhK). cbn [heap leK] in Hht, HKt. destruct Hht as (Htl & Htu & Hhl & Hhu).
      pose proof Hinc as Hi2. rewrite -HP ino_plug in Hi2.
      assert (~ (K = [] /\ l = Nil /\ u = Nil)) as HN.
      { intros (-> & -> & ->). cbn in HP. subst T. by eapply Hl. }
      pose proof (tdown_nonempty (bsize l + bsize u) K l u (le_n _) Hhl Hhu Hok HN) as HNE.
      destruct (tdown_split (bsize l + bsize u) K l u (le_n _) Hhl Hhu Hok) as [HPl HPr].
      assert (heapK (tdown (bsize l + bsize u) K l u)) as HHK.
      { apply tdown_heap; try done; by eapply leK_tle. }
      wbind. iApply (twp_treap_down (bsize l + bsize u) fu K l i y u); [done|done|done|done|done| |done|].
      { by rewrite rp_plug. }
      iFrame "HK HT". iIntros "HK HT". cbn [fst snd].
      destruct (tdown (bsize l + bsize u) K l u) as [|f K'] eqn:EK; [done|]. cbn [cpar].
      assert (pin T = (pzl K ++ pin l) ++ y :: pin u ++ pzr K) as HpT.
      { rewrite -HP pin_plug pin_bin. by rewrite -!app_assoc. }
      assert (pin (plug (f :: K') Nil) = (pzl K ++ pin l) ++ pin u ++ pzr K) as HpT'.
      { by rewrite pin_plug HPl HPr. }
      assert (x ∉ map p_val (pzl K ++ pin l) /\ x ∉ map p_val (pin u ++ pzr K)) as [Hx1 Hx2].
      { apply inc_NoDup in Hinc. rewrite ino_pin HpT map_app in Hinc. cbn [List.map] in Hinc. rewrite Hv in Hinc.
        apply NoDup_app in Hinc as (_ & Hd & Hn). apply NoDup_cons in Hn as [Hn _]. split; [|done]. intros Hx'. apply (Hd x Hx'). set_solver. }
      assert (ino (plug (f :: K') Nil) = set_del x (ino T)) as HI.
      { rewrite !ino_pin HpT HpT'. rewrite (map_app _ _ (y :: _)) (map_app _ _ (pin u ++ _)). cbn [List.map]. rewrite Hv. by rewrite set_del_mid. }
      iApply (twp_cut f K' i y).
      { apply side_ok_in. rewrite zl_pzl zr_pzr HPl HPr. rewrite !map_app -!ino_pin -zl_pzl -zr_pzr. cbn [ino snd app].
        cbn [ino snd] in Hi2. by rewrite -?app_assoc /= -?app_assoc in Hi2 |- *. }
      iFrame "HK HT". iIntros "HT". wbind. iApply twp_add_len. wret. wpost (plug (f :: K') Nil); rewrite ?HP; [| |by apply heap_plug| | | |done].
      * symmetry. apply bool_decide_eq_false. tauto.
      * done.
      * rewrite !pairs_pin HpT' HpT. rewrite -Hv. symmetry. apply filter_pairs_del; by rewrite Hv.
      * by rewrite rp_plug.
      * assert (length (ino T) = S (length (ino (plug (f :: K') Nil)))) as HL2.
        { rewrite !ino_pin !map_length HpT HpT' !app_length. cbn. rewrite !app_length. lia. }
        rewrite !ino_length in HL2. rewrite HL2. lia.
Qed.

(** ** Histories *)
Definition treap_ok (b : bool) (T : ptree) : Prop := heap T /\ (b = true -> okp (pin T)).
Lemma okp_pairs T : okp (pin T) <-> Forall (fun y => num_lt (Fin (-1)) y.2) (pairs T).
Proof. unfold okp. rewrite pairs_pin Forall_map. done. Qed.
(** Which calls are covered: any insertions, or (when [b]) only priorities above -1. *)
Definition treap_pre (b : bool) (o : top) : Prop := if b then prio_above o else is_removal o = false.
Lemma treap_step b s T o : rep s T -> treap_ok b T -> increasing (ino T) -> treap_pre b o ->
  exists r s' T', call CTreap o s = Some (r, s') /\ rep s' T' /\ treap_ok b T' /\ answer CTreap o (ino T) r /\ ino T' = next CTreap o (ino T) /\
    pairs T' ≡ₚ pairs_next o (pairs T).
Proof.
  intros H [Hh Hok] Hinc Hp. destruct (changes CTreap o) eqn:Ec.
  2:{ destruct (read_step CTreap o s T Ec H (fun _ => Hinc)) as (r & s' & E & HR & HA & HN). exists r, s', T. split_and!; try done. by destruct o. }
  destruct o as [v p|v| | | | | | | | | | | | |]; try done.
  - destruct (decide ((exists x, v = PNum x) /\ prio_ok CTreap p = true)) as [[[x ->] Hpo]|Hn].
    + assert (exists q, prio_val p = Some q) as [q Eq]. { destruct p as [d|[]]; cbn in Hpo |- *; try done; by eexists. }
      destruct (treap_insert_run s T x p q H Eq Hh Hinc) as (s' & T' & E & HR & HI & HH & HPp). exists (OUnit (bool_decide (x ∈ ino T))), s', T'.
      cbn [answer next]. rewrite Hpo. split_and!; try done; [by apply call_ok; cbn [exec]; rewrite (bind_ok _ _ _ _ _ E)|]. split; [done|].
      intros ->. rewrite okp_pairs HPp. cbn [pairs_next]. rewrite Eq. cbn in Hp. rewrite Eq in Hp. specialize (Hok eq_refl). rewrite okp_pairs in Hok.
      destruct (decide _); [done|]. by constructor.
    + edestruct (insert_step CTreap s T v p (fun T' => T' = T) H) as (r & s' & T' & E & HR & -> & HA & HN); [|done|].
      { intros x -> Hpo. exfalso. apply Hn. split; [by eexists|done]. }
      exists r, s', T. split_and!; try done. cbn [pairs_next]. destruct v; try done. destruct (prio_val p) eqn:Eq; [|done]. exfalso. apply Hn.
      split; [by eexists|]. by destruct p as [d|[]].
  - destruct (decide (exists x, v = PNum x)) as [[x ->]|Hn].
    + destruct (treap_remove_run s T x H Hh) as (s' & T' & E & HR & HI & HH & HPp); [|done|].
      { apply okp_sks, Hok. by destruct b. }
      exists (OUnit (bool_decide (x ∉ ino T))), s', T'. cbn [answer next pairs_next]. rewrite HPp. split_and!; try done.
      * apply call_ok. cbn [exec]. by rewrite (bind_ok _ _ _ _ _ E).
      * split; [done|]. intros ->. rewrite okp_pairs HPp. specialize (Hok eq_refl). rewrite okp_pairs in Hok.
        rewrite !Forall_forall in Hok |- *. intros y [_ Hy]%elem_of_list_filter. by apply Hok.
    + edestruct (remove_step CTreap s T v (fun T' => T' = T) H) as (r & s' & T' & E & HR & -> & HA & HN); [|done|].
      { intros x ->. exfalso. apply Hn. by eexists. }
      exists r, s', T. split_and!; try done. destruct v; try done. exfalso. apply Hn. by eexists.
  - destruct (clear_step CTreap s T H) as (s' & E & HR). exists (OUnit false), s', Nil. split_and!; try done. split; [done|]. intros _. constructor.
Qed.
Global Instance pairs_next_perm o : Proper ((≡ₚ) ==> (≡ₚ)) (pairs_next o).
Proof.
  intros l l' Hl. destruct o as [[]| [] | | | | | | | | | | | | |]; cbn; try done.
  - destruct (prio_val p); [|done]. destruct (decide (n ∈ map fst l)) as [H1|H1], (decide (n ∈ map fst l')) as [H2|H2]; try done.
    + exfalso. apply H2. by rewrite -Hl.
    + exfalso. apply H1. by rewrite Hl.
    + by rewrite Hl.
  - by rewrite Hl.
Qed.
Global Instance pairs_after_perm os : Proper ((≡ₚ) ==> (≡ₚ)) (pairs_after os).
Proof. induction os as [|o os IH]; intros l l' Hl; [done|]. cbn. apply IH. by rewrite Hl. Qed.
Lemma treap_run b os : forall s T, rep s T -> treap_ok b T -> increasing (ino T) -> Forall (treap_pre b) os ->
  exists rs s' T', calls CTreap os s = Some (rs, s') /\ rep s' T' /\ treap_ok b T' /\ answers CTreap os (ino T) rs /\ ino T' = set_after CTreap os (ino T) /\
    pairs T' ≡ₚ pairs_after os (pairs T).
Proof.
  induction os as [|o os IH]; intros s T H HA Hinc HF; [by exists [], s, T|]. apply Forall_cons in HF as [Hp HF].
  destruct (treap_step b s T o H HA Hinc Hp) as (r & s1 & T1 & E & HR & HE1 & HA1 & HN & HP).
  destruct (IH s1 T1 HR HE1) as (rs & s2 & T2 & E2 & HR2 & HE2 & HA2 & HN2 & HP2); [|done|].
  - rewrite HN. by apply next_inc.
  - rewrite HN in HA2, HN2. exists (r :: rs), s2, T2. cbn [calls pairs_after]. rewrite E E2 -HP. by split_and!.
Qed.
(** ** The shape is determined by the pairs *)

Lemma heap_ordered_max t x : heap_ordered t -> x ∈ inorder t -> forall l y u, t = Bin l y u -> num_le (p_prio x) (p_prio y).
Proof.
  revert x. induction t as [|l IHl y u IHu]; intros x Hh Hx ? ? ? [= <- <- <-]. destruct Hh as (H1 & H2 & H3 & H4).
  cbn in Hx. rewrite elem_of_app elem_of_cons in Hx. destruct Hx as [Hy|[->|Hy]]; [|apply num_le_refl|].
  - destruct l as [|l1 z l2]; [by apply elem_of_nil in Hy|]. eapply num_le_trans; [by eapply IHl|]. by apply num_ltb_le.
  - destruct u as [|l1 z l2]; [by apply elem_of_nil in Hy|]. eapply num_le_trans; [by eapply IHu|]. by apply num_ltb_le.
Qed.
Lemma mid_eq {A} (l1 l2 r1 r2 : list A) x : NoDup (l1 ++ x :: r1) -> l1 ++ x :: r1 = l2 ++ x :: r2 -> l1 = l2 /\ r1 = r2.
Proof.
  revert l2. induction l1 as [|y l1 IH]; intros [|z l2] Hn E; cbn in E; simplify_eq; try done; cbn in Hn; rewrite NoDup_cons in Hn; destruct Hn as [Hn1 Hn2].
  - exfalso. apply Hn1. rewrite elem_of_app elem_of_cons. tauto.
  - exfalso. apply Hn1. rewrite elem_of_app elem_of_cons. tauto.
  - by destruct (IH _ Hn2 H0) as [-> ->].
Qed.
Lemma heap_same t1 : forall t2, heap_ordered t1 -> heap_ordered t2 -> pairs_of t1 = pairs_of t2 -> NoDup (map snd (pairs_of t1)) ->
  bin_map (fun x => (p_val x, p_prio x)) t1 = bin_map (fun x => (p_val x, p_prio x)) t2.
Proof.
  induction t1 as [|l IHl y u IHu]; intros [|l2 y2 u2] H1 H2 E Hn; try done.
  - unfold pairs_of in E. cbn in E. by destruct (inorder l2).
  - unfold pairs_of in E. cbn in E. by destruct (inorder l).
  - pose proof (fun x Hx => heap_ordered_max _ x H1 Hx _ _ _ eq_refl) as M1. pose proof (fun x Hx => heap_ordered_max _ x H2 Hx _ _ _ eq_refl) as M2.
    assert ((p_val y, p_prio y) = (p_val y2, p_prio y2)) as Ey.
    { assert ((p_val y, p_prio y) ∈ pairs_of (Bin l2 y2 u2)) as I1.
      { rewrite -E. apply elem_of_list_fmap. exists y. split; [done|]. cbn. rewrite elem_of_app elem_of_cons. tauto. }
      assert ((p_val y2, p_prio y2) ∈ pairs_of (Bin l y u)) as I2.
      { rewrite E. apply elem_of_list_fmap. exists y2. split; [done|]. cbn. rewrite elem_of_app elem_of_cons. tauto. }
      assert ((p_val y, p_prio y) ∈ pairs_of (Bin l y u)) as I3 by by rewrite E.
      assert (p_prio y = p_prio y2) as Ep.
      { apply elem_of_list_fmap in I1 as (x1 & [= Ea1 Ea2] & I1). apply elem_of_list_fmap in I2 as (x2 & [= Eb1 Eb2] & I2).
        pose proof (M2 _ I1) as L1. pose proof (M1 _ I2) as L2. rewrite -Ea2 in L1. rewrite -Eb2 in L2. by apply num_le_antisym. }
      apply elem_of_list_lookup in I2 as [i I2]. apply elem_of_list_lookup in I3 as [j I3].
      assert (i = j) as ->; [|congruence]. eapply (NoDup_lookup (map snd (pairs_of (Bin l y u)))); [done| |].
      - rewrite list_lookup_fmap I2. cbn. reflexivity.
      - rewrite list_lookup_fmap I3. cbn. by rewrite Ep. }
    destruct H1 as (_ & _ & H1l & H1u), H2 as (_ & _ & H2l & H2u).
    unfold pairs_of in E, Hn. cbn in E, Hn. rewrite !map_app in E, Hn. cbn in E, Hn. rewrite -Ey in E.
    apply mid_eq in E as [E1 E2].
    2:{ apply (NoDup_fmap_1 snd). rewrite fmap_app. cbn. exact Hn. }
    apply NoDup_app in Hn as (Hn1 & _ & Hn2). cbn in Hn2. rewrite NoDup_cons in Hn2. destruct Hn2 as [_ Hn2].
    cbn. f_equal; [by apply IHl|done|by apply IHu].
Qed.
Lemma inc_perm_eq (l l' : list (num * num)) : increasing (map fst l) -> increasing (map fst l') -> l ≡ₚ l' -> l = l'.
Proof.
  revert l'. induction l as [|x l IH]; intros l' H1 H2 HP; [by apply Permutation_nil_l in HP|].
  destruct l' as [|y l']; [symmetry in HP; by apply Permutation_nil_l in HP|].
  inversion H1 as [|? ? H1' F1]; subst. inversion H2 as [|? ? H2' F2]; subst. rewrite !Forall_forall in F1, F2.
  assert (x = y) as <-.
  { assert (x ∈ y :: l') as I1 by (rewrite -HP; apply elem_of_cons; by left). assert (y ∈ x :: l) as I2 by (rewrite HP; apply elem_of_cons; by left).
    apply elem_of_cons in I1 as [?|I1]; [done|]. apply elem_of_cons in I2 as [?|I2]; [done|].
    specialize (F1 y.1 (elem_of_list_fmap_1 fst _ _ I2)). specialize (F2 x.1 (elem_of_list_fmap_1 fst _ _ I1)).
    pose proof (num_lt_trans _ _ _ F1 F2) as F. by apply num_lt_irrefl in F. }
  f_equal. apply IH; try done. by apply (Permutation_cons_inv (a := x)).
Qed.
Lemma treap_unique t1 t2 : heap_ordered t1 -> heap_ordered t2 -> increasing (map p_val (inorder t1)) -> increasing (map p_val (inorder t2)) ->
  pairs_of t1 ≡ₚ pairs_of t2 -> NoDup (map snd (pairs_of t1)) ->
  bin_map (fun x => (p_val x, p_prio x)) t1 = bin_map (fun x => (p_val x, p_prio x)) t2.
Proof.
  intros. apply heap_same; try done. apply inc_perm_eq; try done; unfold pairs_of; by rewrite map_map.
Qed.
