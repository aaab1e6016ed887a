(** * Every call on a SplayTree *)
From Coq Require Import Sorted.
From iris.proofmode Require Import proofmode.
From Verif Require Import Base NumOrd TreeModel TreeSpec BstModel BalModel BstSpec BstSep BstRules BstZip BstDel BinThm BstPure BstThm AvlThm.
Local Open Scope py_scope.

(** ** Splaying *)
(** The two subtrees of the node with subtrees [l] and [u] below the frames [K], after it was
    brought to the root. *)
Fixpoint splayed (K : ctx) (l u : ptree) : ptree * ptree :=
  match K with
  | [] => (l, u)
  | [InL ix v] => (l, Bin u ix v)
  | [InR v ix] => (Bin v ix l, u)
  | InL px pv :: InL gx gv :: K' => splayed K' l (Bin u px (Bin pv gx gv))
  | InR pv px :: InL gx gv :: K' => splayed K' (Bin pv px l) (Bin u gx gv)
  | InL px pv :: InR gv gx :: K' => splayed K' (Bin gv gx l) (Bin u px pv)
  | InR pv px :: InR gv gx :: K' => splayed K' (Bin (Bin gv gx pv) px l) u
  end.
Definition atroot (K : ctx) (l : ptree) (jy : nat * pay) (u : ptree) : ptree :=
  Bin (splayed K l u).1 jy (splayed K l u).2.
(** Induction two frames at a time. *)
Lemma ctx_ind2 (P : ctx -> Prop) : P [] -> (forall f, P [f]) -> (forall f g K, P K -> P (f :: g :: K)) -> forall K, P K.
Proof.
  intros H0 H1 H2 K. enough (P K /\ forall f, P (f :: K)) by tauto. induction K as [|f K [IH1 IH2]]; [by split|]. split; [done|]. intros g. by apply H2.
Qed.
Lemma splayed_ino K : forall l u,
  ino (splayed K l u).1 = zl K ++ ino l /\ ino (splayed K l u).2 = ino u ++ zr K.
Proof.
  induction K as [|f|f g K IH] using ctx_ind2; intros l u.
  - cbn. by rewrite app_nil_r.
  - destruct f; cbn; by rewrite ?app_nil_r -?app_assoc.
  - destruct f as [px pv|pv px], g as [gx gv|gv gx]; cbn [splayed zl zr]; destruct (IH) with (l := l) (u := u) as [_ _];
      (edestruct IH as [-> ->]); cbn [ino]; by rewrite -?app_assoc /= -?app_assoc.
Qed.
Lemma atroot_ino K l jy u : ino (atroot K l jy u) = ino (plug K (Bin l jy u)).
Proof.
  destruct (splayed_ino K l u) as [E1 E2]. unfold atroot. cbn [ino]. rewrite E1 E2 ino_plug. cbn [ino]. by rewrite -?app_assoc.
Qed.

Section rules.
Implicit Types (r : option nat) (n : Z).
Lemma twp_set_left_s i p x pl pu t q par r n Q : p = rp t ->
  i ↦ Cell x pl pu par ∗ tree q t ∗
  (i ↦ Cell x (rp t) pu par -∗ tree (Some i) t -∗ Q tt r n) ⊢ twp (set_left CSplay i p) r n Q.
Proof.
  intros ->. iIntros "(Hi & Ht & HQ)". unfold set_left. wbind. wwr. wbind.
  iApply twp_set_parent_tree; [destruct (rp t); eauto|]. iFrame "Ht". iIntros "Ht". wret. iApply ("HQ" with "Hi Ht").
Qed.
Lemma twp_set_right_s i p x pl pu t q par r n Q : p = rp t ->
  i ↦ Cell x pl pu par ∗ tree q t ∗
  (i ↦ Cell x pl (rp t) par -∗ tree (Some i) t -∗ Q tt r n) ⊢ twp (set_right CSplay i p) r n Q.
Proof.
  intros ->. iIntros "(Hi & Ht & HQ)". unfold set_right. wbind. wwr. wbind.
  iApply twp_set_parent_tree; [destruct (rp t); eauto|]. iFrame "Ht". iIntros "Ht". wret. iApply ("HQ" with "Hi Ht").
Qed.

(** One double step; the frames above are not touched. *)
Definition two (f g : frame) (l u : ptree) : ptree * ptree :=
  match f, g with
  | InL px pv, InL gx gv => (l, Bin u px (Bin pv gx gv))
  | InR pv px, InL gx gv => (Bin pv px l, Bin u gx gv)
  | InL px pv, InR gv gx => (Bin gv gx l, Bin u px pv)
  | InR pv px, InR gv gx => (Bin (Bin gv gx pv) px l, u)
  end.
Definition step_of (f g : frame) : nat -> M tst nat :=
  match f, g with
  | InL _ _, InL _ _ => zig_zig
  | InR _ _, InL _ _ => zig_zag
  | InL _ _, InR _ _ => zag_zig
  | InR _ _, InR _ _ => zag_zag
  end.
Lemma splayed_two f g K l u : splayed (f :: g :: K) l u = splayed K (two f g l u).1 (two f g l u).2.
Proof. by destruct f, g. Qed.
Lemma twp_double f g K p l j y u r n Q :
  ctxp (f :: g :: K) p ∗ tree (cpar (f :: g :: K)) (Bin l (j, y) u) ∗
  (ctxp K (Some (fnode g).1) -∗ tree (cpar K) (Bin (two f g l u).1 (j, y) (two f g l u).2) -∗ Q j r n) ⊢
  twp (step_of f g j) r n Q.
Proof.
  iIntros "(HK & HT & HQ)". cbn [cpar]. destruct f as [[pi px] pv|pv [pi px]], g as [[gi gx] gv|gv [gi gx]]; cbn [ctxp tree fnode cpar fst snd rp step_of two];
    iDestruct "HK" as "(Hp & Hpv & Hg & Hgv & HK)"; iDestruct "HT" as "(Hj & Hl & Hu)".
  - unfold zig_zig, get_grand_parent. wget. wbind. wret. wbind. wget. wget1. wbind. wret. wget. wbind. unfold set_parent. wwr. wget.
    wbind. iApply (twp_set_left_s gi (rp pv) _ _ _ pv); [done|]. iFrame "Hg Hpv". iIntros "Hg Hpv".
    wbind. iApply (twp_set_right_s pi (Some gi) _ _ _ (Bin pv (gi, gx) gv)); [done|]. iSplitL "Hp"; [done|]. iSplitL "Hg Hpv Hgv"; [cbn [tree fst snd]; iFrame|]. iIntros "Hp Hg".
    wget. wbind. iApply (twp_set_left_s pi (rp u) _ _ _ u); [done|]. iFrame "Hp Hu". iIntros "Hp Hu".
    wbind. iApply (twp_set_right_s j (Some pi) _ _ _ (Bin u (pi, px) (Bin pv (gi, gx) gv))); [done|]. iSplitL "Hj"; [done|]. iSplitL "Hp Hu Hg"; [cbn [tree fst snd rp]; iFrame|].
    iIntros "Hj HT". wret. iApply ("HQ" with "HK"). cbn [tree fst snd]. iFrame.
  - unfold zag_zig, get_grand_parent. wget. wbind. wret. wbind. wget. wget1. wbind. wret. wget. wbind. unfold set_parent. wwr. wget.
    wbind. iApply (twp_set_right_s gi (rp l) _ _ _ l); [done|]. iFrame "Hg Hl". iIntros "Hg Hl".
    wget. wbind. iApply (twp_set_left_s pi (rp u) _ _ _ u); [done|]. iFrame "Hp Hu". iIntros "Hp Hu".
    wbind. iApply (twp_set_left_s j (Some gi) _ _ _ (Bin gv (gi, gx) l)); [done|]. iSplitL "Hj"; [done|]. iSplitL "Hg Hgv Hl"; [cbn [tree fst snd rp]; iFrame|]. iIntros "Hj Hg".
    wbind. iApply (twp_set_right_s j (Some pi) _ _ _ (Bin u (pi, px) pv)); [done|]. iSplitL "Hj"; [done|]. iSplitL "Hp Hu Hpv"; [cbn [tree fst snd rp]; iFrame|].
    iIntros "Hj HT". wret. iApply ("HQ" with "HK"). cbn [tree fst snd]. iFrame.
  - unfold zig_zag, get_grand_parent. wget. wbind. wret. wbind. wget. wget1. wbind. wret. wget. wbind. unfold set_parent. wwr. wget.
    wbind. iApply (twp_set_left_s gi (rp u) _ _ _ u); [done|]. iFrame "Hg Hu". iIntros "Hg Hu".
    wget. wbind. iApply (twp_set_right_s pi (rp l) _ _ _ l); [done|]. iFrame "Hp Hl". iIntros "Hp Hl".
    wbind. iApply (twp_set_right_s j (Some gi) _ _ _ (Bin u (gi, gx) gv)); [done|]. iSplitL "Hj"; [done|]. iSplitL "Hg Hgv Hu"; [cbn [tree fst snd rp]; iFrame|]. iIntros "Hj Hg".
    wbind. iApply (twp_set_left_s j (Some pi) _ _ _ (Bin pv (pi, px) l)); [done|]. iSplitL "Hj"; [done|]. iSplitL "Hp Hl Hpv"; [cbn [tree fst snd rp]; iFrame|].
    iIntros "Hj HT". wret. iApply ("HQ" with "HK"). cbn [tree fst snd]. iFrame.
  - unfold zag_zag, get_grand_parent. wget. wbind. wret. wbind. wget. wget1. wbind. wret. wget. wbind. unfold set_parent. wwr. wget.
    wbind. iApply (twp_set_right_s gi (rp pv) _ _ _ pv); [done|]. iFrame "Hg Hpv". iIntros "Hg Hpv".
    wbind. iApply (twp_set_left_s pi (Some gi) _ _ _ (Bin gv (gi, gx) pv)); [done|]. iSplitL "Hp"; [done|]. iSplitL "Hg Hpv Hgv"; [cbn [tree fst snd]; iFrame|]. iIntros "Hp Hg".
    wget. wbind. iApply (twp_set_right_s pi (rp l) _ _ _ l); [done|]. iFrame "Hp Hl". iIntros "Hp Hl".
    wbind. iApply (twp_set_left_s j (Some pi) _ _ _ (Bin (Bin gv (gi, gx) pv) (pi, px) l)); [done|]. iSplitL "Hj"; [done|]. iSplitL "Hp Hl Hg"; [cbn [tree fst snd rp]; iFrame|].
    iIntros "Hj HT". wret. iApply ("HQ" with "HK"). cbn [tree fst snd]. iFrame.
Qed.
Lemma inc_drop1 f K v : increasing (zl (f :: K) ++ v :: zr (f :: K)) -> increasing (zl K ++ v :: zr K).
Proof.
  destruct f as [ix u|u ix]; cbn [zl zr]; intros H.
  - rewrite inc_mid Forall_cons Forall_app in H. rewrite inc_mid. destruct H as (H1 & H2 & H3 & _ & _ & H4). split_and!; try done. by apply inc_cons in H2 as [[_ [H2 _]]%inc_app _].
  - rewrite inc_mid Forall_app in H. rewrite inc_mid. destruct H as (H1 & H2 & [H3 _] & H4). split_and!; try done. by apply inc_app in H1 as [H1 _].
Qed.
Lemma inc_drop2 f g K v : increasing (zl (f :: g :: K) ++ v :: zr (f :: g :: K)) -> increasing (zl K ++ v :: zr K).
Proof. intros H. by eapply inc_drop1, inc_drop1. Qed.
Lemma inc_focus K l j y u : increasing (ino (plug K (Bin l (j, y) u))) -> increasing (zl K ++ p_val y :: zr K).
Proof.
  rewrite ino_plug. cbn [ino fst snd]. rewrite -app_assoc /= app_assoc. rewrite !inc_mid !Forall_app. intros (H1 & H2 & [H3 _] & _ & H4).
  split_and!; try done; [by apply inc_app in H1 as [H1 _]|]. by apply inc_app in H2 as (_ & H2 & _).
Qed.
Definition isl (f : frame) : bool := match f with InL _ _ => true | InR _ _ => false end.
Lemma twp_splaying fu : forall K p l j y u r n Q, length K < fu ->
  increasing (zl K ++ p_val y :: zr K) ->
  ctxp K p ∗ tree (cpar K) (Bin l (j, y) u) ∗ (tree None (atroot K l (j, y) u) -∗ Q j r n) ⊢
  twp (splaying fu j) r n Q.
Proof.
  induction fu as [|fu IH]; intros K p l j y u r n Q Hfu Hinc; [lia|].
  destruct K as [|f K].
  { iIntros "(_ & HT & HQ)". cbn [tree cpar splaying fst snd]. iDestruct "HT" as "(Hj & Hl & Hu)". wget. wret. iApply "HQ". unfold atroot. cbn [splayed tree fst snd]. iFrame. }
  cbn [splaying]. iIntros "(HK & HT & HQ)".
  destruct K as [|g K].
  - cbn [tree cpar fst snd]. iDestruct "HT" as "(Hj & Hl & Hu)". unfold get_grand_parent. wget. cbn [ctxp]. pose proof (side_ok_in _ (Bin Nil (j, y) Nil) Hinc) as Hs.
    destruct f as [[pi px] pv|pv [pi px]]; cbn [fnode fst snd] in *; iDestruct "HK" as "(Hp & Hpv & _)"; wbind; wget; wget1; wbind;
      iApply (twp_is_left_child j y _ _ pi px); iFrame "Hj Hp"; iIntros "Hj Hp"; cbn in Hs; rewrite Hs.
    + unfold zig. wget. wbind. wret. wget. wbind. unfold set_parent. wwr. wget.
      wbind. iApply (twp_set_left_s pi (rp u) _ _ _ u); [done|]. iFrame "Hp Hu". iIntros "Hp Hu".
      wbind. iApply (twp_set_right_s j (Some pi) _ _ _ (Bin u (pi, px) pv)); [done|]. iSplitL "Hj"; [done|]. iSplitL "Hp Hu Hpv"; [cbn [tree fst snd rp]; iFrame|].
      iIntros "Hj HT". wret. iApply "HQ". unfold atroot. cbn [splayed tree fst snd]. iFrame.
    + unfold zag. wget. wbind. wret. wget. wbind. unfold set_parent. wwr. wget.
      wbind. iApply (twp_set_right_s pi (rp l) _ _ _ l); [done|]. iFrame "Hp Hl". iIntros "Hp Hl".
      wbind. iApply (twp_set_left_s j (Some pi) _ _ _ (Bin pv (pi, px) l)); [done|]. iSplitL "Hj"; [done|]. iSplitL "Hp Hl Hpv"; [cbn [tree fst snd rp]; iFrame|].
      iIntros "Hj HT". wret. iApply "HQ". unfold atroot. cbn [splayed tree fst snd]. iFrame.
  - assert (num_ltb (p_val y) (p_val (fnode f).2) = isl f) as Hf.
    { pose proof (side_ok_in _ (Bin Nil (j, y) Nil) Hinc) as Hs. by destruct f. }
    assert (num_ltb (p_val (fnode f).2) (p_val (fnode g).2) = isl g) as Hg.
    { assert (increasing (zl (g :: K) ++ ino (fill f (Bin Nil (j, y) Nil)) ++ zr (g :: K))) as Hinc2.
      { change (p_val y :: zr (f :: g :: K)) with (ino (Bin Nil (j, y) Nil) ++ zr (f :: g :: K)) in Hinc. rewrite -(ino_plug (f :: g :: K)) in Hinc. by rewrite -(ino_plug (g :: K)). }
      pose proof (side_ok_in _ _ Hinc2) as Hs. by destruct f as [[] ?|? []], g. }
    assert (increasing (zl K ++ p_val y :: zr K)) as Hinc3 by (by apply (inc_drop2 f g)).
    assert (ctxp (f :: g :: K) p ∗ tree (cpar (f :: g :: K)) (Bin l (j, y) u) ∗ (tree None (atroot (f :: g :: K) l (j, y) u) -∗ Q j r n) ⊢
      twp (let! top := step_of f g j in let! q := get_parent top in match q with Some _ => splaying fu top | None => ret top end) r n Q) as Hgo.
    { iIntros "(HK & HT & HQ)". wbind. iApply (twp_double f g K p l j y u). iFrame "HK HT". iIntros "HK HT". cbn [tree fst snd]. iDestruct "HT" as "(Hj & Hl & Hu)". wget.
      destruct K as [|h K].
      - cbn [cpar]. wret. iApply "HQ". unfold atroot. rewrite splayed_two. cbn [splayed tree fst snd]. iFrame.
      - iApply (IH (h :: K) (Some (fnode g).1) (two f g l u).1 j y (two f g l u).2); [cbn in *; lia|done|]. iFrame "HK". cbn [tree fst snd]. iFrame "Hj Hl Hu".
        unfold atroot. by rewrite splayed_two. }
    revert Hf Hg Hgo. cbn [cpar]. destruct f as [[pi px] pv|pv [pi px]], g as [[gi gx] gv|gv [gi gx]]; cbn [ctxp tree fnode cpar fst snd rp step_of two isl]; intros Hf Hg Hgo;
    iDestruct "HK" as "(Hp & Hpv & Hg & Hgv & HK)"; iDestruct "HT" as "(Hj & Hl & Hu)"; unfold get_grand_parent; wget; wbind; wget; wget1;
    wbind; iApply (twp_is_left_child pi px _ _ gi gx); iFrame "Hp Hg"; iIntros "Hp Hg"; wbind; iApply (twp_is_left_child j y _ _ pi px); iFrame "Hj Hp"; iIntros "Hj Hp";
    rewrite Hf Hg; iApply Hgo; iFrame.
Qed.
Lemma twp_splay_path T K l j y u r n Q : T = plug K (Bin l (j, y) u) -> increasing (zl K ++ p_val y :: zr K) ->
  tree None T ∗ (tree None (atroot K l (j, y) u) -∗ Q tt (Some j) n) ⊢ twp (splay j) r n Q.
Proof.
  intros -> Hinc. iIntros "[HT HQ]". iDestruct (tree_at with "HT") as "[HK HT]". unfold splay.
  wbind. iApply (twp_get_fuel (ctxp K (rp (Bin l (j, y) u))) (length K)); [apply plug_atleast|]. iFrame "HK". iIntros (fu Hfu) "HK".
  wbind. iApply (twp_splaying fu K _ l j y u); [lia|done|]. iFrame "HK HT". iIntros "HT". iApply twp_set_root. by iApply "HQ".
Qed.
Lemma twp_splay T K l j y u r n Q : T = plug K (Bin l (j, y) u) -> increasing (ino T) ->
  tree None T ∗ (tree None (atroot K l (j, y) u) -∗ Q tt (Some j) n) ⊢ twp (splay j) r n Q.
Proof. intros -> Hinc. apply twp_splay_path; [done|]. by eapply inc_focus. Qed.
End rules.

(** ** The calls *)
Lemma last_visited_zlast v T : T <> Nil -> last_visited v (bin_map p_val (bin_map snd T)) = root_value (bin_map p_val (bin_map snd (zlast (zfind v T)).2)).
Proof.
  induction T as [|l IHl ix u IHu]; [done|]. intros _. cbn [bin_map last_visited zfind]. destruct (decide (v = p_val ix.2)) as [->|Hx].
  { rewrite bool_decide_eq_true_2 //. }
  rewrite bool_decide_eq_false_2 //. destruct (num_ltb v (p_val ix.2)).
  - destruct l as [|l1 jy l2]; [done|]. rewrite IHl //. cbn [fst snd]. rewrite zlast_snoc; [|apply zfind_nonempty]. rewrite -surjective_pairing. cbn [snd].
    by destruct (zlast_node v (Bin l1 jy l2)) as (l' & kz & u' & -> & _).
  - destruct u as [|l1 jy l2]; [done|]. rewrite IHu //. cbn [fst snd]. rewrite zlast_snoc; [|apply zfind_nonempty]. rewrite -surjective_pairing. cbn [snd].
    by destruct (zlast_node v (Bin l1 jy l2)) as (l' & kz & u' & -> & _).
Qed.
Definition vals (T : ptree) : bin num := bin_map p_val (bin_map snd T).
Lemma atroot_size K l jy u : bsize (atroot K l jy u) = bsize (plug K (Bin l jy u)).
Proof. apply bsize_ino. by rewrite atroot_ino. Qed.
(** The tree after splaying at the last node visited on the way to [x]. *)
Definition access (x : num) (T : ptree) : ptree :=
  match (zlast (zfind x T)).2 with Bin l jy u => atroot (zlast (zfind x T)).1 l jy u | Nil => T end.
Lemma access_ino x T : ino (access x T) = ino T.
Proof.
  unfold access. destruct ((zlast (zfind x T)).2) as [|l jy u] eqn:E; [done|]. by rewrite atroot_ino -E zlast_plug zfind_plug.
Qed.
Lemma access_root x T : T <> Nil -> root_value (vals (access x T)) = last_visited x (vals T).
Proof.
  intros HT. unfold vals. rewrite last_visited_zlast //. unfold access. by destruct (zlast_node x T HT) as (l & jy & u & -> & _).
Qed.
Lemma splay_contains_run s T x : rep s T -> T <> Nil -> increasing (ino T) ->
  exists s', splay_contains (PNum x) s = Ok (bool_decide (x ∈ ino T)) s' /\ rep s' (access x T).
Proof.
  intros H HT Hinc. unfold splay_contains. rewrite (bind_ok (check_number (PNum x)) _ s x s eq_refl).
  destruct (rep_run (let! i := search_root x in splay i ;; let! d := get_data i in ret (bool_decide (d = x))) s T
     (fun b T' => b = bool_decide (x ∈ ino T) /\ T' = access x T) H) as (a & s' & T' & E & HR & -> & ->); [|by exists s'].
  iIntros "HT". wbind. iApply (twp_search_root x T); [done|done|]. iFrame "HT". iIntros (j) "%Hj HT".
  destruct (zlast_node x T HT) as (l & [j' y] & u & E & Hb). rewrite E in Hj. injection Hj as ->.
  wbind. iApply (twp_splay T (zlast (zfind x T)).1 l j y u); [by rewrite -E zlast_plug zfind_plug|done|]. iFrame "HT". iIntros "HT".
  wbind. iApply (twp_get_data_at _ [] (splayed (zlast (zfind x T)).1 l u).1 (j, y) (splayed (zlast (zfind x T)).1 l u).2); [done|done|].
  iFrame "HT". iIntros "HT". wret. assert (access x T = atroot (zlast (zfind x T)).1 l (j, y) u) as EA by (unfold access; by rewrite E).
  wpost (access x T).
  - cbn [snd] in *. by rewrite Hb (found_in _ _ Hinc).
  - done.
  - by rewrite EA.
  - f_equal. apply bsize_ino. by rewrite access_ino.
  - by rewrite EA.
Qed.

Lemma splay_insert_run s T x p : rep s T -> increasing (ino T) ->
  exists s' T', tree_insert CSplay (PNum x) p s = Ok (bool_decide (x ∈ ino T)) s' /\ rep s' T' /\ ino T' = set_add x (ino T) /\ root_value (vals T') = Some x.
Proof.
  intros H Hinc. cbn [tree_insert]. unfold splay_insert. rewrite (bind_ok (check_number (PNum x)) _ s x s eq_refl).
  rewrite (bind_ok _ _ _ _ _ (rep_empty s T H)). destruct (decide (T = Nil)) as [->|HT].
  { destruct (new_root s (Fin 0) x H) as (i & s' & E & HR). exists s', (leaf_of i (Pay x 0 (Fin 0) Red)). split_and!; try done. }
  assert ((match T with Nil => true | _ => false end) = false) as -> by (by destruct T).
  edestruct (rep_run (let! r := insert_value CSplay x (Fin 0) in splay r.2 ;; ret r.1) s T
     (fun w T' => w = bool_decide (x ∈ ino T) /\ ino T' = set_add x (ino T) /\ root_value (vals T') = Some x) H) as (w & s' & T' & E & HR & -> & HQ); [|by exists s', T'].
  rewrite -(found_in x T Hinc).
  iIntros "HT". wbind. iApply (twp_insert_value CSplay x (Fin 0) T); [done|done|]. iFrame "HT". iIntros (w j new) "%Hw HT".
  pose proof (zfind_plug x T) as HP. pose proof (insert_size x T Hinc) as HSz. pose proof (zfind_val x T) as HV.
  pose proof (zinsert_ino CSplay x new (Pay x 0 (Fin 0) Red) T eq_refl HT Hinc) as HI. unfold found in *.
  assert (exists K l y u, zinsert CSplay x new (Pay x 0 (Fin 0) Red) T = plug K (Bin l (j, y) u) /\ p_val y = x /\
     w = (match (zfind x T).2 with Nil => false | _ => true end)) as (K & l & y & u & EZ & Hy & ->).
  { unfold zinsert. destruct (zfind x T) as [K t] eqn:EZ. cbn [fst snd] in *. destruct t as [|l [i y] u].
    - destruct Hw as [-> ->]. destruct K as [|f K]; [by subst|].
      exists (f :: K), Nil, (Pay x 0 (Fin 0) Red), Nil. split_and!; try done. by destruct f as [[] ?|? []].
    - destruct Hw as [-> Hw]. injection Hw as ->. exists K, l, y, u. split_and!; try done; [by destruct K|]. by apply (HV _ _ _ eq_refl). }
  rewrite EZ. cbn [snd]. wbind. iApply (twp_splay (plug K (Bin l (j, y) u)) K l j y u); [done| |].
  { rewrite -EZ HI. by apply set_add_inc. }
  iFrame "HT". iIntros "HT". wret. cbn [fst]. wpost (atroot K l (j, y) u); [done|by rewrite atroot_ino -EZ|by rewrite -Hy|done| |done].
  rewrite -(ino_length (atroot _ _ _ _)) atroot_ino -EZ HI HSz. destruct (zfind x T).2; lia.
Qed.
Lemma zremove_ne c K l ix u : ~ (K = [] /\ l = Nil /\ u = Nil) -> (zremove c (K, Bin l ix u)).2 <> Nil.
Proof.
  intros H. assert (forall f t, putdel c f t <> Nil) as Hp by (intros [[] ?|? []] ?; unfold putdel; by case_match).
  unfold zremove, zrep. cbn zeta. destruct u as [|u1 jy u2].
  - destruct l as [|l1 jy l2].
    + destruct K as [|f K]; [naive_solver|]. apply Hp.
    + destruct (zmax_shape (Bin l1 jy l2)) as (l3 & ky & E); [done|]. rewrite E.
      destruct (zmax (Bin l1 jy l2)).1 as [|f K'] eqn:EK; cbn [app fst snd]; apply Hp.
  - destruct (zmin_shape (Bin u1 jy u2)) as (ky & l3 & E); [done|]. rewrite E.
    destruct (zmin (Bin u1 jy u2)).1 as [|f K'] eqn:EK; cbn [app fst snd]; apply Hp.
Qed.
(** The nodes on the way to the place that is emptied stay in order, replaceable or not. *)
Lemma inc_sublist l l' : sublist l l' -> increasing l' -> increasing l.
Proof.
  induction 1 as [|x l l' Hs IH|x l l' Hs IH]; [done| |].
  - rewrite !inc_cons. intros [H1 H2]. split; [by apply IH|]. rewrite Forall_forall in H2. apply Forall_forall. intros y Hy. apply H2. apply sublist_submseteq in Hs. by eapply elem_of_submseteq.
  - rewrite inc_cons. intros [H1 _]. by apply IH.
Qed.
Lemma zrep_inc c K l ix u f K' t : increasing (zl K ++ ino (Bin l ix u) ++ zr K) -> zrep c (K, Bin l ix u) = (f :: K', t) -> increasing (zl (f :: K') ++ zr (f :: K')).
Proof.
  intros Hinc E. revert Hinc. apply inc_sublist. cbn [ino].
  assert (u = Nil /\ l = Nil \/ u = Nil /\ l <> Nil \/ u <> Nil) as [[-> ->]|[[-> Hl]|Hu]] by (destruct u, l; naive_solver).
  - cbn [zrep] in E. injection E as -> _. cbn [ino app]. apply sublist_app; [done|]. by apply sublist_cons.
  - destruct (zmax_shape l Hl) as (l3 & ky & Em). assert ((zmax l).1 ++ InL (ix.1, take_pay c ix.2 ky.2) Nil :: K = f :: K') as <-.
    { cbn [zrep] in E. rewrite Em in E. destruct l; [done|]. by injection E. }
    rewrite (ino_zmax l ky l3 Em). rewrite zl_app zr_app zmax_zr. cbn [zl zr ino app fst snd]. rewrite p_val_take -!app_assoc /=.
    apply sublist_app; [done|]. apply sublist_app; [done|]. apply sublist_inserts_l, sublist_skip. by apply sublist_cons.
  - destruct (zmin_shape u Hu) as (ky & l3 & Em). assert ((zmin u).1 ++ InR l (ix.1, take_pay c ix.2 ky.2) :: K = f :: K') as <-.
    { cbn [zrep] in E. rewrite Em in E. destruct u; [done|]. by injection E. }
    rewrite (ino_zmin u ky l3 Em). rewrite zl_app zr_app zmin_zl. cbn [zl zr ino app fst snd]. rewrite app_nil_r p_val_take -!app_assoc /=.
    apply sublist_app; [done|]. apply sublist_app; [done|]. apply sublist_cons, sublist_skip. rewrite -app_assoc. by apply sublist_inserts_l.
Qed.
Lemma zremove_inc c K l ix u zl1 j y zu : increasing (zl K ++ ino (Bin l ix u) ++ zr K) -> (zremove c (K, Bin l ix u)).2 = Bin zl1 (j, y) zu -> (K = [] -> l <> Nil \/ u <> Nil) ->
  increasing (zl (zremove c (K, Bin l ix u)).1 ++ p_val y :: zr (zremove c (K, Bin l ix u)).1).
Proof.
  intros Hinc E HK. unfold zremove in *. destruct (zrep c (K, Bin l ix u)) as [[|f K'] t] eqn:Ez.
  - exfalso. cbn [zrep] in Ez. destruct u as [|u1 jy u2].
    + destruct l as [|l1 jy l2]; [injection Ez as -> _; naive_solver|]. destruct (zmax_shape (Bin l1 jy l2)) as (l3 & ky & Em); [done|]. rewrite Em in Ez. injection Ez as Ez _. by apply app_eq_nil in Ez as [_ Ez].
    + destruct (zmin_shape (Bin u1 jy u2)) as (ky & l3 & Em); [done|]. rewrite Em in Ez. injection Ez as Ez _. by apply app_eq_nil in Ez as [_ Ez].
  - pose proof (zrep_inc c K l ix u f K' t Hinc Ez) as H. cbn [fst snd] in *.
    assert (p_val (fnode f).2 = p_val y) as Hy.
    { unfold putdel, fillc in E. destruct f as [[] ?|? []]; cbn [fnode fst snd] in *; destruct (leafb t); cbn in E; unfold node in E; try injection E as; simplify_eq; cbn; rewrite ?p_val_refresh; done. }
    rewrite -Hy. revert H. apply inc_sublist. destruct f as [[] v|v []]; cbn [fnode zl zr fst snd].
    + apply sublist_app; [done|]. apply sublist_skip. by apply sublist_inserts_l.
    + rewrite -!app_assoc /=. apply sublist_app; [done|]. by apply sublist_inserts_l.
Qed.
Lemma splay_remove_any s T x : rep s T -> increasing (ino T) ->
  exists s' T', tree_remove CSplay (PNum x) s = Ok (bool_decide (x ∉ ino T)) s' /\ rep s' T' /\ removed CSplay x T (ino T').
Proof.
  intros H Hinc. cbn [tree_remove]. unfold splay_remove.
  destruct (remove_guard s T x (fun x => let! r := remove_value CSplay x in match r.2 with Some i => splay i;; ret r.1 | None => raise AssertionError end)
     (fun w T' => w = negb (found x T) /\ removed CSplay x T (ino T')) H) as (w & s' & T' & E & HR & -> & HQ).
  - by intros ->.
  - intros l [i y] u -> Hl ->. destruct l, u; try done. unfold found, removed. cbn [zfind snd ino]. rewrite bool_decide_eq_true_2 //.
  - intros HT Hl. iIntros "HT". wbind. iApply (twp_remove_value CSplay x T); [done|done| |].
    { intros HK. pose proof (zfind_plug x T) as HP. pose proof (zfind_val x T) as HV.
      destruct (zfind x T) as [K t]. cbn [fst snd] in *. subst K. cbn in HP. subst t.
      destruct (leafb T) eqn:El; [|done]. exfalso. destruct T as [|l ix u]; [done|]. by eapply Hl; [..|symmetry; apply (HV l ix u)]. }
    iFrame "HT". destruct (zfind x T) as [K t] eqn:EZ. cbn [fst snd] in *. destruct t as [|l ix u].
    + iIntros (j) "%Hj HT". cbn [snd].
      destruct (zlast_node x T HT) as (l & [j' y] & u & E & Hb). rewrite EZ in E. rewrite E in Hj. injection Hj as ->.
      pose proof (zlast_plug (K, Nil)) as HPl. pose proof (zfind_plug x T) as HP. rewrite EZ in HP. cbn [fst snd] in HPl, HP. rewrite HP E in HPl.
      wbind. iApply (twp_splay T (zlast (K, Nil)).1 l j y u); [done|done|]. iFrame "HT". iIntros "HT". wret.
      wpost (atroot (zlast (K, Nil)).1 l (j, y) u); [unfold found; by rewrite EZ| |done| |done].
      * unfold removed. by rewrite EZ atroot_ino HPl.
      * by rewrite atroot_size HPl.
    + assert (~ (K = [] /\ l = Nil /\ u = Nil)) as HL.
      { intros (-> & -> & ->). pose proof (zfind_plug x T) as HP. pose proof (zfind_val x T) as HV.
        rewrite EZ in HP HV. cbn in HP, HV. subst T. by eapply Hl; [done|done|symmetry; eapply HV]. }
      iIntros "HT". set (z := zremove CSplay (K, Bin l ix u)) in *.
      assert (removed CSplay x T (ino (plug z.1 z.2))) as Hi.
      { unfold removed. rewrite EZ. by apply zremove_ino. }
      assert (bsize T = S (bsize (plug z.1 z.2))) as Hn.
      { rewrite -!ino_length. unfold z. rewrite (zremove_ino CSplay K l ix u HL). rewrite -(zfind_plug x T) EZ ino_plug. cbn [fst snd ino].
        rewrite !app_length. cbn. rewrite (Permutation_length (rest_perm CSplay l u)) app_length. lia. }
      destruct z.2 as [|zl1 [j y] zu] eqn:Ez.
      { exfalso. by apply (zremove_ne CSplay K l ix u). }
      cbn [rp snd fst]. wbind. iApply (twp_splay_path (plug z.1 (Bin zl1 (j, y) zu)) z.1 zl1 j y zu); [done| |].
      { apply (zremove_inc CSplay K l ix u zl1 j y zu); [|done|intros ->; destruct l, u; naive_solver].
        rewrite -(zfind_plug x T) EZ ino_plug in Hinc. done. }
      iFrame "HT". iIntros "HT". wret. wpost (atroot z.1 zl1 (j, y) zu); [unfold found; by rewrite EZ|by rewrite atroot_ino|done| |done].
      rewrite atroot_size. cbn [fst]. lia.
  - exists s', T'. rewrite (found_in _ _ Hinc) -bool_decide_not in E. by split_and!.
Qed.
Lemma splay_remove_run s T x : rep s T -> increasing (ino T) -> replaceable (zfind x T).2 ->
  exists s' T', tree_remove CSplay (PNum x) s = Ok (bool_decide (x ∉ ino T)) s' /\ rep s' T' /\ ino T' = set_del x (ino T).
Proof.
  intros H Hinc Hrep. destruct (splay_remove_any s T x H Hinc) as (s' & T' & E & HR & HT). exists s', T'. split_and!; [done|done|]. by apply (removed_exact CSplay x T).
Qed.

(** ** Histories *)
Definition root_ok (o : top) (T T' : ptree) : Prop :=
  match o with
  | TInsert (PNum x) _ => root_value (vals T') = Some x
  | TContains (PNum x) => root_value (vals T') = last_visited x (vals T)
  | TRemove _ | TClear => True
  | _ => T' = T
  end.
Lemma splay_step s T o : rep s T -> increasing (ino T) -> (forall x, o = TRemove (PNum x) -> replaceable (zfind x T).2) ->
  exists r s' T', call CSplay o s = Some (r, s') /\ rep s' T' /\ root_ok o T T' /\ answer CSplay o (ino T) r /\ ino T' = next CSplay o (ino T).
Proof.
  intros H Hinc Hr. destruct (changes CSplay o) eqn:Ec.
  2:{ destruct (read_step CSplay o s T Ec H (fun _ => Hinc)) as (r & s' & E & HR & HA & HN). exists r, s', T. split_and!; try done. by destruct o. }
  destruct o as [v p|v|v| | | | | | | | | | | |]; try done.
  - destruct (decide (exists x, v = PNum x)) as [[x ->]|Hv].
    + destruct (splay_insert_run s T x p H Hinc) as (s' & T' & E & HR & HI & HV). exists (OUnit (bool_decide (x ∈ ino T))), s', T'. split_and!; try done.
      apply call_ok. cbn [exec]. by rewrite (bind_ok _ _ _ _ _ E).
    + edestruct (insert_step CSplay s T v p (fun T' => T' = T) H) as (r & s' & T' & E & HR & -> & HA & HN); [|done|].
      { intros x -> _. exfalso. apply Hv. by eexists. }
      exists r, s', T. split_and!; try done. destruct v; try done. exfalso. apply Hv. by eexists.
  - destruct (remove_step CSplay s T v (fun _ => True) H) as (r & s' & T' & E & HR & HQ & HA & HN); [|done|by exists r, s', T'].
    intros x ->. destruct (splay_remove_run s T x H Hinc) as (s' & T' & E & HR & HI); [by apply Hr|]. by exists s', T'.
  - destruct (decide (exists x, v = PNum x)) as [[x ->]|Hv].
    + destruct (decide (T = Nil)) as [->|HT].
      { exists (ORaise AssertionError), s, Nil. split_and!; try done. apply call_exc. cbn [exec]. apply bind_exc. cbn [tree_contains]. unfold splay_contains.
        rewrite (bind_ok (check_number (PNum x)) _ s x s eq_refl). apply bind_exc. unfold search_root, get_root, bind. by rewrite (rep_root _ _ H). }
      destruct (splay_contains_run s T x H HT Hinc) as (s' & E & HR). exists (OBool (bool_decide (x ∈ ino T))), s', (access x T). split_and!; try done.
      * apply call_ok. cbn [exec tree_contains]. by rewrite (bind_ok _ _ _ _ _ E).
      * by apply access_root.
      * cbn [answer]. rewrite decide_False //. by rewrite ino_nil.
      * by rewrite access_ino.
    + exists (ORaise (match v with PNone => ValueError | _ => TypeError end)), s, T. destruct v; cbn [answer next]; try (by split_and!). by (exfalso; apply Hv; eexists).
  - destruct (clear_step CSplay s T H) as (s' & E & HR). exists (OUnit false), s', Nil. by split_and!.
Qed.
Lemma splay_run os : forall s T, rep s T -> increasing (ino T) ->
  (forall pre x post rs s' t, os = pre ++ TRemove (PNum x) :: post -> calls CSplay pre s = Some (rs, s') -> shape s' = Some t -> replaceable (subtree_at x (bin_map p_val t))) ->
  exists rs s' T', calls CSplay os s = Some (rs, s') /\ rep s' T' /\ answers CSplay os (ino T) rs /\ ino T' = set_after CSplay os (ino T).
Proof.
  induction os as [|o os IH]; intros s T H Hinc HB; [by exists [], s, T|].
  destruct (splay_step s T o H Hinc) as (r & s1 & T1 & E & HR & HRo & HA1 & HN).
  { intros x ->. rewrite -(replaceable_map snd) -(replaceable_map p_val) -subtree_at_zfind. eapply (HB [] x os); try done. by apply rep_shape. }
  destruct (IH s1 T1 HR) as (rs & s2 & T2 & E2 & HR2 & HA2 & HN2).
  - rewrite HN. by apply next_inc.
  - intros pre x post rs s' t -> Ec Ht. eapply (HB (o :: pre) x post); try done. cbn [calls]. by rewrite E Ec.
  - rewrite HN in HA2, HN2. exists (r :: rs), s2, T2. cbn [calls]. rewrite E E2. by split_and!.
Qed.
