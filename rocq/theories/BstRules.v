(** * Proof rules for the tree programs of BstModel.v, and the rotations *)
From iris.proofmode Require Import proofmode environments coq_tactics reduction.
From stdpp Require Import gmap.
From Verif Require Import Base TreeModel BstModel BstSep.
Local Open Scope py_scope.

Notation memof s := (map_seq 0 (t_nodes s) : mem).

Program Definition pto (i : nat) (c : cell) : hprop := HProp (fun h => h !! i = Some c) _.
Next Obligation. cbn. intros i c h h' Hs Hi. exact (lookup_weaken _ _ _ _ Hi Hs). Qed.
Notation "i ↦ c" := (pto i c) (at level 20, format "i  ↦  c") : bi_scope.

(** Total correctness: [m] run on the memory described by the assertion (plus any frame)
    terminates normally. *)
Definition twp_holds {A} (m : M tst A) (r : option nat) (n : Z)
    (Q : A -> option nat -> Z -> hprop) (h : mem) : Prop :=
  forall s hf, h ##ₘ hf -> memof s = h ∪ hf -> t_root s = r -> t_len s = n ->
  match m s with
  | Ok a s' => exists h', h' ##ₘ hf /\ memof s' = h' ∪ hf /\ Q a (t_root s') (t_len s') h'
  | _ => False
  end.
Lemma twp_mono {A} (m : M tst A) r n Q h h2 : h ⊆ h2 -> twp_holds m r n Q h -> twp_holds m r n Q h2.
Proof.
  intros Hs H s hf Hd Hm Hr Hn.
  assert (h2 = h ∪ (h2 ∖ h)) as E by (symmetry; by apply map_difference_union).
  assert (h ##ₘ h2 ∖ h) as Hd1 by (by apply map_disjoint_difference_r).
  rewrite E in Hd. apply map_disjoint_union_l in Hd as [Hd2 Hd3].
  specialize (H s ((h2 ∖ h) ∪ hf)).
  destruct (m s) as [a s'|e s'|].
  - destruct H as (h' & Hd' & Hm' & HQ); [by apply map_disjoint_union_r|by rewrite (assoc_L (∪)) -E|done|done|].
    apply map_disjoint_union_r in Hd' as [Hd4 Hd5].
    exists (h' ∪ (h2 ∖ h)). split_and!.
    + by apply map_disjoint_union_l.
    + by rewrite -(assoc_L (∪)).
    + eapply hp_mono; [|exact HQ]. apply map_union_subseteq_l.
  - apply H; [by apply map_disjoint_union_r|by rewrite (assoc_L (∪)) -E|done|done].
  - apply H; [by apply map_disjoint_union_r|by rewrite (assoc_L (∪)) -E|done|done].
Qed.

Definition twp {A} (m : M tst A) r n Q : hprop := HProp (twp_holds m r n Q) (twp_mono m r n Q).

Section rules.
Implicit Types (r : option nat) (n : Z).

Lemma twp_ret {A} (a : A) r n Q : Q a r n ⊢ twp (ret a) r n Q.
Proof.
  constructor. intros h HQ s hf Hd Hm Hr Hn. cbn. exists h. split_and!; try done. by rewrite Hr Hn.
Qed.
Lemma twp_bind {A B} (m : M tst A) (k : A -> M tst B) r n Q :
  twp m r n (fun a r' n' => twp (k a) r' n' Q) ⊢ twp (bind m k) r n Q.
Proof.
  constructor. intros h H s hf Hd Hm Hr Hn. unfold bind. specialize (H s hf Hd Hm Hr Hn).
  destruct (m s) as [a s'|e s'|]; [|done..]. destruct H as (h' & Hd' & Hm' & H').
  exact (H' s' hf Hd' Hm' eq_refl eq_refl).
Qed.
Lemma twp_wand {A} (m : M tst A) r n Q Q' :
  twp m r n Q ∗ (∀ a r' n', Q a r' n' -∗ Q' a r' n') ⊢ twp m r n Q'.
Proof.
  constructor. intros h (h1 & h2 & Hd & Hs & H & HQ) s hf Hdf Hm Hr Hn.
  assert (Hh : h = h1 ∪ h2 ∪ (h ∖ (h1 ∪ h2))) by (symmetry; by apply map_difference_union).
  assert (Hd1 : h1 ∪ h2 ##ₘ h ∖ (h1 ∪ h2)) by (by apply map_disjoint_difference_r).
  set (h3 := h ∖ (h1 ∪ h2)) in *. clearbody h3. subst h.
  apply map_disjoint_union_l in Hd1 as [Hd13 Hd23].
  apply map_disjoint_union_l in Hdf as [Hdf Hd3f]. apply map_disjoint_union_l in Hdf as [Hd1f Hd2f].
  specialize (H s (h2 ∪ h3 ∪ hf)).
  assert (HH : match m s with
    | Ok a s' => exists h', h' ##ₘ h2 ∪ h3 ∪ hf /\ memof s' = h' ∪ (h2 ∪ h3 ∪ hf) /\ Q a (t_root s') (t_len s') h'
    | _ => False end).
  { apply H; [|by rewrite Hm !(assoc_L (∪))|done|done].
    apply map_disjoint_union_r; split; [by apply map_disjoint_union_r|done]. }
  destruct (m s) as [a s'|e s'|]; [|done..].
  destruct HH as (h' & Hd' & Hm' & HQa).
  apply map_disjoint_union_r in Hd' as [Hd' Hd'f]. apply map_disjoint_union_r in Hd' as [Hd'2 Hd'3].
  exists (h2 ∪ h' ∪ h3). split_and!.
  - apply map_disjoint_union_l; split; [|done]. by apply map_disjoint_union_l.
  - rewrite Hm'. rewrite !(assoc_L (∪)). f_equal. f_equal. by apply map_union_comm.
  - eapply (hp_mono _ (h2 ∪ h')); [apply map_union_subseteq_l|].
    apply (HQ a (t_root s') (t_len s') h'); [|done]. by symmetry.
Qed.
Lemma twp_rd i c r n Q : i ↦ c ∗ (i ↦ c -∗ Q c r n) ⊢ twp (rd i) r n Q.
Proof.
  constructor. intros h (h1 & h2 & Hd & Hs & H & HQ) s hf Hdf Hm Hr Hn.
  assert (t_nodes s !! i = Some c) as E.
  { rewrite -(lookup_map_seq_0 (M := gmap nat)). rewrite Hm. apply lookup_union_Some_l.
    eapply lookup_weaken; [|exact Hs]. by apply lookup_union_Some_l. }
  unfold rd. rewrite E. exists h. split_and!; try done. rewrite Hr Hn.
  eapply hp_mono; [exact Hs|]. rewrite map_union_comm; [|done]. apply HQ; [by symmetry|done].
Qed.
Lemma memof_wr s i c : i < length (t_nodes s) ->
  (map_seq 0 (<[i := c]> (t_nodes s)) : mem) = <[i := c]> (memof s).
Proof.
  intros Hi. apply map_eq. intros j. rewrite lookup_map_seq_0. destruct (decide (i = j)) as [->|Hne].
  - by rewrite lookup_insert list_lookup_insert.
  - rewrite lookup_insert_ne // list_lookup_insert_ne //. by rewrite lookup_map_seq_0.
Qed.
Lemma twp_wr i c f r n Q : i ↦ c ∗ (i ↦ f c -∗ Q tt r n) ⊢ twp (wr i f) r n Q.
Proof.
  constructor. intros h (h1 & h2 & Hd & Hs & H & HQ) s hf Hdf Hm Hr Hn. cbn in H.
  assert (Hhi : h !! i = Some c).
  { eapply lookup_weaken; [|exact Hs]. by apply lookup_union_Some_l. }
  assert (t_nodes s !! i = Some c) as E.
  { rewrite -(lookup_map_seq_0 (M := gmap nat)). rewrite Hm. by apply lookup_union_Some_l. }
  unfold wr. rewrite E. exists (<[i := f c]> h). split_and!.
  - apply map_disjoint_insert_l. split; [|done]. by eapply map_disjoint_Some_l.
  - cbn. rewrite memof_wr; [|by eapply lookup_lt_Some]. rewrite Hm. by rewrite insert_union_l.
  - cbn. rewrite Hr Hn. assert (h2 !! i = None) as H2 by (by eapply map_disjoint_Some_l).
    eapply (hp_mono _ (h2 ∪ {[i := f c]})); last first.
    + apply HQ; [by apply map_disjoint_singleton_r|]. cbn. by rewrite lookup_singleton.
    + rewrite map_union_comm; [|by apply map_disjoint_singleton_r]. rewrite -insert_union_singleton_l.
      apply insert_mono. etrans; [|exact Hs]. by apply map_union_subseteq_r.
Qed.
Lemma twp_alloc c r n Q : (∀ i, i ↦ c -∗ Q i r n) ⊢ twp (alloc c) r n Q.
Proof.
  constructor. intros h HQ s hf Hdf Hm Hr Hn. cbn.
  assert (HN : (h ∪ hf) !! length (t_nodes s) = None).
  { rewrite -Hm lookup_map_seq_0. by apply lookup_ge_None. }
  apply lookup_union_None in HN as [Hh Hhf].
  exists (h ∪ {[length (t_nodes s) := c]}). split_and!.
  - apply map_disjoint_union_l. split; [done|]. by apply map_disjoint_singleton_l.
  - apply map_eq. intros j. rewrite lookup_map_seq_0.
    rewrite -(assoc_L (∪)) (map_union_comm {[_ := _]} hf); [|by apply map_disjoint_singleton_l].
    rewrite (assoc_L (∪)) -Hm.
    destruct (decide (j < length (t_nodes s))) as [Hl|Hl].
    + rewrite lookup_app_l //. destruct (lookup_lt_is_Some_2 _ _ Hl) as [x Hx]. rewrite Hx.
      symmetry. apply lookup_union_Some_l. by rewrite lookup_map_seq_0.
    + rewrite lookup_app_r; [|lia]. rewrite lookup_union_r; [|rewrite lookup_map_seq_0; apply lookup_ge_None; lia].
      destruct (decide (j = length (t_nodes s))) as [->|Hne].
      * by rewrite lookup_singleton Nat.sub_diag.
      * rewrite lookup_singleton_ne //. apply lookup_ge_None. cbn. lia.
  - rewrite Hr Hn. apply HQ; [by apply map_disjoint_singleton_r|]. cbn. by rewrite lookup_singleton.
Qed.
Lemma twp_get_root r n Q : Q r r n ⊢ twp get_root r n Q.
Proof. constructor. intros h HQ s hf Hd Hm Hr Hn. exists h. cbn. by rewrite Hr Hn. Qed.
Lemma twp_set_root p r n Q : Q tt p n ⊢ twp (set_root p) r n Q.
Proof. constructor. intros h HQ s hf Hd Hm Hr Hn. exists h. cbn. by rewrite Hn. Qed.
Lemma twp_get_len r n Q : Q n r n ⊢ twp get_len r n Q.
Proof. constructor. intros h HQ s hf Hd Hm Hr Hn. exists h. cbn. by rewrite Hr Hn. Qed.
Lemma twp_add_len d r n Q : Q tt r (n + d)%Z ⊢ twp (add_len d) r n Q.
Proof. constructor. intros h HQ s hf Hd Hm Hr Hn. exists h. cbn. by rewrite Hr Hn. Qed.

Lemma map_size_mono (h h' : mem) : h ⊆ h' -> size h <= size h'.
Proof. intros Hs. rewrite -!size_dom. by apply subseteq_size, subseteq_dom. Qed.
(** At least [k] nodes are owned. *)
Program Definition atleast (k : nat) : hprop := HProp (fun h => k <= size h) _.
Next Obligation.
  intros k h h' Hs Hk. cbn in *. etrans; [exact Hk|]. by apply map_size_mono.
Qed.
Lemma atleast_0 : ⊢ atleast 0.
Proof. constructor. intros h _. cbn. lia. Qed.
Lemma atleast_pto i c : i ↦ c ⊢ atleast 1.
Proof.
  constructor. intros h H. cbn in *. destruct (decide (size h = 0)) as [E|E]; [|lia].
  apply map_size_empty_inv in E. subst. by rewrite lookup_empty in H.
Qed.
Lemma atleast_sep j k : atleast j ∗ atleast k ⊢ atleast (j + k).
Proof.
  constructor. intros h (h1 & h2 & Hd & Hs & H1 & H2). cbn in *.
  transitivity (size (h1 ∪ h2)); [|by apply map_size_mono]. rewrite map_size_disj_union //. lia.
Qed.
Lemma twp_get_fuel (P : hprop) k r n Q : (P ⊢ atleast k) ->
  P ∗ (∀ f, ⌜k < f⌝ -∗ P -∗ Q f r n) ⊢ twp get_fuel r n Q.
Proof.
  intros HP. constructor. intros h (h1 & h2 & Hd & Hs & H & HQ) s hf Hdf Hm Hr Hn. cbn.
  assert (k <= size h1) as Hk by (by apply HP).
  exists h. split_and!; try done. rewrite Hr Hn. eapply hp_mono; [exact Hs|].
  rewrite map_union_comm; [|done].
  assert (Hlen : size (memof s) <= length (t_nodes s)).
  { rewrite -size_dom. assert (dom (memof s) ⊆ list_to_set (seq 0 (length (t_nodes s)))) as Hsub.
    { intros j. rewrite elem_of_dom. intros [c Hc]. rewrite lookup_map_seq_0 in Hc.
      apply elem_of_list_to_set, elem_of_seq. apply lookup_lt_Some in Hc. lia. }
    apply subseteq_size in Hsub. etrans; [exact Hsub|]. rewrite size_list_to_set; [|apply NoDup_seq].
    by rewrite seq_length. }
  assert (Hsz : size h1 <= size (memof s)).
  { rewrite Hm. apply map_size_mono. etrans; [|apply map_union_subseteq_l].
    etrans; [|exact Hs]. apply map_union_subseteq_l. }
  specialize (HQ (S (length (t_nodes s))) ∅ (map_disjoint_empty_r _)). rewrite right_id_L in HQ.
  apply HQ; [change (k < S (length (t_nodes s))); lia|by symmetry|done].
Qed.

(** Leaving the logic. *)
Lemma twp_run {A} (P : hprop) (m : M tst A) Q s h :
  (P ⊢ twp m (t_root s) (t_len s) Q) -> P h -> h ⊆ memof s ->
  exists a s' h', m s = Ok a s' /\ h' ⊆ memof s' /\ Q a (t_root s') (t_len s') h'.
Proof.
  intros HP Hh Hs. apply HP in Hh.
  specialize (Hh s (memof s ∖ h)). cbn in Hh.
  destruct (m s) as [a s'|e s'|] eqn:E.
  - destruct Hh as (h' & Hd & Hm & HQ); [by apply map_disjoint_difference_r|by rewrite map_difference_union|done|done|].
    exists a, s', h'. split_and!; try done. rewrite Hm. apply map_union_subseteq_l.
  - exfalso. apply Hh; [by apply map_disjoint_difference_r|by rewrite map_difference_union|done|done].
  - exfalso. apply Hh; [by apply map_disjoint_difference_r|by rewrite map_difference_union|done|done].
Qed.
Lemma pto_run (P : hprop) (s : tst) h i c : (P ⊢ i ↦ c) -> P h -> h ⊆ memof s -> t_nodes s !! i = Some c.
Proof.
  intros HP Hh Hs. apply HP in Hh. cbn in Hh. rewrite -(lookup_map_seq_0 (M := gmap nat)).
  by eapply lookup_weaken.
Qed.

(** Proof-mode versions. *)
Lemma tac_rd Δ j i c r n Q :
  envs_lookup j Δ = Some (false, i ↦ c)%I ->
  envs_entails Δ (Q c r n) -> envs_entails Δ (twp (rd i) r n Q).
Proof.
  rewrite envs_entails_unseal. intros Hl HQ. rewrite (envs_lookup_split Δ j false) // /=.
  rewrite -twp_rd. apply bi.sep_mono_r. apply bi.wand_mono; [done|exact HQ].
Qed.
Lemma tac_wr Δ Δ' j i c f r n Q :
  envs_lookup j Δ = Some (false, i ↦ c)%I ->
  envs_simple_replace j false (Esnoc Enil j (i ↦ f c)%I) Δ = Some Δ' ->
  envs_entails Δ' (Q tt r n) -> envs_entails Δ (twp (wr i f) r n Q).
Proof.
  rewrite envs_entails_unseal. intros Hl Hr HQ.
  rewrite envs_simple_replace_singleton_sound //. cbn [bi_intuitionistically_if].
  rewrite -twp_wr. apply bi.sep_mono_r. apply bi.wand_mono; [done|exact HQ].
Qed.
End rules.

Ltac wbind := iApply twp_bind.
Ltac wrd := eapply tac_rd; [iAssumptionCore|cbn [c_pay c_left c_right c_parent with_left with_right with_parent with_pay]].
Ltac wwr := eapply tac_wr; [iAssumptionCore|pm_reflexivity|cbn [c_pay c_left c_right c_parent with_left with_right with_parent with_pay pay_height]].
Ltac wret := iApply twp_ret.
(** [get_left], [get_right], [get_parent], [get_data] under a bind. *)
Ltac wget := unfold get_left, get_right, get_parent, get_data, get_height; wbind; wbind; wrd; wret.
Ltac wget1 := unfold get_left, get_right, get_parent, get_data, get_height; wbind; wrd; wret.

(** ** Trees in memory *)
Notation ptree := (bin (nat * pay)).
Definition rp (t : ptree) : option nat := match t with Nil => None | Bin _ ix _ => Some ix.1 end.
Fixpoint tree (par : option nat) (t : ptree) : hprop :=
  match t with
  | Nil => emp
  | Bin l ix r => ix.1 ↦ Cell ix.2 (rp l) (rp r) par ∗ tree (Some ix.1) l ∗ tree (Some ix.1) r
  end%I.
Fixpoint bsize {A} (t : bin A) : nat := match t with Nil => 0 | Bin l _ r => S (bsize l + bsize r) end.
Lemma tree_atleast par t : tree par t ⊢ atleast (bsize t).
Proof.
  revert par. induction t as [|l IHl [i x] r IHr]; intros par; cbn [tree bsize].
  - iIntros "_". iApply atleast_0.
  - rewrite IHl IHr. rewrite atleast_pto. rewrite atleast_sep. rewrite atleast_sep. cbn. done.
Qed.

(** Cached height as [get_children_heights] sees it. *)
Definition hh (t : ptree) : nat := match t with Nil => 0 | Bin _ ix _ => S (p_height ix.2) end.
(** What the setters make of the stored payload when the children are [l] and [r]. *)
Definition refresh (c : tcls) (l : ptree) (x : pay) (r : ptree) : pay :=
  match c with CAVL => pay_height (Nat.max (hh l) (hh r)) x | _ => x end.
Definition node (c : tcls) (l : ptree) (ix : nat * pay) (r : ptree) : ptree :=
  Bin l (ix.1, refresh c l ix.2 r) r.
Lemma rp_node c l ix r : rp (node c l ix r) = Some ix.1.
Proof. done. Qed.

Section tree_rules.
Implicit Types (r : option nat) (n : Z).

Lemma twp_set_parent_tree q par t r n Q : rp t = None \/ (exists i, rp t = Some i) ->
  tree q t ∗ (tree par t -∗ Q tt r n) ⊢
  twp (match rp t with Some j => set_parent j par | None => ret tt end) r n Q.
Proof.
  intros _. iIntros "[Ht HQ]". destruct t as [|a [i x] b]; cbn [rp tree fst snd].
  - wret. iApply "HQ". done.
  - iDestruct "Ht" as "(Hi & Ha & Hb)". unfold set_parent. wwr. iApply "HQ". iFrame.
Qed.
Lemma twp_height_of q t r n Q :
  tree q t ∗ (tree q t -∗ Q (hh t) r n) ⊢ twp (height_of (rp t)) r n Q.
Proof.
  iIntros "[Ht HQ]". destruct t as [|a [i x] b]; cbn [rp tree fst snd height_of hh].
  - wret. iApply "HQ". done.
  - iDestruct "Ht" as "(Hi & Ha & Hb)". wget. wret. iApply "HQ". iFrame.
Qed.
Lemma twp_children_heights i x par l q1 u q2 r n Q :
  i ↦ Cell x (rp l) (rp u) par ∗ tree q1 l ∗ tree q2 u ∗
  (i ↦ Cell x (rp l) (rp u) par -∗ tree q1 l -∗ tree q2 u -∗ Q (hh l, hh u) r n) ⊢
  twp (get_children_heights i) r n Q.
Proof.
  iIntros "(Hi & Hl & Hu & HQ)". unfold get_children_heights. wget. wbind.
  iApply twp_height_of. iFrame "Hl". iIntros "Hl". wget. wbind.
  iApply twp_height_of. iFrame "Hu". iIntros "Hu". wret. iApply ("HQ" with "Hi Hl Hu").
Qed.
Lemma twp_fix_height i x par l q1 u q2 r n Q :
  i ↦ Cell x (rp l) (rp u) par ∗ tree q1 l ∗ tree q2 u ∗
  (i ↦ Cell (refresh CAVL l x u) (rp l) (rp u) par -∗ tree q1 l -∗ tree q2 u -∗ Q tt r n) ⊢
  twp (fix_height i) r n Q.
Proof.
  iIntros "(Hi & Hl & Hu & HQ)". unfold fix_height. wbind. iApply twp_children_heights.
  iFrame "Hi Hl Hu". iIntros "Hi Hl Hu". unfold set_height. wwr. iApply ("HQ" with "Hi Hl Hu").
Qed.
Lemma twp_set_left c i p x pl t q u pu q' par r n Q : p = rp t -> pu = rp u ->
  i ↦ Cell x pl pu par ∗ tree q t ∗ tree q' u ∗
  (i ↦ Cell (refresh c t x u) (rp t) (rp u) par -∗ tree (Some i) t -∗ tree q' u -∗ Q tt r n) ⊢
  twp (set_left c i p) r n Q.
Proof.
  intros -> ->. iIntros "(Hi & Ht & Hu & HQ)". unfold set_left. wbind. wwr. wbind.
  iApply twp_set_parent_tree; [destruct (rp t); eauto|]. iFrame "Ht". iIntros "Ht".
  destruct c; try (wret; iApply ("HQ" with "Hi Ht Hu")).
  iApply twp_fix_height. iFrame "Hi Ht Hu". iIntros "Hi Ht Hu". iApply ("HQ" with "Hi Ht Hu").
Qed.
Lemma twp_set_right c i p x pr t q u pu q' par r n Q : p = rp t -> pu = rp u ->
  i ↦ Cell x pu pr par ∗ tree q t ∗ tree q' u ∗
  (i ↦ Cell (refresh c u x t) (rp u) (rp t) par -∗ tree (Some i) t -∗ tree q' u -∗ Q tt r n) ⊢
  twp (set_right c i p) r n Q.
Proof.
  intros -> ->. iIntros "(Hi & Ht & Hu & HQ)". unfold set_right. wbind. wwr. wbind.
  iApply twp_set_parent_tree; [destruct (rp t); eauto|]. iFrame "Ht". iIntros "Ht".
  destruct c; try (wret; iApply ("HQ" with "Hi Ht Hu")).
  iApply twp_fix_height. iFrame "Hi Ht Hu". iIntros "Hi Ht Hu". iApply ("HQ" with "Hi Hu Ht").
Qed.

(** ** Rotations *)
Lemma twp_rotate_left c par a i x b j y d r n Q :
  tree par (Bin a (i, x) (Bin b (j, y) d)) ∗
  (tree par (node c (node c a (i, x) b) (j, y) d) -∗ Q j r n) ⊢
  twp (rotate_left c i) r n Q.
Proof.
  cbn [tree rp fst snd]. iIntros "[(Hi & Ha & Hj & Hb & Hd) HQ]". unfold rotate_left.
  wget. wbind. wret. wget. wbind. unfold set_parent. wwr. wget. wbind.
  iApply (twp_set_right c i (rp b) _ _ b _ a); [done|done|]. iFrame "Hi Hb Ha". iIntros "Hi Hb Ha".
  wbind.
  iApply (twp_set_left c j (Some i) _ _ (node c a (i, x) b) _ d); [done|done|].
  iSplitL "Hj"; [done|]. iSplitL "Hi Ha Hb".
  { cbn [tree node fst snd]. iFrame. }
  iFrame "Hd". iIntros "Hj Ht Hd". wret. iApply "HQ". cbn [tree node fst snd]. iFrame.
Qed.
Lemma twp_rotate_right c par a i x b j y d r n Q :
  tree par (Bin (Bin a (j, y) b) (i, x) d) ∗
  (tree par (node c a (j, y) (node c b (i, x) d)) -∗ Q j r n) ⊢
  twp (rotate_right c i) r n Q.
Proof.
  cbn [tree rp fst snd]. iIntros "[(Hi & (Hj & Ha & Hb) & Hd) HQ]". unfold rotate_right.
  wget. wbind. wret. wget. wbind. unfold set_parent. wwr. wget. wbind.
  iApply (twp_set_left c i (rp b) _ _ b _ d); [done|done|]. iFrame "Hi Hb Hd". iIntros "Hi Hb Hd".
  wbind.
  iApply (twp_set_right c j (Some i) _ _ (node c b (i, x) d) _ a); [done|done|].
  iSplitL "Hj"; [done|]. iSplitL "Hi Hd Hb".
  { cbn [tree node fst snd]. iFrame. }
  iFrame "Ha". iIntros "Hj Ht Ha". wret. iApply "HQ". cbn [tree node fst snd]. iFrame.
Qed.
Lemma twp_rotate_left_right c par a j y b m z b' i x d r n Q :
  tree par (Bin (Bin a (j, y) (Bin b (m, z) b')) (i, x) d) ∗
  (tree par (node c (node c a (j, y) b) (m, z) (node c b' (i, x) d)) -∗ Q m r n) ⊢
  twp (rotate_left_right c i) r n Q.
Proof.
  cbn [tree rp fst snd]. iIntros "[(Hi & (Hj & Ha & Hm & Hb & Hb') & Hd) HQ]". unfold rotate_left_right.
  wget. wbind. wret. wget. wbind. wret. wget. wbind. unfold set_parent. wwr. wget. wbind. wret. wget. wbind.
  iApply (twp_set_right c j (rp b) _ _ b _ a); [done|done|]. iFrame "Hj Hb Ha". iIntros "Hj Hb Ha".
  wget. wbind.
  iApply (twp_set_left c m (Some j) _ _ (node c a (j, y) b) _ b'); [done|done|].
  iSplitL "Hm"; [done|]. iSplitL "Hj Ha Hb".
  { cbn [tree node fst snd]. iFrame. }
  iFrame "Hb'". iIntros "Hm Ht Hb'".
  wget. wbind.
  iApply (twp_set_left c i (rp b') _ _ b' _ d); [done|done|]. iFrame "Hi Hb' Hd". iIntros "Hi Hb' Hd".
  wbind.
  iApply (twp_set_right c m (Some i) _ _ (node c b' (i, x) d) _ (node c a (j, y) b)); [done|done|].
  iSplitL "Hm"; [done|]. iSplitL "Hi Hb' Hd".
  { cbn [tree node fst snd]. iFrame. }
  iFrame "Ht". iIntros "Hm Hu Ht". wret. iApply "HQ". cbn [tree]. rewrite {3}/node. cbn [tree fst snd].
  destruct c; iFrame.
Qed.
Lemma twp_rotate_right_left c par a j y b m z b' i x d r n Q :
  tree par (Bin d (i, x) (Bin (Bin b' (m, z) b) (j, y) a)) ∗
  (tree par (node c (node c d (i, x) b') (m, z) (node c b (j, y) a)) -∗ Q m r n) ⊢
  twp (rotate_right_left c i) r n Q.
Proof.
  cbn [tree rp fst snd]. iIntros "[(Hi & Hd & Hj & (Hm & Hb' & Hb) & Ha) HQ]". unfold rotate_right_left.
  wget. wbind. wret. wget. wbind. wret. wget. wbind. unfold set_parent. wwr. wget. wbind. wret. wget. wbind.
  iApply (twp_set_left c j (rp b) _ _ b _ a); [done|done|]. iFrame "Hj Hb Ha". iIntros "Hj Hb Ha".
  wget. wbind.
  iApply (twp_set_right c m (Some j) _ _ (node c b (j, y) a) _ b'); [done|done|].
  iSplitL "Hm"; [done|]. iSplitL "Hj Ha Hb".
  { cbn [tree node fst snd]. iFrame. }
  iFrame "Hb'". iIntros "Hm Ht Hb'".
  wget. wbind.
  iApply (twp_set_right c i (rp b') _ _ b' _ d); [done|done|]. iFrame "Hi Hb' Hd". iIntros "Hi Hb' Hd".
  wbind.
  iApply (twp_set_left c m (Some i) _ _ (node c d (i, x) b') _ (node c b (j, y) a)); [done|done|].
  iSplitL "Hm"; [done|]. iSplitL "Hi Hb' Hd".
  { cbn [tree node fst snd]. iFrame. }
  iFrame "Ht". iIntros "Hm Hu Ht". wret. iApply "HQ". cbn [tree]. rewrite {3}/node. cbn [tree fst snd].
  destruct c; iFrame.
Qed.
End tree_rules.
