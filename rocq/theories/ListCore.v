(** * Specs of _get_node, _insert_node and _remove_node for the three classes. *)
From Verif Require Import Base ListModel ListRep.
Local Open Scope py_scope.

Lemma last_loc_take_S pv g n i :
  last_loc pv (take (S i) (n :: g)) = last_loc (Some (g_loc n)) (take i g).
Proof. cbn [take]. by rewrite last_loc_cons. Qed.

Lemma get_node_loop_spec s d g q idx : forall pv,
  lseg (s_nodes s) d pv g q -> idx <= length g ->
  get_node_loop idx pv (hd_loc g q) s = Ok (last_loc pv (take idx g), hd_loc (drop idx g) q) s.
Proof.
  revert g. induction idx as [|i IH]; intros g pv Hs Hi; [done|].
  destruct g as [|n g]; [cbn in Hi; lia|].
  destruct Hs as [(c & Hc & _ & _ & _ & _ & Hnx & _) Hs]. cbn [hd_loc get_node_loop deref].
  erewrite bind_ok by done.
  assert (get_next (g_loc n) s = Ok (hd_loc g q) s) as Hgn.
  { unfold get_next, bind, get_cell. rewrite Hc. cbn. by rewrite Hnx. }
  erewrite bind_ok by exact Hgn. rewrite IH; [|done|cbn in Hi; lia].
  by rewrite last_loc_take_S.
Qed.

Lemma back_loop_spec s g q n pv :
  lseg (s_nodes s) true pv g q -> n <= length g ->
  back_loop n (last_loc pv g) s = Ok (last_loc pv (take (length g - n) g)) s.
Proof.
  revert g q. induction n as [|n IH]; intros g q Hs Hn.
  { by rewrite Nat.sub_0_r, take_ge by lia. }
  destruct g as [|x g _] using rev_ind; [cbn in Hn; lia|].
  rewrite app_length in *. cbn in Hn.
  apply lseg_app in Hs as [Hs [(c & Hc & _ & _ & _ & _ & _ & Hpv) _]].
  rewrite last_loc_snoc. cbn [back_loop deref]. erewrite bind_ok by done.
  assert (get_prev (g_loc x) s = Ok (last_loc pv g) s) as Hgp.
  { unfold get_prev, bind, get_cell. rewrite Hc. cbn. by rewrite Hpv. }
  erewrite bind_ok by exact Hgp. erewrite IH; [|exact Hs|lia].
  cbn [length]. replace (length g + 1 - S n) with (length g - n) by lia.
  by rewrite take_app_le by lia.
Qed.

Lemma obj_eq {k s o g} (H : rep k s o g) : exists ob,
  s_objs s !! o = Some ob /\ o_cls ob = k /\ o_len ob = length g
  /\ (g <> [] -> o_head ob = hd_loc g None)
  /\ (k = CDLL -> g <> [] -> o_tail ob = last_loc None g).
Proof. destruct H as [(hd & tl & Hob & Hh & Ht) _ _ _]. eexists. split; [done|]. done. Qed.

Lemma get_obj_ok s o ob : s_objs s !! o = Some ob -> get_obj o s = Ok ob s.
Proof. unfold get_obj. by intros ->. Qed.
Lemma get_cell_ok s l c : s_nodes s !! l = Some c -> get_cell l s = Ok c s.
Proof. unfold get_cell. by intros ->. Qed.

Lemma endp_hd k g : g <> [] -> hd_loc g (endp k g) = hd_loc g None.
Proof. by destruct g. Qed.

Lemma ll_get_node_spec k s o g idx :
  rep k s o g -> idx <= length g ->
  exists c, ll_get_node o idx s = Ok (last_loc None (take idx g), c) s
       /\ (g <> [] -> c = hd_loc (drop idx g) (endp k g)).
Proof.
  intros Hr Hi. destruct (obj_eq Hr) as (ob & Hob & Hk & Hlen & Hhd & _).
  unfold ll_get_node. erewrite bind_ok by (by apply get_obj_ok).
  destruct (decide (g = [])) as [->|Hne].
  { cbn in Hi. assert (idx = 0) as -> by lia. eexists. split; [reflexivity|done]. }
  rewrite Hhd by done. rewrite <- (endp_hd k) by done.
  erewrite get_node_loop_spec; [|by eapply rep_seg|done]. eauto.
Qed.

Lemma get_node_spec k s o g idx :
  rep k s o g -> idx <= length g ->
  exists c, get_node o idx s = Ok (last_loc None (take idx g), c) s
       /\ (g <> [] -> c = hd_loc (drop idx g) (endp k g)).
Proof.
  intros Hr Hi. destruct (obj_eq Hr) as (ob & Hob & Hk & Hlen & Hhd & Htl).
  pose proof (ll_get_node_spec _ _ _ _ _ Hr Hi) as Hll.
  unfold get_node. erewrite bind_ok by (by apply get_obj_ok).
  rewrite Hk. destruct k; [exact Hll| |exact Hll].
  unfold dll_get_node. erewrite bind_ok by (by apply get_obj_ok).
  destruct (Nat.leb idx _) eqn:Hle; [done|]. apply Nat.leb_gt in Hle.
  assert (idx <> 0) as Hi0 by lia.
  assert (g <> []) as Hne by (intros ->; cbn in *; lia).
  rewrite Htl, Hlen by done. pose proof (rep_seg _ _ _ _ Hr) as Hs.
  erewrite bind_ok.
  2:{ eapply back_loop_spec; [exact Hs|lia]. }
  replace (length g - (length g - idx)) with idx by lia.
  (* the predecessor exists *)
  destruct (last (take idx g)) as [x|] eqn:Hlast.
  2:{ apply last_None in Hlast. destruct g, idx; try done. }
  unfold last_loc at 1 2. rewrite Hlast. cbn. unfold bind at 1. cbn.
  rewrite <- (take_drop idx g) in Hs.
  apply last_Some in Hlast as [g1 Hg1]. rewrite Hg1 in Hs.
  rewrite <- app_assoc in Hs. apply lseg_app in Hs as [_ Hs]. cbn in Hs.
  destruct Hs as [(c & Hc & _ & _ & _ & _ & Hnx & _) _].
  unfold get_next, bind, get_cell. rewrite Hc. cbn. rewrite Hnx.
  eexists. split; [|done]. by rewrite Hg1, last_loc_snoc.
Qed.

(** ** Insertion *)

(** Ghost effect of inserting node [n] between [g1] and [g2]; a circular list
    inserts at the front by inserting after the head and swapping the data. *)
Definition ins_ghost (k : lcls) (g1 : list gn) (n : gn) (g2 : list gn) : list gn :=
  match is_cll k, g1, g2 with
  | true, [], m :: r =>
      GN (g_loc m) (g_val n) (g_pri m) (g_dn m) :: GN (g_loc n) (g_val m) (g_pri n) (g_dn n) :: r
  | _, _, _ => g1 ++ n :: g2
  end.
Definition ins_loc (k : lcls) (g1 : list gn) (n : gn) (g2 : list gn) : nat :=
  match is_cll k, g1, g2 with
  | true, [], m :: _ => g_loc m
  | _, _, _ => g_loc n
  end.

Lemma ins_ghost_vals k g1 n g2 : vals (ins_ghost k g1 n g2) = vals g1 ++ g_val n :: vals g2.
Proof. unfold ins_ghost. destruct (is_cll k), g1, g2; cbn; rewrite ?map_app; done. Qed.
Lemma ins_ghost_locs k g1 n g2 l :
  l ∈ locs (ins_ghost k g1 n g2) <-> l ∈ g_loc n :: locs (g1 ++ g2).
Proof. unfold ins_ghost. destruct (is_cll k), g1, g2; cbn; rewrite ?map_app; cbn; rewrite ?elem_of_cons, ?elem_of_app, ?elem_of_cons; tauto. Qed.
Lemma ins_ghost_length k g1 n g2 : length (ins_ghost k g1 n g2) = S (length (g1 ++ g2)).
Proof. unfold ins_ghost. destruct (is_cll k), g1, g2; cbn; rewrite ?app_length; cbn; lia. Qed.

(** The inserted position seen as a split: [take]ing |g1|+1 nodes ends in the
    returned node. *)
Lemma ins_ghost_split k g1 n g2 : exists g1' m g2',
  ins_ghost k g1 n g2 = g1' ++ m :: g2' /\ g_loc m = ins_loc k g1 n g2 /\ g_val m = g_val n
  /\ vals g1' = vals g1 /\ vals g2' = vals g2.
Proof.
  unfold ins_ghost, ins_loc. destruct (is_cll k), g1 as [|a g1], g2 as [|b g2];
    try (eexists _, n, _; split; [reflexivity|]; done).
  eexists [], _, _. cbn. split_and!; try done.
Qed.

Lemma splice h h' d g1 n g2 q :
  lseg h d None (g1 ++ g2) q ->
  NoDup (locs (g1 ++ g2)) -> g_loc n ∉ locs (g1 ++ g2) ->
  cell_ok h' d (last_loc None g1) n (hd_loc g2 q) ->
  (forall g1' p, g1 = g1' ++ [p] -> cell_ok h' d (last_loc None g1') p (Some (g_loc n))) ->
  (forall x g2', g2 = x :: g2' -> cell_ok h' d (Some (g_loc n)) x (hd_loc g2' q)) ->
  (forall y, y ∈ locs (g1 ++ g2) -> Some y <> last_loc None g1 -> Some y <> hd_loc g2 None -> h' !! y = h !! y) ->
  lseg h' d None (g1 ++ n :: g2) q.
Proof.
  intros Hs Hnd Hl Hn Hp Hx Hfr. apply lseg_app. apply lseg_app in Hs as [Hs1 Hs2].
  rewrite map_app in Hnd, Hl. apply NoDup_app in Hnd as (Hnd1 & Hdis & Hnd2).
  split; [|split].
  - destruct g1 as [|p g1' _] using rev_ind; [done|].
    cbn [hd_loc]. apply lseg_app in Hs1 as [Hs1 _]. apply lseg_app. split.
    + cbn [hd_loc]. eapply lseg_frame; [|exact Hs1]. intros y Hy. apply Hfr.
      * rewrite !map_app. set_solver.
      * rewrite last_loc_snoc. intros [= ->]. rewrite map_app in Hnd1.
        apply NoDup_app in Hnd1 as (_ & Hd & _). apply (Hd _ Hy). cbn. set_solver.
      * destruct g2 as [|x g2]; [done|]. cbn. intros [= ->].
        apply (Hdis (g_loc x)); [rewrite map_app|cbn]; set_solver.
    + cbn. split; [|done]. by apply Hp.
  - done.
  - destruct g2 as [|x g2]; [done|]. cbn. split; [by apply Hx|].
    destruct Hs2 as [_ Hs2]. eapply lseg_frame; [|exact Hs2]. intros y Hy. apply Hfr.
    + rewrite map_app. cbn. set_solver.
    + unfold last_loc. destruct (last g1) as [m|] eqn:Hm; [|done]. intros [= ->].
      apply last_Some in Hm as [g1' ->]. apply (Hdis (g_loc m)); [rewrite map_app|]; cbn; set_solver.
    + cbn. intros [= ->]. cbn in Hnd2. apply NoDup_cons in Hnd2 as [? _]. done.
Qed.

Lemma cell_ok_upd_next h d pv n nx c l :
  h !! g_loc n = Some (upd_next c l) -> c_dbl c = d -> c_data c = g_val n -> c_prio c = g_pri n ->
  c_down c = g_dn n -> l = nx -> (d = true -> c_prev c = pv) -> cell_ok h d pv n nx.
Proof. intros. eexists. split; [done|]. cbn. naive_solver. Qed.

Lemma NoDup_fresh_mid (g1 g2 : list gn) n :
  NoDup (locs (g1 ++ g2)) -> g_loc n ∉ locs (g1 ++ g2) -> NoDup (locs (g1 ++ n :: g2)).
Proof.
  rewrite !map_app. cbn. intros H Hn.
  rewrite <- Permutation_middle. by apply NoDup_cons.
Qed.

Lemma set_obj_lookup (os : list lobj) o ob ob' :
  os !! o = Some ob -> <[o := ob']> os !! o = Some ob'.
Proof. intros H. apply list_lookup_insert. by eapply lookup_lt_Some. Qed.

(** Precondition shared by the insertion specs: [n] describes a fresh node. *)
Record fresh_node (k : lcls) (s : st) (g : list gn) (n : gn) : Prop := Fresh {
  fn_cell : s_nodes s !! g_loc n = Some (Cell (is_dll k) (g_val n) None None (g_pri n) (g_dn n));
  fn_new : g_loc n ∉ locs g;
  fn_stored : stored (g_val n) }.

(** What an insertion establishes. *)
Definition ins_post (k : lcls) (s : st) (o : nat) (g1 : list gn) (n : gn) (g2 : list gn)
    (r : nat) (s' : st) : Prop :=
  r = ins_loc k g1 n g2 /\ rep k s' o (ins_ghost k g1 n g2)
  /\ modifies (g_loc n :: locs (g1 ++ g2)) [o] s s'
  /\ length (s_nodes s') = length (s_nodes s) /\ length (s_objs s') = length (s_objs s).

Lemma put_obj_modifies L s o ob h' :
  length h' = length (s_nodes s) -> (forall l, l ∉ L -> h' !! l = s_nodes s !! l) ->
  modifies L [o] s (St h' (<[o := ob]> (s_objs s))).
Proof.
  intros Hl Hh. split; cbn.
  - lia.
  - by rewrite insert_length.
  - intros l _ Hn. by apply Hh.
  - intros o' _ Hn. rewrite list_lookup_insert_ne; [done|]. set_solver.
Qed.
Lemma insert_stored (g1 g2 : list gn) n :
  Forall (fun n => stored (g_val n)) (g1 ++ g2) -> stored (g_val n) ->
  Forall (fun n => stored (g_val n)) (g1 ++ n :: g2).
Proof. rewrite !Forall_app, Forall_cons. tauto. Qed.

Lemma map_app_locs (g1 g2 : list gn) : locs (g1 ++ g2) = locs g1 ++ locs g2.
Proof. apply map_app. Qed.

Ltac wget_obj H := apply wp_bind; eapply wp_get_obj; [exact H|].

(** Common last step [self._length += 1; return r]. *)
Lemma wp_incr o ob s (r : nat) (Q : nat -> st -> Prop) :
  s_objs s !! o = Some ob ->
  Q r (St (s_nodes s) (<[o := set_len ob (S (o_len ob))]> (s_objs s))) ->
  wp (let! o' := get_obj o in put_obj o (set_len o' (S (o_len o'))) ;; ret r) Q s.
Proof. intros H HQ. wget_obj H. by apply wp_bind, wp_put_obj, wp_ret. Qed.

(** Closing lemma: the non-circular-front insertions. *)
Lemma ins_finish k s o ob g1 n g2 h' hd tl :
  rep k s o (g1 ++ g2) -> fresh_node k s (g1 ++ g2) n ->
  s_objs s !! o = Some ob ->
  (is_cll k = false \/ g1 <> [] \/ g2 = []) ->
  length h' = length (s_nodes s) ->
  lseg h' (is_dll k) None (g1 ++ n :: g2) (endp k (g1 ++ n :: g2)) ->
  (forall l, l ∉ g_loc n :: locs (g1 ++ g2) -> h' !! l = s_nodes s !! l) ->
  hd = hd_loc (g1 ++ n :: g2) None ->
  (k = CDLL -> tl = last_loc None (g1 ++ n :: g2)) ->
  ins_post k s o g1 n g2 (g_loc n)
    (St h' (<[o := LObj k hd tl (S (length (g1 ++ g2)))]> (s_objs s))).
Proof.
  intros Hr Hf Hob Hcase Hlen Hs Hfr Hhd Htl.
  assert (ins_ghost k g1 n g2 = g1 ++ n :: g2 /\ ins_loc k g1 n g2 = g_loc n) as [Hg Hl].
  { unfold ins_ghost, ins_loc. destruct (is_cll k), g1, g2; try done.
    destruct Hcase as [|[|]]; done. }
  unfold ins_post. rewrite Hg, Hl. split_and!; [done| | |done|cbn; by rewrite insert_length].
  - split; cbn.
    + exists hd, tl. split_and!; [|done|auto].
      erewrite set_obj_lookup by done. do 2 f_equal. rewrite !app_length. cbn. lia.
    + done.
    + apply NoDup_fresh_mid; [by eapply rep_nodup|by eapply fn_new].
    + apply insert_stored; [by eapply rep_stored|by eapply fn_stored].
  - by apply put_obj_modifies.
Qed.

Lemma app_not_nil (g1 g2 : list gn) : g1 ++ g2 = [] -> g1 = [] /\ g2 = [].
Proof. by destruct g1, g2. Qed.
Lemma lseg_last h d pv g p q : lseg h d pv (g ++ [p]) q -> cell_ok h d (last_loc pv g) p q.
Proof. intros [_ [H _]]%lseg_app. exact H. Qed.
Lemma lseg_hd h d pv n g q : lseg h d pv (n :: g) q -> cell_ok h d pv n (hd_loc g q).
Proof. by intros [? _]. Qed.
Lemma insert_insert_obj (os : list lobj) o a b : <[o := b]> (<[o := a]> os) = <[o := b]> os.
Proof. apply list_insert_insert. Qed.

Lemma elem_last (g : list gn) p : g_loc p ∈ locs (g ++ [p]).
Proof. rewrite map_app. cbn. set_solver. Qed.

Lemma cell_ok_pv h pv pv' n nx : cell_ok h false pv n nx -> cell_ok h false pv' n nx.
Proof. intros (c & ? & ? & ? & ? & ? & ? & _). by exists c. Qed.
Lemma lseg_pv h pv pv' g q : lseg h false pv g q -> lseg h false pv' g q.
Proof. destruct g; [done|]. intros [? ?]. split; [by eapply cell_ok_pv|done]. Qed.

Lemma linked_other d h l c n h' y :
  linked d h l c n h' -> y <> l -> (d = false \/ Some y <> n) -> h' !! y = h !! y.
Proof. intros (_ & _ & _ & H). auto. Qed.

Lemma NoDup_locs_inj (g1 g2 : list gn) a b :
  NoDup (locs (g1 ++ g2)) -> a ∈ locs g1 -> b ∈ locs g2 -> a <> b.
Proof. rewrite map_app. intros (_ & H & _)%NoDup_app Ha Hb ->. by apply (H b). Qed.

Definition fresh_cell (d : bool) (n : gn) : cell :=
  Cell d (g_val n) None None (g_pri n) (g_dn n).

(** Linking a fresh node behind [p]. *)
Lemma splice_after d h h1 h2 g1 p n g2 q cp :
  lseg h d None ((g1 ++ [p]) ++ g2) q -> (d = true -> q = None) ->
  NoDup (locs ((g1 ++ [p]) ++ g2)) -> g_loc n ∉ locs ((g1 ++ [p]) ++ g2) ->
  h !! g_loc n = Some (fresh_cell d n) ->
  linked d h (g_loc n) (fresh_cell d n) (hd_loc g2 q) h1 ->
  h1 !! g_loc p = Some cp -> linked d h1 (g_loc p) cp (Some (g_loc n)) h2 ->
  lseg h2 d None ((g1 ++ [p]) ++ n :: g2) q
  /\ length h2 = length h
  /\ (forall l, l ∉ g_loc n :: locs ((g1 ++ [p]) ++ g2) -> h2 !! l = h !! l).
Proof.
  intros Hs Hq Hnd Hnew Hc L1 Hcp1 L2.
  assert (g_loc p ∈ locs (g1 ++ [p])) as Hpin by apply elem_last.
  assert (g_loc p <> g_loc n) as Hpn.
  { intros Heq. apply Hnew. rewrite <- Heq, map_app_locs. set_solver. }
  assert (forall x, Some x = hd_loc g2 q -> d = true -> x <> g_loc p /\ x <> g_loc n) as Hxne.
  { intros x Hx Hd. destruct g2 as [|y g2]; cbn in Hx; [by rewrite Hq in Hx|].
    injection Hx as ->. split.
    - intros Heq. eapply (NoDup_locs_inj _ _ (g_loc p) (g_loc y) Hnd); [done|cbn; set_solver|done].
    - intros Heq. apply Hnew. rewrite <- Heq, map_app_locs. cbn. set_solver. }
  destruct (lseg_last _ _ _ _ _ _ (proj1 (proj1 (lseg_app _ _ _ _ _ _) Hs)))
      as (cp0 & Hcp & Hd & Hdat & Hpri & Hdn & Hnx & Hpv).
  assert (cp = cp0) as ->.
  { rewrite (linked_other _ _ _ _ _ _ (g_loc p) L1) in Hcp1; [congruence|done|].
    destruct d; [right|by left]. intros Hx. by destruct (Hxne _ Hx eq_refl). }
  destruct L1 as (Hl1 & Hh1 & Hx1 & Hfr1). destruct L2 as (Hl2 & Hh2 & Hx2 & Hfr2).
  split_and!.
  - eapply splice; [exact Hs|done|done| | | |].
    + destruct d.
      * destruct Hx2 as (cn & Hcn & Hn2). rewrite Hh1 in Hcn. injection Hcn as <-.
        eexists. split; [exact Hn2|]. cbn. rewrite last_loc_snoc. done.
      * eapply cell_ok_upd_next; [rewrite Hfr2; [exact Hh1|done|by left]|done..].
    + intros g1' p' [-> [= <-]]%app_inj_2; [|done]. by eapply cell_ok_upd_next.
    + intros x g2' ->. apply lseg_app in Hs as [_ [Hx _]].
      destruct Hx as (cx & Hcx & ? & ? & ? & ? & ? & ?). cbn in Hx1.
      assert (g_loc x <> g_loc p) as Hxp.
      { intros Heq. eapply (NoDup_locs_inj _ _ (g_loc p) (g_loc x) Hnd); [done|cbn; set_solver|done]. }
      assert (g_loc x <> g_loc n) as Hxn.
      { intros Heq. apply Hnew. rewrite <- Heq, map_app_locs. cbn. set_solver. }
      destruct d.
      * destruct Hx1 as (cx' & Hcx' & Hx1). rewrite Hcx in Hcx'. injection Hcx' as <-.
        eexists. split; [rewrite Hfr2; [exact Hx1|done|right; congruence]|]. done.
      * exists cx. split_and!; try done. rewrite Hfr2, Hfr1; [done|done|by left|done|by left].
    + intros y Hy Hy1 Hy2. rewrite last_loc_snoc in Hy1.
      assert (y <> g_loc n) by (by intros ->).
      rewrite Hfr2, Hfr1; [done|done| |congruence|right; congruence].
      destruct d; [|by left]. right. rewrite (Hq eq_refl). done.
  - lia.
  - intros l Hl. apply not_elem_of_cons in Hl as [Hl Hl'].
    assert (l <> g_loc p). { intros ->. apply Hl'. rewrite map_app_locs. set_solver. }
    rewrite Hfr2, Hfr1; [done|done| |done|right; congruence].
    destruct d; [|by left]. right. rewrite (Hq eq_refl). intros Hx. apply Hl'.
    destruct g2 as [|x g2]; [done|]. injection Hx as ->. rewrite map_app_locs. cbn. set_solver.
Qed.

(** Linking a fresh node in front (non-circular). *)
Lemma splice_front d h h1 n g2 :
  lseg h d None g2 None -> NoDup (locs g2) -> g_loc n ∉ locs g2 ->
  linked d h (g_loc n) (fresh_cell d n) (hd_loc g2 None) h1 ->
  lseg h1 d None (n :: g2) None
  /\ length h1 = length h
  /\ (forall l, l ∉ g_loc n :: locs g2 -> h1 !! l = h !! l).
Proof.
  intros Hs Hnd Hnew (Hl1 & Hh1 & Hx1 & Hfr1). split_and!.
  - apply (splice h h1 d [] n g2 None); try done.
    + by eapply cell_ok_upd_next.
    + by intros [] ? ?.
    + intros x g2' ->. destruct Hs as [(cx & Hcx & ? & ? & ? & ? & ? & ?) _]. cbn in Hx1.
      assert (g_loc x <> g_loc n) as Hxn. { intros Heq. apply Hnew. cbn. set_solver. }
      destruct d.
      * destruct Hx1 as (cx' & Hcx' & Hx1). rewrite Hcx in Hcx'. injection Hcx' as <-.
        eexists. split; [exact Hx1|]. done.
      * exists cx. split_and!; try done. rewrite Hfr1; [done|done|by left].
    + cbn. intros y Hy _ Hy2. apply Hfr1; [by intros ->|by right].
  - done.
  - intros l [Hl Hl']%not_elem_of_cons. apply Hfr1; [done|].
    right. destruct g2 as [|x g2]; [done|]. cbn. intros [= ->]. apply Hl'. cbn. set_solver.
Qed.

Lemma endp_app_cons k g1 n p g2 :
  endp k ((g1 ++ [p]) ++ n :: g2) = endp k ((g1 ++ [p]) ++ g2).
Proof. unfold endp. destruct (is_cll k); [|done]. by destruct g1. Qed.
Lemma hd_app_cons (g1 g2 : list gn) n p q :
  hd_loc ((g1 ++ [p]) ++ n :: g2) q = hd_loc ((g1 ++ [p]) ++ g2) q.
Proof. by destruct g1. Qed.
Lemma endp_dll k g : is_dll k = true -> endp k g = None.
Proof. by destruct k. Qed.

(** [new.set_next(prev.get_next()); prev.set_next(new)] *)
Lemma wp_link_after k s o g1 p n g2 (Q : unit -> st -> Prop) :
  rep k s o ((g1 ++ [p]) ++ g2) -> fresh_node k s ((g1 ++ [p]) ++ g2) n ->
  (forall h', lseg h' (is_dll k) None ((g1 ++ [p]) ++ n :: g2) (endp k ((g1 ++ [p]) ++ n :: g2)) ->
      length h' = length (s_nodes s) ->
      (forall l, l ∉ g_loc n :: locs ((g1 ++ [p]) ++ g2) -> h' !! l = s_nodes s !! l) ->
      Q tt (St h' (s_objs s))) ->
  wp (let! pn := get_next (g_loc p) in
      set_next (g_loc n) pn ;; set_next (g_loc p) (Some (g_loc n))) Q s.
Proof.
  intros Hr Hf HQ.
  pose proof (fn_cell _ _ _ _ Hf) as Hc. pose proof (fn_new _ _ _ _ Hf) as Hnew.
  pose proof (rep_seg _ _ _ _ Hr) as Hs. pose proof (rep_nodup _ _ _ _ Hr) as Hnd.
  destruct (lseg_last _ _ _ _ _ _ (proj1 (proj1 (lseg_app _ _ _ _ _ _) Hs)))
      as (cp & Hcp & Hd & Hdat & Hpri & Hdn & Hnx & Hpv).
  assert (g_loc p ∈ locs (g1 ++ [p])) as Hpin by apply elem_last.
  assert (g_loc p <> g_loc n) as Hpn.
  { intros Heq. apply Hnew. rewrite <- Heq, map_app_locs. set_solver. }
  apply wp_bind. eapply wp_get_next; [exact Hcp|]. rewrite Hnx. apply wp_bind.
  eapply (wp_set_next (is_dll k)); [exact Hc|done| |].
  { intros x Hx Hdll. rewrite endp_dll in Hx by done.
    destruct g2 as [|y g2]; [done|]. injection Hx as <-.
    apply lseg_app in Hs as [_ [(cx & Hcx & ? & ? & ? & ? & ? & ?) _]]. split; [|by exists cx; rewrite <- Hdll].
    intros Heq. apply Hnew. rewrite <- Heq, map_app_locs. cbn. set_solver. }
  intros h1 L1.
  assert (h1 !! g_loc p = Some cp) as Hcp1.
  { rewrite <- Hcp. eapply linked_other; [exact L1|done|].
    destruct (is_dll k) eqn:Hdll; [|by left]. right. rewrite endp_dll by done.
    destruct g2 as [|y g2]; [done|]. cbn. intros [= Heq].
    eapply (NoDup_locs_inj _ _ (g_loc p) (g_loc y) Hnd); [done|cbn; set_solver|done]. }
  eapply (wp_set_next (is_dll k)); [exact Hcp1|done| |].
  { intros x [= <-] Hdll. split; [done|]. destruct L1 as (_ & Hn1 & _). eexists. split; [exact Hn1|]. done. }
  intros h2 L2. cbn in L2.
  destruct (splice_after (is_dll k) (s_nodes s) h1 h2 g1 p n g2 (endp k ((g1 ++ [p]) ++ g2)) cp)
    as (Hs2 & Hl2 & Hfr2); try done.
  { by apply endp_dll. }
  apply HQ; [|done|done]. by rewrite endp_app_cons.
Qed.

(** [new.set_next(head)] *)
Lemma wp_link_front k s o n g2 (Q : unit -> st -> Prop) :
  rep k s o g2 -> is_cll k = false -> fresh_node k s g2 n ->
  (forall h', lseg h' (is_dll k) None (n :: g2) None ->
      length h' = length (s_nodes s) ->
      (forall l, l ∉ g_loc n :: locs g2 -> h' !! l = s_nodes s !! l) ->
      Q tt (St h' (s_objs s))) ->
  wp (set_next (g_loc n) (hd_loc g2 None)) Q s.
Proof.
  intros Hr Hk Hf HQ.
  pose proof (fn_cell _ _ _ _ Hf) as Hc. pose proof (fn_new _ _ _ _ Hf) as Hnew.
  pose proof (rep_seg _ _ _ _ Hr) as Hs. pose proof (rep_nodup _ _ _ _ Hr) as Hnd.
  unfold endp in Hs. rewrite Hk in Hs.
  eapply (wp_set_next (is_dll k)); [exact Hc|done| |].
  { intros x Hx Hdll. destruct g2 as [|y g2]; [done|]. injection Hx as <-.
    destruct Hs as [(cx & Hcx & ? & _) _]. split; [|by exists cx; rewrite <- Hdll].
    intros Heq. apply Hnew. cbn. rewrite Heq. set_solver. }
  intros h1 L1. destruct (splice_front (is_dll k) (s_nodes s) h1 n g2) as (? & ? & ?); auto.
Qed.

Lemma endp_noncll k g : is_cll k = false -> endp k g = None.
Proof. unfold endp. by intros ->. Qed.

Lemma ll_insert_node_spec s o g1 n g2 :
  rep CLL s o (g1 ++ g2) -> fresh_node CLL s (g1 ++ g2) n ->
  wp (ll_insert_node o (last_loc None g1) (g_loc n)) (ins_post CLL s o g1 n g2) s.
Proof.
  intros Hr Hf. destruct (obj_eq Hr) as (ob & Hob & Hk & Hlen & Hhd & _).
  unfold ll_insert_node. wget_obj Hob. rewrite Hlen.
  destruct ob as [k' hd tl len]. cbn in Hk, Hlen, Hhd. subst k' len.
  destruct (Nat.eqb _ 0) eqn:H0.
  { apply Nat.eqb_eq, nil_length_inv, app_not_nil in H0 as [-> ->].
    apply wp_bind, wp_bind. eapply (wp_link_front CLL s o n []); try done.
    intros h' Hs' Hl' Hfr'. apply wp_put_obj. cbn.
    eapply wp_incr; [cbn; by eapply set_obj_lookup|]. cbn. rewrite insert_insert_obj.
    eapply (ins_finish CLL s o _ [] n []); try done. by left. }
  apply Nat.eqb_neq in H0.
  assert (g1 ++ g2 <> []) as Hne by (by destruct (g1 ++ g2)).
  destruct g1 as [|p g1 _] using rev_ind.
  - cbn in *. apply wp_bind, wp_bind. rewrite Hhd by done.
    eapply (wp_link_front CLL s o n g2); try done.
    intros h' Hs' Hl' Hfr'. apply wp_put_obj. cbn.
    eapply wp_incr; [cbn; by eapply set_obj_lookup|]. cbn. rewrite insert_insert_obj.
    eapply (ins_finish CLL s o _ [] n g2); try done. by left.
  - rewrite last_loc_snoc. apply wp_bind. eapply (wp_link_after CLL); [done|done|].
    intros h' Hs' Hl' Hfr'. eapply wp_incr; [exact Hob|]. cbn.
    eapply (ins_finish CLL s o _ (g1 ++ [p]) n g2); try done.
    + by left.
    + rewrite hd_app_cons. by apply Hhd.
Qed.

Lemma dll_insert_node_spec s o g1 n g2 :
  rep CDLL s o (g1 ++ g2) -> fresh_node CDLL s (g1 ++ g2) n ->
  wp (dll_insert_node o (last_loc None g1) (g_loc n)) (ins_post CDLL s o g1 n g2) s.
Proof.
  intros Hr Hf. destruct (obj_eq Hr) as (ob & Hob & Hk & Hlen & Hhd & Htl).
  unfold dll_insert_node. wget_obj Hob. rewrite Hlen.
  destruct ob as [k' hd tl len]. cbn in Hk, Hlen, Hhd, Htl. subst k' len.
  pose proof (fn_cell _ _ _ _ Hf) as Hc. pose proof (fn_new _ _ _ _ Hf) as Hnew.
  pose proof (rep_seg _ _ _ _ Hr) as Hs. cbn in Hs.
  (* appending at the end: [tail.set_next(new)] *)
  destruct s as [hp os]. cbn in Hob, Hc, Hs.
  assert (forall os' g p (Q : unit -> st -> Prop), g1 = g ++ [p] -> g2 = [] ->
    (forall h', lseg h' true None (g1 ++ n :: g2) None ->
      length h' = length hp ->
      (forall l, l ∉ g_loc n :: locs (g1 ++ g2) -> h' !! l = hp !! l) ->
      Q tt (St h' os')) -> wp (set_next (g_loc p) (Some (g_loc n))) Q (St hp os')) as Happ.
  { intros os' g p Q -> -> HQ.
    pose proof (rep_nodup _ _ _ _ Hr) as Hnd.
    rewrite app_nil_r in *.
    destruct (lseg_last _ _ _ _ _ _ Hs) as (cp & Hcp & Hd & Hdat & Hpri & Hdn & Hnx & Hpv).
    assert (g_loc p <> g_loc n) as Hpn.
    { intros Heq. apply Hnew. rewrite <- Heq. apply elem_last. }
    eapply (wp_set_next true); [exact Hcp|done| |].
    { intros x [= <-] _. split; [done|]. eexists. split; [exact Hc|]. done. }
    intros h' L. pose proof L as (Hl & Hh & (cx & Hcx & Hx) & Hfr).
    cbn in Hcx; rewrite Hc in Hcx. injection Hcx as <-.
    apply HQ; [|done|].
    - eapply (splice hp h' true (g ++ [p]) n []); rewrite ?app_nil_r; try done.
      + eexists. split; [exact Hx|]. cbn. by rewrite last_loc_snoc.
      + intros g1' p' [-> [= <-]]%app_inj_2; [|done]. by eapply cell_ok_upd_next.
      + intros y Hy Hy1 _. rewrite last_loc_snoc in Hy1. apply Hfr; [congruence|].
        right. intros [= ->]. done.
    - intros l Hl'. apply Hfr; [|right; set_solver].
      intros ->. apply Hl'. pose proof (elem_last g p). set_solver. }
  destruct (Nat.eqb _ 0) eqn:H0.
  { apply Nat.eqb_eq, nil_length_inv, app_not_nil in H0 as [-> ->].
    apply wp_bind, wp_put_obj. cbn.
    eapply wp_incr; [cbn; by eapply set_obj_lookup|]. cbn. rewrite insert_insert_obj.
    eapply (ins_finish CDLL (St hp os) o _ [] n []); try done; [by left|].
    cbn. split; [|done]. eexists. split; [exact Hc|]. done. }
  apply Nat.eqb_neq in H0.
  assert (g1 ++ g2 <> []) as Hne by (by destruct (g1 ++ g2)).
  specialize (Hhd Hne). specialize (Htl eq_refl Hne).
  destruct (Nat.eqb _ 1) eqn:H1.
  { apply Nat.eqb_eq in H1. destruct g1 as [|p g1 _] using rev_ind.
    - destruct g2 as [|x [|]]; [done| |done]. cbn in Hhd, Htl. cbn [last_loc last].
      apply wp_bind, wp_bind. rewrite Htl.
      eapply (wp_link_front CDLL (St hp os) o n [x]); try done.
      intros h' Hs' Hl' Hfr'. apply wp_put_obj. cbn.
      eapply wp_incr; [cbn; by eapply set_obj_lookup|]. cbn. rewrite insert_insert_obj.
      eapply (ins_finish CDLL (St hp os) o _ [] n [x]); try done. by left.
    - rewrite !app_length in H1. cbn in H1. destruct g1; [|cbn in H1; lia].
      destruct g2; [|cbn in H1; lia]. cbn in Hhd, Htl. cbn [app last_loc last].
      apply wp_bind, wp_bind, wp_put_obj. cbn. apply wp_bind. eapply wp_deref; [exact Hhd|].
      eapply (Happ _ []); try done. intros h' Hs' Hl' Hfr'.
      eapply wp_incr; [cbn; by eapply set_obj_lookup|]. cbn. rewrite insert_insert_obj.
      eapply (ins_finish CDLL (St hp os) o _ [p] n []); try done. by left. }
  apply Nat.eqb_neq in H1.
  destruct g1 as [|p g1 _] using rev_ind.
  - cbn [last_loc last]. apply wp_bind, wp_bind. rewrite Hhd. cbn in Hhd.
    eapply (wp_link_front CDLL (St hp os) o n g2); try done.
    intros h' Hs' Hl' Hfr'. apply wp_put_obj. cbn.
    eapply wp_incr; [cbn; by eapply set_obj_lookup|]. cbn. rewrite insert_insert_obj.
    eapply (ins_finish CDLL (St hp os) o _ [] n g2); try done; [by left|].
    intros _. rewrite Htl. cbn [app]. rewrite last_loc_cons. unfold last_loc.
    destruct (last g2) eqn:Hlast; [done|]. apply last_None in Hlast. by subst.
  - rewrite last_loc_snoc. apply wp_bind, wp_bind.
    pose proof (lseg_last _ _ _ _ _ _ (proj1 (proj1 (lseg_app _ _ _ _ _ _) Hs)))
      as (cp & Hcp & Hd & Hdat & Hpri & Hdn & Hnx & Hpv).
    eapply wp_get_next; [exact Hcp|]. rewrite Hnx. destruct g2 as [|x g2].
    + cbn [hd_loc]. apply wp_bind. eapply wp_deref.
      { cbn. rewrite Htl, app_nil_r, last_loc_snoc. done. }
      apply wp_bind. eapply (Happ _ g1); try done. intros h' Hs' Hl' Hfr'. apply wp_put_obj. cbn.
      eapply wp_incr; [cbn; by eapply set_obj_lookup|]. cbn. rewrite insert_insert_obj.
      eapply (ins_finish CDLL (St hp os) o _ (g1 ++ [p]) n []); try done.
      * by left.
      * rewrite hd_app_cons. by apply Hhd.
      * intros _. by rewrite last_loc_snoc.
    + cbn [hd_loc].
      assert (forall Q, wp (let! pn := get_next (g_loc p) in
        set_next (g_loc n) pn ;; set_next (g_loc p) (Some (g_loc n))) Q (St hp os) ->
        wp (set_next (g_loc n) (Some (g_loc x)) ;; set_next (g_loc p) (Some (g_loc n))) Q (St hp os)) as Hw.
      { intros Q. unfold wp. unfold bind at 1. unfold get_next, bind at 1, get_cell at 1. cbn [s_nodes]. rewrite Hcp.
        cbn. by rewrite Hnx. }
      apply Hw. eapply (wp_link_after CDLL); [done|done|].
      intros h' Hs' Hl' Hfr'. eapply wp_incr; [exact Hob|]. cbn.
      eapply (ins_finish CDLL (St hp os) o _ (g1 ++ [p]) n (x :: g2)); try done.
      * by left.
      * rewrite hd_app_cons. by apply Hhd.
      * intros _. rewrite Htl, !last_loc_app. done.
Qed.

Lemma cll_insert_node_spec s o g1 n g2 :
  rep CCLL s o (g1 ++ g2) -> fresh_node CCLL s (g1 ++ g2) n ->
  wp (cll_insert_node o (last_loc None g1) (g_loc n)) (ins_post CCLL s o g1 n g2) s.
Proof.
  intros Hr Hf. destruct (obj_eq Hr) as (ob & Hob & Hk & Hlen & Hhd & _).
  unfold cll_insert_node. wget_obj Hob. rewrite Hlen.
  destruct ob as [k' hd tl len]. cbn in Hk, Hlen, Hhd. subst k' len.
  pose proof (fn_cell _ _ _ _ Hf) as Hc. pose proof (fn_new _ _ _ _ Hf) as Hnew.
  pose proof (rep_seg _ _ _ _ Hr) as Hs. cbn in Hs.
  destruct (Nat.eqb _ 0) eqn:H0.
  { apply Nat.eqb_eq, nil_length_inv, app_not_nil in H0 as [-> ->].
    apply wp_bind, wp_bind. eapply (wp_set_next false); [exact Hc|done|done|].
    intros h' (Hl' & Hh' & _ & Hfr'). apply wp_bind, wp_put_obj, wp_ret. cbn.
    eapply wp_incr; [cbn; by eapply set_obj_lookup|]. cbn. rewrite insert_insert_obj.
    eapply (ins_finish CCLL s o _ [] n []); try done.
    - by right; right.
    - split; [|done]. by eapply cell_ok_upd_next.
    - intros l Hl. apply Hfr'; [set_solver|by left]. }
  apply Nat.eqb_neq in H0.
  assert (g1 ++ g2 <> []) as Hne by (by destruct (g1 ++ g2)).
  destruct g1 as [|p g1 _] using rev_ind.
  - destruct g2 as [|x g2]; [done|]. cbn [app last_loc last] in *.
    apply wp_bind, wp_bind. eapply wp_deref; [by apply Hhd|]. cbn in Hs.
    destruct Hs as [(cx & Hcx & Hd & Hdat & Hpri & Hdn & Hnx & _) Hs].
    assert (g_loc x <> g_loc n) as Hxn. { intros Heq. apply Hnew. cbn. rewrite Heq. set_solver. }
    apply wp_bind. eapply wp_get_next; [exact Hcx|]. rewrite Hnx.
    apply wp_bind. eapply (wp_set_next false); [exact Hc|done|done|].
    intros h1 (Hl1 & Hh1 & _ & Hfr1). cbn.
    apply wp_bind. eapply (wp_set_next false).
    { cbn. rewrite Hfr1; [exact Hcx|done|by left]. }
    1,2: done.
    intros h2 (Hl2 & Hh2 & _ & Hfr2). cbn in *.
    assert (h2 !! g_loc n = h1 !! g_loc n) as Hn2 by (apply Hfr2; [done|by left]).
    rewrite Hh1 in Hn2.
    apply wp_bind. eapply wp_get_data; [exact Hn2|].
    apply wp_bind. eapply wp_get_data; [exact Hh2|].
    apply wp_bind. eapply wp_set_data_raw; [exact Hn2|]. cbn.
    apply wp_bind. eapply wp_set_data_raw.
    { cbn. rewrite list_lookup_insert_ne by done. exact Hh2. }
    cbn. apply wp_ret. eapply wp_incr; [exact Hob|]. cbn.
    pose proof (lookup_lt_Some _ _ _ Hh2) as Hltx. pose proof (lookup_lt_Some _ _ _ Hn2) as Hltn.
    set (h3 := <[_ := _]> _).
    assert (h3 !! g_loc x = Some (upd_data (upd_next cx (Some (g_loc n))) (g_val n))) as H3x.
    { apply list_lookup_insert. by rewrite insert_length. }
    assert (h3 !! g_loc n = Some (upd_data (upd_next (fresh_cell false n) (hd_loc g2 (Some (g_loc x)))) (g_val x))) as H3n.
    { unfold h3. rewrite list_lookup_insert_ne by done. rewrite Hdat. by apply list_lookup_insert. }
    assert (forall y, y <> g_loc x -> y <> g_loc n -> h3 !! y = s_nodes s !! y) as H3.
    { intros y Hy1 Hy2. unfold h3. rewrite !list_lookup_insert_ne by done.
      rewrite Hfr2, Hfr1; [done|done|by left|done|by left]. }
    clearbody h3. pose proof (rep_nodup _ _ _ _ Hr) as Hnd. cbn in Hnd.
    apply NoDup_cons in Hnd as [Hx2 Hnd]. cbn in Hnew. apply not_elem_of_cons in Hnew as [_ Hnew].
    assert (length h3 = length (s_nodes s)) as Hl3.
    { apply Nat.le_antisymm; apply lookup_ge_None.
      - destruct (decide (length (s_nodes s) = g_loc x)) as [He|?].
        { apply lookup_lt_Some in Hcx. lia. }
        destruct (decide (length (s_nodes s) = g_loc n)) as [He|?].
        { apply lookup_lt_Some in Hc. lia. }
        rewrite H3 by done. apply lookup_ge_None. lia.
      - rewrite <- H3.
        + apply lookup_ge_None. lia.
        + intros He. apply lookup_lt_Some in H3x. lia.
        + intros He. apply lookup_lt_Some in H3n. lia. }
    unfold ins_post. cbn. split_and!; [done| | |done|by rewrite insert_length].
    + split; cbn.
      * exists hd, tl. split_and!; [|by intros _; apply Hhd|done]. erewrite set_obj_lookup by done. done.
      * split; [|split].
        -- eexists. split; [exact H3x|]. done.
        -- eexists. split; [exact H3n|]. done.
        -- eapply lseg_frame; [|eapply lseg_pv; exact Hs].
           intros l Hl. apply H3; [by intros ->|by intros ->].
      * apply NoDup_cons; split; [set_solver|]. by apply NoDup_cons.
      * pose proof (rep_stored _ _ _ _ Hr) as Hst. apply Forall_cons in Hst as [? ?].
        apply Forall_cons; split; [exact (fn_stored _ _ _ _ Hf)|]. by apply Forall_cons.
    + apply put_obj_modifies; [done|]. intros l Hl. apply H3; set_solver.
  - rewrite last_loc_snoc. apply wp_bind.
    assert (wp (let! pn := get_next (g_loc p) in
        set_next (g_loc n) pn ;; set_next (g_loc p) (Some (g_loc n)))
        (fun _ s' => wp (let! o' := get_obj o in put_obj o (set_len o' (S (o_len o'))) ;; ret (g_loc n))
             (ins_post CCLL s o (g1 ++ [p]) n g2) s') s) as Hw.
    { eapply (wp_link_after CCLL); [done|done|].
      intros h' Hs' Hl' Hfr'. eapply wp_incr; [exact Hob|]. cbn.
      eapply (ins_finish CCLL s o _ (g1 ++ [p]) n g2); try done.
      + right; left. by destruct g1.
      + rewrite hd_app_cons. by apply Hhd. }
    apply wp_bind_inv in Hw. apply wp_bind. eapply wp_mono; [exact Hw|]. intros pn s1 H1.
    apply wp_bind_inv in H1. apply wp_bind. eapply wp_mono; [exact H1|]. intros [] s2 H2.
    apply wp_bind. eapply wp_mono; [exact H2|]. done.
Qed.

Lemma insert_node_spec k s o g1 n g2 :
  rep k s o (g1 ++ g2) -> fresh_node k s (g1 ++ g2) n ->
  wp (insert_node o (last_loc None g1) (g_loc n)) (ins_post k s o g1 n g2) s.
Proof.
  intros Hr Hf. destruct (obj_eq Hr) as (ob & Hob & Hk & _).
  unfold insert_node. wget_obj Hob. rewrite Hk. destruct k.
  - by apply ll_insert_node_spec.
  - by apply dll_insert_node_spec.
  - by apply cll_insert_node_spec.
Qed.
