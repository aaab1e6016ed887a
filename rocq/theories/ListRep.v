(** * Representation predicate for list objects and specs of the node-level methods. *)
From Verif Require Import Base ListModel.
Local Open Scope py_scope.

(** Ghost description of one node of a chain. *)
Record gn := GN { g_loc : nat; g_val : pyval; g_pri : num; g_dn : option nat }.
Notation locs g := (map g_loc g).
Notation vals g := (map g_val g).

Definition hd_loc (g : list gn) (q : option nat) : option nat :=
  match g with [] => q | n :: _ => Some (g_loc n) end.
Definition last_loc (pv : option nat) (g : list gn) : option nat :=
  match last g with None => pv | Some n => Some (g_loc n) end.

Definition cell_ok (h : list cell) (d : bool) (pv : option nat) (n : gn) (nx : option nat) : Prop :=
  exists c, h !! g_loc n = Some c /\ c_dbl c = d /\ c_data c = g_val n /\ c_prio c = g_pri n
       /\ c_down c = g_dn n /\ c_next c = nx /\ (d = true -> c_prev c = pv).

Fixpoint lseg (h : list cell) (d : bool) (pv : option nat) (g : list gn) (q : option nat) : Prop :=
  match g with
  | [] => True
  | n :: g' => cell_ok h d pv n (hd_loc g' q) /\ lseg h d (Some (g_loc n)) g' q
  end.

Definition endp (k : lcls) (g : list gn) : option nat :=
  if is_cll k then hd_loc g None else None.

Record rep (k : lcls) (s : st) (o : nat) (g : list gn) : Prop := Rep {
  rep_obj : exists hd tl, s_objs s !! o = Some (LObj k hd tl (length g))
              /\ (g <> [] -> hd = hd_loc g None)
              /\ (k = CDLL -> g <> [] -> tl = last_loc None g);
  rep_seg : lseg (s_nodes s) (is_dll k) None g (endp k g);
  rep_nodup : NoDup (locs g);
  rep_stored : Forall (fun n => stored (g_val n)) g }.

(** Footprint: [s'] differs from [s] at most on the cells [L], the objects [O]
    and newly allocated ones. *)
Record modifies (L : list nat) (O : list nat) (s s' : st) : Prop := Mod {
  mod_nlen : length (s_nodes s) <= length (s_nodes s');
  mod_olen : length (s_objs s) <= length (s_objs s');
  mod_nodes : forall l, l < length (s_nodes s) -> l ∉ L -> s_nodes s' !! l = s_nodes s !! l;
  mod_objs : forall o, o < length (s_objs s) -> o ∉ O -> s_objs s' !! o = s_objs s !! o }.

(** [L'] only contains old members of [L] and cells that did not exist in [s]. *)
Definition grows (L L' : list nat) (s : st) : Prop :=
  forall l, l ∈ L' -> l ∈ L \/ length (s_nodes s) <= l.

(** ** Basic lemmas *)
Lemma last_loc_snoc pv g n : last_loc pv (g ++ [n]) = Some (g_loc n).
Proof. unfold last_loc. by rewrite last_snoc. Qed.
Lemma last_loc_cons pv n g : last_loc pv (n :: g) = last_loc (Some (g_loc n)) g.
Proof. unfold last_loc. rewrite last_cons. by destruct (last g). Qed.
Lemma last_loc_app pv g g' : last_loc pv (g ++ g') = last_loc (last_loc pv g) g'.
Proof.
  revert pv. induction g as [|n g IH]; intros pv; [done|].
  cbn [app]. by rewrite !last_loc_cons, IH.
Qed.
Lemma hd_loc_app g g' q : hd_loc (g ++ g') q = hd_loc g (hd_loc g' q).
Proof. by destruct g. Qed.

Lemma lseg_app h d pv g1 g2 q :
  lseg h d pv (g1 ++ g2) q <-> lseg h d pv g1 (hd_loc g2 q) /\ lseg h d (last_loc pv g1) g2 q.
Proof.
  revert pv. induction g1 as [|n g1 IH]; intros pv; cbn [lseg app].
  - cbn. tauto.
  - rewrite IH, hd_loc_app, last_loc_cons. tauto.
Qed.

Lemma cell_ok_frame h h' d pv n nx :
  h' !! g_loc n = h !! g_loc n -> cell_ok h d pv n nx -> cell_ok h' d pv n nx.
Proof. unfold cell_ok. by intros ->. Qed.
Lemma lseg_frame h h' d pv g q :
  (forall l, l ∈ locs g -> h' !! l = h !! l) -> lseg h d pv g q -> lseg h' d pv g q.
Proof.
  revert pv. induction g as [|n g IH]; intros pv Hf; [done|].
  cbn. intros [Hc Hs]. split.
  - eapply cell_ok_frame; [|done]. apply Hf. set_solver.
  - apply IH; [|done]. intros l Hl. apply Hf. set_solver.
Qed.
Lemma lseg_bound h d pv g q l : lseg h d pv g q -> l ∈ locs g -> l < length h.
Proof.
  revert pv. induction g as [|n g IH]; intros pv; cbn; [set_solver|].
  intros [(c & Hc & _) Hs] [->|Hl]%elem_of_cons.
  - by eapply lookup_lt_Some.
  - by eapply IH.
Qed.
Lemma rep_bound k s o g l : rep k s o g -> l ∈ locs g -> l < length (s_nodes s).
Proof. intros H. by eapply lseg_bound, rep_seg. Qed.
Lemma rep_obound k s o g : rep k s o g -> o < length (s_objs s).
Proof. intros H. destruct (rep_obj _ _ _ _ H) as (? & ? & ? & _). by eapply lookup_lt_Some. Qed.

Lemma modifies_refl L O s : modifies L O s s.
Proof. split; auto. Qed.
Lemma modifies_trans L1 L2 O1 O2 L O s1 s2 s3 :
  modifies L1 O1 s1 s2 -> modifies L2 O2 s2 s3 ->
  L1 ⊆ L -> O1 ⊆ O ->
  (forall l, l ∈ L2 -> l ∈ L \/ length (s_nodes s1) <= l) ->
  (forall l, l ∈ O2 -> l ∈ O \/ length (s_objs s1) <= l) ->
  modifies L O s1 s3.
Proof.
  intros [a1 b1 c1 d1] [a2 b2 c2 d2] HL HO HL2 HO2. split; [lia|lia| |].
  - intros l Hl Hn. rewrite c2, c1; [done|done| |lia|].
    + intros ?. apply Hn. by apply HL.
    + intros Hx. destruct (HL2 _ Hx) as [|]; [by apply Hn|lia].
  - intros l Hl Hn. rewrite d2, d1; [done|done| |lia|].
    + intros ?. apply Hn. by apply HO.
    + intros Hx. destruct (HO2 _ Hx) as [|]; [by apply Hn|lia].
Qed.
Lemma modifies_weaken L O L' O' s s' :
  modifies L O s s' -> L ⊆ L' -> O ⊆ O' -> modifies L' O' s s'.
Proof. intros [a b c d] HL HO. split; auto. Qed.
Lemma rep_frame k s s' o g L O :
  rep k s o g -> modifies L O s s' -> o ∉ O -> (forall l, l ∈ locs g -> l ∉ L) -> rep k s' o g.
Proof.
  intros Hr Hm Ho Hl. destruct Hr as [(hd & tl & Hob & Hhd & Htl) Hs Hn Hst].
  split; [|  |done|done].
  - exists hd, tl. split_and!; [|done..]. rewrite <- Hob. eapply mod_objs; [done| |done].
    by eapply lookup_lt_Some.
  - eapply lseg_frame; [|done]. intros l Hx. eapply mod_nodes; [done| |by apply Hl].
    by eapply lseg_bound.
Qed.

(** ** wp rules for the primitives *)
Lemma wp_get_cell l c (Q : cell -> st -> Prop) s : s_nodes s !! l = Some c -> Q c s -> wp (get_cell l) Q s.
Proof. unfold wp, get_cell. by intros ->. Qed.
Lemma wp_put_cell l c (Q : unit -> st -> Prop) s :
  Q tt (St (<[l := c]> (s_nodes s)) (s_objs s)) -> wp (put_cell l c) Q s.
Proof. done. Qed.
Lemma wp_get_obj l c (Q : lobj -> st -> Prop) s : s_objs s !! l = Some c -> Q c s -> wp (get_obj l) Q s.
Proof. unfold wp, get_obj. by intros ->. Qed.
Lemma wp_put_obj l c (Q : unit -> st -> Prop) s :
  Q tt (St (s_nodes s) (<[l := c]> (s_objs s))) -> wp (put_obj l c) Q s.
Proof. done. Qed.
Lemma wp_alloc_cell c (Q : nat -> st -> Prop) s :
  Q (length (s_nodes s)) (St (s_nodes s ++ [c]) (s_objs s)) -> wp (alloc_cell c) Q s.
Proof. done. Qed.
Lemma wp_alloc_obj c (Q : nat -> st -> Prop) s :
  Q (length (s_objs s)) (St (s_nodes s) (s_objs s ++ [c])) -> wp (alloc_obj c) Q s.
Proof. done. Qed.

Ltac wbind := apply wp_bind.
Lemma wp_get_next l c (Q : option nat -> st -> Prop) s : s_nodes s !! l = Some c -> Q (c_next c) s -> wp (get_next l) Q s.
Proof. intros H HQ. wbind. eapply wp_get_cell; [done|]. done. Qed.
Lemma wp_get_prev l c (Q : option nat -> st -> Prop) s : s_nodes s !! l = Some c -> Q (c_prev c) s -> wp (get_prev l) Q s.
Proof. intros H HQ. wbind. eapply wp_get_cell; [done|]. done. Qed.
Lemma wp_get_data l c (Q : pyval -> st -> Prop) s : s_nodes s !! l = Some c -> Q (c_data c) s -> wp (get_data l) Q s.
Proof. intros H HQ. wbind. eapply wp_get_cell; [done|]. done. Qed.
Lemma wp_set_data_raw l c v (Q : unit -> st -> Prop) s : s_nodes s !! l = Some c ->
  Q tt (St (<[l := upd_data c v]> (s_nodes s)) (s_objs s)) -> wp (set_data_raw l v) Q s.
Proof. intros H HQ. wbind. eapply wp_get_cell; [done|]. done. Qed.
Lemma wp_set_data l c v (Q : unit -> st -> Prop) s : s_nodes s !! l = Some c -> stored v ->
  Q tt (St (<[l := upd_data c v]> (s_nodes s)) (s_objs s)) -> wp (set_data l v) Q s.
Proof.
  intros H [Hv Hn] HQ. unfold set_data. rewrite Hv. wbind. eapply wp_get_cell; [done|].
  apply wp_put_cell. by rewrite Hn.
Qed.
Lemma wp_set_next_single l c n (Q : unit -> st -> Prop) s :
  s_nodes s !! l = Some c -> (c_dbl c = false \/ n = None) ->
  Q tt (St (<[l := upd_next c n]> (s_nodes s)) (s_objs s)) -> wp (set_next l n) Q s.
Proof.
  intros H Hd HQ. wbind. eapply wp_get_cell; [done|].
  destruct n as [x|]; [|done]. destruct Hd as [->|?]; done.
Qed.
Lemma wp_set_next_dbl l c x cx (Q : unit -> st -> Prop) s :
  s_nodes s !! l = Some c -> c_dbl c = true -> s_nodes s !! x = Some cx -> c_dbl cx = true -> x <> l ->
  Q tt (St (<[x := upd_prev cx (Some l)]> (<[l := upd_next c (Some x)]> (s_nodes s))) (s_objs s)) ->
  wp (set_next l (Some x)) Q s.
Proof.
  intros H Hd Hx Hdx Hne HQ. wbind. eapply wp_get_cell; [done|]. cbn. rewrite Hd.
  wbind. eapply wp_get_cell; [done|]. rewrite Hdx.
  wbind. apply wp_put_cell. wbind. eapply wp_get_cell.
  { cbn. rewrite list_lookup_insert_ne by done. exact Hx. }
  by apply wp_put_cell.
Qed.

(** Final heap after [set_next], as lookups. *)
Definition linked (d : bool) (h : list cell) (l : nat) (c : cell) (n : option nat) (h' : list cell) : Prop :=
  length h' = length h /\ h' !! l = Some (upd_next c n) /\
  (match n with
   | Some x => if d then exists cx, h !! x = Some cx /\ h' !! x = Some (upd_prev cx (Some l)) else True
   | None => True end) /\
  (forall y, y <> l -> (d = false \/ Some y <> n) -> h' !! y = h !! y).

Lemma wp_set_next d l c n (Q : unit -> st -> Prop) s :
  s_nodes s !! l = Some c -> c_dbl c = d ->
  (forall x, n = Some x -> d = true -> x <> l /\ exists cx, s_nodes s !! x = Some cx /\ c_dbl cx = true) ->
  (forall h', linked d (s_nodes s) l c n h' -> Q tt (St h' (s_objs s))) ->
  wp (set_next l n) Q s.
Proof.
  intros H Hd Hx HQ. pose proof (lookup_lt_Some _ _ _ H) as Hlt. destruct d.
  - destruct n as [x|].
    + destruct (Hx x eq_refl eq_refl) as (Hne & cx & Hcx & Hdx).
      eapply wp_set_next_dbl; [done..|]. apply HQ.
      pose proof (lookup_lt_Some _ _ _ Hcx) as Hltx.
      split_and!.
      * by rewrite !insert_length.
      * rewrite list_lookup_insert_ne by done. by apply list_lookup_insert.
      * exists cx. split; [done|]. apply list_lookup_insert. by rewrite insert_length.
      * intros y Hy [?|Hy']; [done|]. rewrite !list_lookup_insert_ne; [done|congruence|congruence].
    + eapply wp_set_next_single; [done|by right|]. apply HQ. split_and!; [..|done|].
      * by rewrite insert_length.
      * by apply list_lookup_insert.
      * intros y Hy _. by rewrite list_lookup_insert_ne.
  - eapply wp_set_next_single; [done|by left|]. apply HQ. split_and!.
    + by rewrite insert_length.
    + by apply list_lookup_insert.
    + by destruct n.
    + intros y Hy _. by rewrite list_lookup_insert_ne.
Qed.
