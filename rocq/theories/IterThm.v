(** * Proofs about suspended iterators: which calls leave the front of a chain alone. *)
From Verif Require Import Base ListModel ListRep ListCore ListCore2 ListSpec ListPure ListOps ListOps2 ListRun ListOps3 ListSim ListThm.
From Verif Require Import IterModel IterSpec.
Local Open Scope py_scope.

(** The chain of an object is determined by the heap. *)
Lemma lseg_fun h d q : forall g g' pv pv' q',
  length g = length g' -> hd_loc g q = hd_loc g' q' -> lseg h d pv g q -> lseg h d pv' g' q' -> g = g'.
Proof.
  induction g as [|n g IH]; intros [|n' g'] pv pv' q' Hl Hh Hs Hs'; try done.
  destruct Hs as [(c & Hc & Hd & Hdat & Hpri & Hdn & Hnx & _) Hs].
  destruct Hs' as [(c' & Hc' & Hd' & Hdat' & Hpri' & Hdn' & Hnx' & _) Hs'].
  cbn in Hh. injection Hh as Hh. rewrite <- Hh, Hc in Hc'. injection Hc' as <-.
  assert (n = n') as ->. { destruct n, n'; cbn in *; congruence. }
  f_equal. injection Hl as Hl. destruct g as [|m g], g' as [|m' g']; try done.
  eapply (IH (m' :: g')); [done| |exact Hs|exact Hs']. cbn in *. congruence.
Qed.
Lemma rep_fun k s o g g' : rep k s o g -> rep k s o g' -> g = g'.
Proof.
  intros H H'. destruct (rep_obj _ _ _ _ H) as (hd & tl & Ho & Hh & _).
  destruct (rep_obj _ _ _ _ H') as (hd' & tl' & Ho' & Hh' & _).
  rewrite Ho in Ho'. injection Ho' as <- <- Hl.
  destruct g as [|n g], g' as [|n' g']; try done.
  eapply lseg_fun; [exact Hl| |by eapply rep_seg|by eapply rep_seg].
  specialize (Hh ltac:(done)). specialize (Hh' ltac:(done)). cbn in *. congruence.
Qed.

(** ** The front of the chain under each updating call *)
Definition same_front (p : nat) (g g' : list gn) : Prop := take p (locs g') = take p (locs g).
(** After [m] the chain of [o] still starts with the first [p] nodes of [g]. *)
Definition keeps (k : lcls) (o : nat) (g : list gn) (p : nat) (m : M st unit) (s : st) : Prop :=
  wp m (fun _ s' => exists g', rep k s' o g' /\ same_front p g g') s.

Lemma front_app p (g1 g2 g3 : list gn) : p <= length g1 -> same_front p (g1 ++ g2) (g1 ++ g3).
Proof.
  intros Hp. unfold same_front. rewrite !map_app, !take_app_le by (by rewrite map_length). done.
Qed.
Lemma front_ins k p g1 n g2 : p <= length g1 -> same_front p (g1 ++ g2) (ins_ghost k g1 n g2).
Proof.
  intros Hp. destruct g1 as [|a g1].
  - cbn in Hp. assert (p = 0) as -> by lia. done.
  - assert (ins_ghost k (a :: g1) n g2 = (a :: g1) ++ n :: g2) as ->.
    { unfold ins_ghost. by destruct (is_cll k), g2. }
    by apply front_app.
Qed.
Lemma front_rem k p g1 n g2 : p <= length g1 -> same_front p (g1 ++ n :: g2) (rem_ghost k g1 n g2).
Proof.
  intros Hp. destruct g1 as [|a g1].
  - cbn in Hp. assert (p = 0) as -> by lia. done.
  - assert (rem_ghost k (a :: g1) n g2 = (a :: g1) ++ g2) as ->.
    { unfold rem_ghost. by destruct g2. }
    by apply front_app.
Qed.

Lemma insert_at_front k s o g i v p : rep k s o g -> storable v -> i <= length g -> p <= i ->
  wp (ListModel.insert_at o i v) (fun _ s' => exists g', rep k s' o g' /\ same_front p g g') s.
Proof.
  intros Hr Hv Hi Hp. unfold ListModel.insert_at.
  destruct (get_node_spec _ _ _ _ _ Hr Hi) as (c & Hget & _).
  apply wp_bind. eapply wp_intro; [exact Hget|]. cbn [fst].
  pose proof Hr as Hr'. rewrite <- (take_drop i g) in Hr'.
  eapply wp_mono; [eapply insert_value_spec; [exact Hr'|done|by right]|].
  intros r s' (_ & Hrep & _). eexists. split; [exact Hrep|].
  rewrite <- (take_drop i g) at 1. apply front_ins. rewrite take_length. lia.
Qed.
Lemma add_end_front k s o g v p : rep k s o g -> storable v -> p <= length g ->
  keeps k o g p (add_end o v) s.
Proof.
  intros Hr Hv Hp. unfold keeps, add_end. apply wp_bind. eapply wp_intro; [by apply check_item_ok|].
  apply wp_bind. eapply wp_intro; [by eapply ll_len_ok|].
  apply wp_bind. eapply wp_mono; [by apply (insert_at_front k s o g (length g) v p)|].
  intros ? s' Hu. by apply wp_ret.
Qed.
Lemma insert_front k s o g i v p : rep (kc k) s o g -> bad_index k (length g) i = None -> storable v ->
  p <= front_kept k (LInsert 0 i v) (vals g) ->
  keeps (kc k) o g p (ListModel.insert o (ix i) v) s.
Proof.
  intros Hr Hb Hv Hp. destruct (obj_eq Hr) as (ob & Hob & Hk & Hlen & _).
  pose proof (check_index_ok k s o g i Hr) as Hc. rewrite Hb in Hc.
  destruct (bad_index_none _ _ _ Hb) as (z & -> & Hz0 & Hz1).
  unfold keeps, ListModel.insert. cbn [front_kept the_int mix] in *. rewrite map_length in Hp.
  wget_obj Hob. apply wp_bind. eapply wp_intro; [exact Hc|].
  apply wp_bind. eapply wp_intro; [by apply check_item_ok|]. rewrite Hk, Hlen.
  apply wp_bind. eapply wp_mono; [eapply insert_at_front; [exact Hr|done| |]|].
  - destruct k; cbn [mcls is_cll]; [specialize (Hz1 ltac:(done)); lia..|].
    pose proof (Z.mod_pos_bound z (Z.of_nat (length g) + 1)). lia.
  - destruct k; exact Hp.
  - intros ? s' Hu. by apply wp_ret.
Qed.

(** Assignment changes the value of one node and no link. *)
Lemma relabel k s s' o (g g' : list gn) : rep k s' o g' ->
  rep k s o g -> s_objs s' = s_objs s ->
  (forall l, c_next <$> s_nodes s' !! l = c_next <$> s_nodes s !! l) ->
  locs g' = locs g.
Proof.
  intros H' H Hob Hn.
  destruct (rep_obj _ _ _ _ H) as (hd & tl & Ho & Hh & _).
  destruct (rep_obj _ _ _ _ H') as (hd' & tl' & Ho' & Hh' & _).
  rewrite Hob, Ho in Ho'. injection Ho' as <- <- Hl.
  assert (forall d q q' g g' pv pv', length g = length g' -> hd_loc g q = hd_loc g' q' ->
    lseg (s_nodes s) d pv g q -> lseg (s_nodes s') d pv' g' q' -> locs g' = locs g) as Hgo.
  { clear - Hn. intros d q q'. induction g as [|n g IH]; intros [|n' g'] pv pv' Hl Hh Hs Hs'; try done.
    destruct Hs as [(c & Hc & _ & _ & _ & _ & Hnx & _) Hs].
    destruct Hs' as [(c' & Hc' & _ & _ & _ & _ & Hnx' & _) Hs'].
    cbn in Hh. injection Hh as Hh. specialize (Hn (g_loc n)). rewrite Hc in Hn. rewrite Hh, Hc' in Hn.
    cbn in Hn. injection Hn as Hn. cbn. f_equal; [done|].
    destruct g as [|m g], g' as [|m' g']; try done.
    eapply IH; [cbn in Hl |- *; lia| |exact Hs|exact Hs']. cbn in *. congruence. }
  destruct g as [|n g], g' as [|n' g']; try done.
  eapply Hgo; [exact Hl| |by eapply rep_seg|by eapply rep_seg].
  specialize (Hh ltac:(done)). specialize (Hh' ltac:(done)). cbn in *. congruence.
Qed.
Lemma set_data_links l v s s' : set_data l v s = Ok tt s' ->
  s_objs s' = s_objs s /\ forall j, c_next <$> s_nodes s' !! j = c_next <$> s_nodes s !! j.
Proof.
  unfold set_data. destruct (validate_item v); [done|]. unfold bind, get_cell, put_cell.
  destruct (s_nodes s !! l) as [c|] eqn:Hc; [|done]. intros [= <-]. split; [done|]. intros j. cbn.
  destruct (decide (j = l)) as [->|Hj]; [|by rewrite list_lookup_insert_ne].
  rewrite list_lookup_insert by (by eapply lookup_lt_Some). by rewrite Hc.
Qed.

(** Reading code leaves the heap alone. *)
Definition reads {A} (m : M st A) : Prop := forall s a s', m s = Ok a s' -> s' = s.
Lemma reads_bind {A B} (m : M st A) (f : A -> M st B) : reads m -> (forall a, reads (f a)) -> reads (bind m f).
Proof.
  intros Hm Hf s b s' H. unfold bind in H. destruct (m s) as [a s1| |] eqn:E; try done.
  apply Hm in E as ->. by eapply Hf.
Qed.
Lemma reads_ret {A} (a : A) : reads (ret a).
Proof. by intros s b s' [= <- <-]. Qed.
Lemma reads_raise {A} e : reads (raise (A := A) e).
Proof. done. Qed.
Lemma reads_get_obj o : reads (get_obj o).
Proof. intros s a s'. unfold get_obj. destruct (s_objs s !! o); [|done]. by intros [= _ <-]. Qed.
Lemma reads_get_cell l : reads (get_cell l).
Proof. intros s a s'. unfold get_cell. destruct (s_nodes s !! l); [|done]. by intros [= _ <-]. Qed.
Lemma reads_deref {A} (x : option A) : reads (deref x).
Proof. destruct x; [apply reads_ret|apply reads_raise]. Qed.
Lemma reads_get_node o i : reads (get_node o i).
Proof.
  assert (forall i p c, reads (get_node_loop i p c)) as Hl.
  { clear. induction i as [|i IH]; intros p c; cbn [get_node_loop]; [apply reads_ret|].
    apply reads_bind; [apply reads_deref|]. intros l. apply reads_bind; [|intros; apply IH].
    apply reads_bind; [apply reads_get_cell|]. intros. apply reads_ret. }
  assert (forall i c, reads (back_loop i c)) as Hb.
  { clear. induction i as [|i IH]; intros c; cbn [back_loop]; [apply reads_ret|].
    apply reads_bind; [apply reads_deref|]. intros l. apply reads_bind; [|intros; apply IH].
    apply reads_bind; [apply reads_get_cell|]. intros x. apply reads_ret. }
  unfold get_node. apply reads_bind; [apply reads_get_obj|]. intros ob.
  assert (reads (ll_get_node o i)) as H1 by (apply reads_bind; [apply reads_get_obj|intros; apply Hl]).
  destruct (o_cls ob); [done| |done].
  unfold dll_get_node. apply reads_bind; [apply reads_get_obj|]. intros ob'.
  destruct (Nat.leb _ _); [done|]. apply reads_bind; [apply Hb|]. intros pv.
  apply reads_bind; [apply reads_deref|]. intros q. apply reads_bind; [|intros; apply reads_ret].
  apply reads_bind; [apply reads_get_cell|]. intros. apply reads_ret.
Qed.
Lemma bind_inv {A B} (m : M st A) (f : A -> M st B) s b s' : bind m f s = Ok b s' ->
  exists a s1, m s = Ok a s1 /\ f a s1 = Ok b s'.
Proof. unfold bind. destruct (m s) as [a s1| |] eqn:E; [|done..]. intros H. by exists a, s1. Qed.

Lemma replace_links o i v s s' : replace_value o i v s = Ok tt s' ->
  s_objs s' = s_objs s /\ forall j, c_next <$> s_nodes s' !! j = c_next <$> s_nodes s !! j.
Proof.
  unfold replace_value. intros (a & s1 & Ha & H)%bind_inv.
  assert (s1 = s) as -> by (unfold py_assert in Ha; destruct v; try done; by injection Ha).
  apply bind_inv in H as (pc & s1 & Hp & H). apply reads_get_node in Hp as ->.
  apply bind_inv in H as (n & s1 & Hn & H). apply reads_deref in Hn as ->.
  by eapply set_data_links.
Qed.
Lemma setitem_links o i v s s' : setitem o i v s = Ok tt s' ->
  s_objs s' = s_objs s /\ forall j, c_next <$> s_nodes s' !! j = c_next <$> s_nodes s !! j.
Proof.
  unfold setitem. intros (ob & s1 & Ho & H)%bind_inv. apply reads_get_obj in Ho as ->.
  apply bind_inv in H as (a & s1 & Hc & H).
  assert (s1 = s) as ->.
  { unfold check_index in Hc. apply bind_inv in Hc as (ob' & s2 & Ho & Hc). apply reads_get_obj in Ho as ->.
    destruct (validate_index _ _ _ _ _); [done|]. by injection Hc. }
  destruct i as [z| |]; [|done|done]. destruct (is_cll (o_cls ob)).
  { by eapply replace_links. }
  destruct (Z.eqb _ _); [done|]. apply bind_inv in H as (a' & s1 & Hi & H).
  assert (s1 = s) as ->. { unfold check_item in Hi. destruct (validate_item v); [done|]. by injection Hi. }
  by eapply replace_links.
Qed.

Lemma remove_idx_front k s o g i p : rep k s o g -> i < length g -> p <= i ->
  keeps k o g p (remove_idx o i) s.
Proof.
  intros Hr Hi Hp. unfold keeps, remove_idx.
  destruct (get_node_spec _ _ _ _ i Hr ltac:(lia)) as (c & Hget & Hc).
  apply wp_bind. eapply wp_intro; [exact Hget|]. cbn [snd fst].
  destruct (split_at_lookup g i Hi) as (n & Hn & Hg).
  assert (g <> []) as Hne by (intros ->; cbn in Hi; lia).
  rewrite (drop_S _ _ _ Hn) in Hc. cbn in Hc. rewrite Hc by done.
  apply wp_bind, wp_ret. pose proof Hr as Hr'. rewrite Hg in Hr'.
  eapply wp_mono; [by apply remove_node_spec|].
  intros [] s' (Hr1 & _). eexists. split; [exact Hr1|]. rewrite Hg at 1.
  apply front_rem. rewrite take_length. lia.
Qed.
Lemma keeps_same k s o g p (m : M st unit) : m s = Ok tt s -> rep k s o g -> keeps k o g p m s.
Proof. intros Hm Hr. eapply wp_intro; [exact Hm|]. by exists g. Qed.

Lemma delitem_front k s o g i p : rep (kc k) s o g -> bad_index k (length g) i = None ->
  (k <> Circular -> the_int i <> Z.of_nat (length g)) ->
  p <= front_kept k (LDel 0 i) (vals g) -> keeps (kc k) o g p (delitem o (ix i)) s.
Proof.
  intros Hr Hb Hne Hp. destruct (obj_eq Hr) as (ob & Hob & Hk & Hlen & _).
  pose proof (check_index_ok k s o g i Hr) as Hc. rewrite Hb in Hc.
  destruct (bad_index_none _ _ _ Hb) as (z & -> & Hz0 & Hz1).
  unfold delitem. cbn [front_kept the_int mix] in *. rewrite map_length in Hp.
  unfold keeps. wget_obj Hob. apply wp_bind. eapply wp_intro; [exact Hc|]. rewrite Hk, Hlen.
  destruct k; cbn [mcls is_cll].
  - rewrite (proj2 (Z.eqb_neq _ _)) by (by apply Hne). specialize (Hne ltac:(done)). specialize (Hz1 ltac:(done)).
    apply remove_idx_front; [done|lia|done].
  - rewrite (proj2 (Z.eqb_neq _ _)) by (by apply Hne). specialize (Hne ltac:(done)). specialize (Hz1 ltac:(done)).
    apply remove_idx_front; [done|lia|done].
  - destruct (Nat.eqb_spec (length g) 0) as [H0|H0].
    + apply wp_ret. by exists g.
    + apply remove_idx_front; [done| |done]. pose proof (Z.mod_pos_bound z (Z.of_nat (length g))). lia.
Qed.
Lemma remove_end_front k s o g p : rep (kc k) s o g -> p <= length g - 1 ->
  keeps (kc k) o g p (remove_end o) s.
Proof.
  intros Hr Hp. unfold keeps, remove_end. apply wp_bind. eapply wp_intro; [by eapply ll_is_empty_ok|].
  destruct (Nat.eqb_spec (length g) 0) as [H0|H0].
  { apply wp_ret. by exists g. }
  apply wp_bind. eapply wp_intro; [by eapply ll_len_ok|].
  apply (delitem_front k s o g (AInt (Z.of_nat (length g) - 1)) p Hr).
  - cbn. rewrite bool_decide_eq_false_2 by lia. destruct k; [rewrite bool_decide_eq_false_2 by lia; done..|done].
  - intros _. cbn. lia.
  - cbn. rewrite map_length. destruct k; [lia|lia|]. rewrite Z.mod_small by lia. lia.
Qed.

(** Removing by value: nodes in front of the first occurrence stay. *)
Lemma remove_loop_front k v o all : forall n found s g1 g2 prev curr p,
  rep k s o (g1 ++ g2) -> n = length g2 -> prev = last_loc None g1 ->
  (g2 <> [] -> curr = hd_loc g2 None) -> p <= length g1 + first_of v (vals g2) ->
  keeps k o (g1 ++ g2) p (remove_value_loop o v all n found prev curr) s.
Proof.
  induction n as [|n IH]; intros found s g1 g2 prev curr p Hr Hn -> Hcurr Hp.
  { destruct g2; [|done]. cbn. by exists (g1 ++ []). }
  destruct g2 as [|m g2]; [done|]. injection Hn as ->. specialize (Hcurr ltac:(done)). cbn in Hcurr.
  cbn [remove_value_loop]. destruct (negb all && found) eqn:Hstop.
  { apply wp_ret. by eexists. }
  apply wp_bind. eapply wp_deref; [done|].
  pose proof (rep_seg _ _ _ _ Hr) as [_ [(cm & Hcm & Hd & Hdat & Hpri & Hdn & Hnx & Hpv) _]]%lseg_app.
  apply wp_bind. eapply wp_get_data; [exact Hcm|]. rewrite Hdat.
  rewrite py_eq_dec_stored by (eapply rep_stored_in; [exact Hr|]; rewrite map_app; cbn; set_solver).
  destruct (bool_decide (g_val m = v)) eqn:Heq.
  - apply bool_decide_eq_true in Heq.
    assert (p <= length g1) as Hp1.
    { unfold first_of in Hp. cbn [map list_find] in Hp. rewrite decide_True in Hp by done. cbn in Hp. lia. }
    apply wp_bind. eapply wp_mono; [by apply remove_node_spec|].
    intros [] s1 (Hr1 & Hm1 & Hl1 & Hl2).
    destruct g1 as [|q g1 _] using rev_ind.
    + cbn [length] in Hp1. assert (p = 0) as -> by lia.
      destruct (obj_eq Hr1) as (ob & Hob & _ & _ & Hhd & _).
      wget_obj Hob. apply wp_bind. cbn [last_loc last].
      apply wp_ret. eapply wp_mono.
      * eapply (IH true s1 [] (rem_ghost k [] m g2) None (o_head ob) 0); [done| |done| |lia].
        -- rewrite rem_ghost_length. done.
        -- intros Hne. by apply Hhd.
      * intros ? s2 (g' & Hr' & _). by exists g'.
    + assert (rem_ghost k (g1 ++ [q]) m g2 = (g1 ++ [q]) ++ g2) as Hg.
      { unfold rem_ghost. by destruct (g1 ++ [q]) eqn:E; [destruct g1|destruct g2]. }
      rewrite Hg in Hr1.
      destruct (obj_eq Hr1) as (ob & Hob & _ & _ & Hhd & _).
      wget_obj Hob. apply wp_bind. rewrite last_loc_snoc.
      pose proof (rep_seg _ _ _ _ Hr1) as [Hsp _]%lseg_app.
      destruct (lseg_last _ _ _ _ _ _ Hsp) as (cp & Hcp & _ & _ & _ & _ & Hpn & _).
      eapply wp_get_next; [exact Hcp|]. eapply wp_mono.
      * eapply (IH true s1 (g1 ++ [q]) g2 _ _ p); [done|done|by rewrite last_loc_snoc| |lia].
        intros Hne. rewrite Hpn. by destruct g2.
      * intros ? s2 (g' & Hr' & Hf). exists g'. split; [done|]. unfold same_front in *. rewrite Hf.
        apply front_app. done.
  - apply bool_decide_eq_false in Heq.
    apply wp_bind. eapply wp_get_next; [exact Hcm|]. rewrite Hnx.
    assert (rep k s o ((g1 ++ [m]) ++ g2)) as Hr' by (by rewrite <- app_assoc).
    eapply wp_mono.
    + eapply (IH found s (g1 ++ [m]) g2 _ _ p); [done|done|by rewrite last_loc_snoc| |].
      * intros Hne. by destruct g2.
      * unfold first_of in *. cbn [map list_find] in Hp. rewrite decide_False in Hp by done.
        rewrite app_length. cbn [length]. destruct (list_find _ (vals g2)) as [[j y]|]; cbn in Hp |- *; lia.
    + intros ? s' (g' & Hg' & Hf). exists g'. split; [done|]. by rewrite <- app_assoc in Hf.
Qed.
Lemma remove_front_kept k s o g v b p : rep k s o g -> storable v -> p <= first_of v (vals g) ->
  keeps k o g p (remove o v (Some b)) s.
Proof.
  intros Hr Hv Hp. destruct (obj_eq Hr) as (ob & Hob & _ & Hlen & Hhd & _).
  unfold keeps, remove. apply wp_bind. eapply wp_intro; [by apply check_item_ok|]. wget_obj Hob.
  rewrite Hlen. apply (remove_loop_front k v o b (length g) false s [] g None (o_head ob) p); done.
Qed.
Lemma extend_front k s o o' g1 g2 p :
  rep (kc k) s o g1 -> rep (kc k) s o' g2 -> o <> o' -> (forall l, l ∈ locs g1 -> l ∉ locs g2) ->
  p <= length g1 -> keeps (kc k) o g1 p (extend o o') s.
Proof.
  intros Hr1 Hr2 Hne Hdis Hp. unfold keeps. destruct (is_cll (kc k)) eqn:Hcll.
  - destruct k; try done. cbn [mcls] in *. eapply wp_mono; [by apply cll_extend_spec|].
    intros ? s' (gd' & Hr & _). exists (g1 ++ gd'). split; [done|].
    rewrite <- (app_nil_r g1) at 1. by apply front_app.
  - eapply wp_mono; [by apply extend_spec|]. intros ? s' [Hr Hm].
    exists (g1 ++ g2). split; [done|]. rewrite <- (app_nil_r g1) at 1. by apply front_app.
Qed.

(** ** One call, seen from one list *)
Lemma keeps0 k s o g vs (m : M st unit) : wp m (fun _ s' => upd k s o g vs s') s -> keeps k o g 0 m s.
Proof. intros H. eapply wp_mono; [exact H|]. intros ? s' (g' & Hr & _). by exists g'. Qed.

Section Front.
Context (F : framed).

(** A call on list [y]: it fails without effect or updates the chain of [y]. *)
Lemma mut_case k c w y vsy out c' x vs o g p (m : nat -> M st unit) :
  Rel F k c w -> content w y = Some vsy -> content w x = Some vs -> snd c !! x = Some o ->
  rep k (fst c) o g ->
  (forall oy gy, rep k (fst c) oy gy -> vals gy = vsy -> 
     (exists e, m oy (fst c) = Exc e (fst c))
     \/ (exists vs', wp (m oy) (fun _ s' => upd k (fst c) oy gy vs' s') (fst c))
        /\ (y = x -> keeps k oy gy p (m oy) (fst c))) ->
  (oy ← snd c !! y; call (m oy) c obs_unit) = Some (out, c') ->
  exists g', rep k (fst c') o g' /\ same_front p g g'.
Proof.
  intros HR Hy Hx Ho Hr Hm Hc.
  destruct (rel_var _ _ _ _ _ _ HR Hy) as (oy & gy & Hoy & Hry & Hvy & _).
  rewrite Hoy in Hc. cbn [mbind option_bind] in Hc.
  destruct (Hm oy gy Hry Hvy) as [[e He]|[[vs' Hu] Hk]].
  { erewrite call_exc in Hc by exact He. injection Hc as _ <-. by exists g. }
  destruct (decide (y = x)) as [->|Hyx].
  - rewrite Ho in Hoy. injection Hoy as <-. rewrite (rep_fun _ _ _ _ _ Hry Hr) in Hk.
    destruct (wp_elim _ _ _ (Hk eq_refl)) as (a & s' & Hms & g' & Hr' & Hf).
    erewrite call_ok in Hc by exact Hms. injection Hc as _ <-. by exists g'.
  - apply wp_elim in Hu as (a & s' & Hms & g' & Hr' & Hv' & Hmod & _).
    erewrite call_ok in Hc by exact Hms. injection Hc as _ <-. exists g. split; [|done]. cbn [fst].
    destruct (rel_vars _ _ _ _ _ _ _ _ HR (not_eq_sym Hyx) Hx Hy) as (o1 & o2 & g1 & g2 & Ho1 & Ho2 & Hne & Hr1 & _ & Hr2 & _ & Hdis & _).
    rewrite Ho in Ho1. injection Ho1 as <-. rewrite Hoy in Ho2. injection Ho2 as <-.
    rewrite (rep_fun _ _ _ _ _ Hr1 Hr) in Hdis. rewrite (rep_fun _ _ _ _ _ Hr2 Hry) in Hdis.
    eapply rep_frame; [exact Hr|exact Hmod|set_solver|exact Hdis].
Qed.

(** A call that changes no existing list. *)
Lemma fresh_case {A} k c out c' o g p (m : M st A) f :
  rep k (fst c) o g ->
  (forall a s', m (fst c) = Ok a s' -> modifies [] [] (fst c) s') ->
  (forall e s', m (fst c) = Exc e s' -> modifies [] [] (fst c) s') ->
  call m c f = Some (out, c') ->
  exists g', rep k (fst c') o g' /\ same_front p g g'.
Proof.
  intros Hr H1 H2 Hc. exists g. split; [|done].
  assert (modifies [] [] (fst c) (fst c')) as Hm.
  { unfold call in Hc. destruct (m (fst c)) as [a s'|e s'|]; [| |done]; injection Hc as _ <-; [by eapply H1|by eapply H2]. }
  eapply rep_frame; [exact Hr|exact Hm|set_solver|set_solver].
Qed.
Lemma same_case {A} k c out c' o g p (m : M st A) f r :
  rep k (fst c) o g -> m (fst c) = r -> (match r with Ok _ s' | Exc _ s' => s' = fst c | Diverge => True end) ->
  call m c f = Some (out, c') ->
  exists g', rep k (fst c') o g' /\ same_front p g g'.
Proof.
  intros Hr Hm Hs Hc. eapply fresh_case; [exact Hr| | |exact Hc].
  - intros a s' H. rewrite Hm in H. rewrite H in Hs. rewrite Hs. apply modifies_refl.
  - intros a s' H. rewrite Hm in H. rewrite H in Hs. rewrite Hs. apply modifies_refl.
Qed.
Lemma made_case k c out c' o g p (m : M st nat) vs :
  rep k (fst c) o g -> wp m (fun r s' => created k (fst c) r vs s') (fst c) ->
  call m c obs_new = Some (out, c') ->
  exists g', rep k (fst c') o g' /\ same_front p g g'.
Proof.
  intros Hr Hw Hc. apply wp_elim in Hw as (a & s' & Hm & g' & _ & _ & _ & _ & Hmod).
  eapply fresh_case; [exact Hr| | |exact Hc].
  - intros ? ? H. rewrite Hm in H. by injection H as _ <-.
  - intros ? ? H. by rewrite Hm in H.
Qed.
Lemma exc_case {A} k c out c' o g p (m : M st A) f e :
  rep k (fst c) o g -> m (fst c) = Exc e (fst c) -> call m c f = Some (out, c') ->
  exists g', rep k (fst c') o g' /\ same_front p g g'.
Proof. intros Hr Hm. by eapply same_case. Qed.

Ltac live Hs w y vs H := destruct (content w y) as [vs|] eqn:H; cbn [mbind option_bind] in Hs; [|discriminate Hs].
Ltac the_obj HR Hy oy gy Hoy Hry Hvy Hc :=
  destruct (rel_var _ _ _ _ _ _ HR Hy) as (oy & gy & Hoy & Hry & Hvy & _);
  cbn [model_step] in Hc; rewrite Hoy in Hc; cbn [mbind option_bind] in Hc.

Lemma front_step k c w op out w' c' x vs o g p :
  Rel F (kc k) c w -> spec_step k w op = Some (out, w') -> model_step k c op = Some (out, c') ->
  content w x = Some vs -> is_Some (content w' x) -> snd c !! x = Some o -> rep (kc k) (fst c) o g ->
  (mutates op x -> p <= front_kept k op vs) -> p <= length g ->
  exists g', rep (kc k) (fst c') o g' /\ same_front p g g'.
Proof.
  intros HR Hs Hc Hx Hx' Ho Hr Hp Hpl.
  destruct op as [items|y v|y v|y i v|y i v|y i|y|y|y v all|y|y d r|y d r|y z|y|y|y i|y i|y v|y v|y|y|y|y z|y z];
    cbn [spec_step] in Hs; cbn [mutates] in Hp.
  - (* LNew *) cbn [model_step] in Hc. destruct (list_find _ items) as [[j v]|] eqn:Hf.
    + apply list_find_Some in Hf as (Hj & Hbad & Hgood).
      destruct (validate_item v) as [e|] eqn:Hv; [|done].
      destruct (construct_exc (mcls k) (fst c) (take j items) v (drop (S j) items) e) as (s' & Hxc & Hm).
      { apply Forall_forall. intros a Ha. apply elem_of_list_lookup in Ha as [i Hi].
        apply lookup_take_Some in Hi as [Hi Hlt]. specialize (Hgood _ _ Hi Hlt).
        unfold storable. destruct (validate_item a) eqn:E; [|done]. exfalso. by apply Hgood. }
      { done. }
      rewrite (take_drop_middle _ _ _ Hj) in Hxc.
      eapply fresh_case; [exact Hr| | |exact Hc].
      * intros ? ? H. by rewrite Hxc in H.
      * intros ? ? H. rewrite Hxc in H. by injection H as _ <-.
    + eapply made_case; [exact Hr| |exact Hc]. apply construct_spec.
      apply list_find_None in Hf. eapply Forall_impl; [exact Hf|]. intros a Ha. unfold storable.
      cbn in Ha. destruct (validate_item a); [|done]. exfalso. by apply Ha.
  - (* LAddFront *) live Hs w y vsy Hy. eapply mut_case; [exact HR|exact Hy|exact Hx|exact Ho|exact Hr| |exact Hc].
    intros oy gy Hry Hvy. cbn beta. destruct (validate_item v) as [e|] eqn:Hvi.
    + left. exists e. unfold add_front. by erewrite bind_exc by (by apply check_item_exc).
    + right. pose proof (add_front_spec _ _ _ _ v Hry Hvi) as Hw. split; [by eexists|].
      intros Hyx. specialize (Hp Hyx). cbn in Hp. assert (p = 0) as -> by lia. by eapply keeps0.
  - (* LAddEnd *) live Hs w y vsy Hy. eapply mut_case; [exact HR|exact Hy|exact Hx|exact Ho|exact Hr| |exact Hc].
    intros oy gy Hry Hvy. cbn beta. destruct (validate_item v) as [e|] eqn:Hvi.
    + left. exists e. unfold add_end. by erewrite bind_exc by (by apply check_item_exc).
    + right. pose proof (add_end_spec _ _ _ _ v Hry Hvi) as Hw. split; [by eexists|].
      intros Hyx. specialize (Hp Hyx). subst y. rewrite Hx in Hy. injection Hy as <-. cbn in Hp.
      rewrite <- Hvy, map_length in Hp. by apply add_end_front.
  - (* LInsert *) live Hs w y vsy Hy. eapply mut_case; [exact HR|exact Hy|exact Hx|exact Ho|exact Hr| |exact Hc].
    intros oy gy Hry Hvy. cbn beta. pose proof (insert_full k (fst c) oy gy i v Hry) as Hfull.
    unfold insert_out in Hfull. rewrite map_length in Hfull.
    destruct (bad_index k (length gy) i) as [e|] eqn:Hb; [left; by exists e|].
    destruct (validate_item v) as [e|] eqn:Hvi; [left; by exists e|]. right. split; [by eexists|].
    intros Hyx. specialize (Hp Hyx). subst y. rewrite Hx in Hy. injection Hy as <-. 
    apply insert_front; [done|done|done|]. by rewrite Hvy.
  - (* LSet *) live Hs w y vsy Hy. eapply mut_case; [exact HR|exact Hy|exact Hx|exact Ho|exact Hr| |exact Hc].
    intros oy gy Hry Hvy. cbn beta. 
    assert ((k = Circular -> gy <> [] /\ v <> PNone) \/ bad_index k (length vsy) i <> None) as Hcc.
    { destruct (bad_index k (length vsy) i); [by right|]. left. intros ->.
      destruct (bool_decide (vsy = [])) eqn:Hb1; [done|]. destruct (bool_decide (v = PNone)) eqn:Hb2; [done|].
      apply bool_decide_eq_false in Hb1, Hb2. split; [|done]. intros ->. by apply Hb1. }
    destruct (bad_index k (length vsy) i) as [e|] eqn:Hb.
    { left. exists e. destruct (obj_eq Hry) as (ob & Hob & _). unfold setitem.
      erewrite bind_ok by (by apply get_obj_ok).
      pose proof (check_index_ok k (fst c) oy gy i Hry) as Hci.
      rewrite <- Hvy, map_length in Hb. rewrite Hb in Hci. by erewrite bind_exc by exact Hci. }
    destruct Hcc as [Hcc|]; [|done].
    pose proof (setitem_full k (fst c) oy gy i v Hry Hcc) as Hfull. unfold set_out in Hfull. rewrite Hvy, Hb in Hfull.
    assert (forall vs', wp (setitem oy (ix i) v) (fun _ s' => upd (kc k) (fst c) oy gy vs' s') (fst c) ->
      keeps (kc k) oy gy p (setitem oy (ix i) v) (fst c)) as Hkp.
    { intros vs' Hw. apply wp_elim in Hw as ([] & s' & Hm & g' & Hr' & _). eapply wp_intro; [exact Hm|].
      exists g'. split; [done|]. destruct (setitem_links _ _ _ _ _ Hm) as [Hob Hnx].
      unfold same_front. f_equal. eapply relabel; [exact Hr'|exact Hry|done|done]. }
    destruct k.
    + destruct (bool_decide (the_int i = _)); [left; by eexists|].
      destruct (validate_item v); [left; by eexists|]. right. split; [by eexists|]. intros _. by eapply Hkp.
    + destruct (bool_decide (the_int i = _)); [left; by eexists|].
      destruct (validate_item v); [left; by eexists|]. right. split; [by eexists|]. intros _. by eapply Hkp.
    + destruct (validate_item v); [left; by eexists|]. right. split; [by eexists|]. intros _. by eapply Hkp.
  - (* LDel *) live Hs w y vsy Hy. eapply mut_case; [exact HR|exact Hy|exact Hx|exact Ho|exact Hr| |exact Hc].
    intros oy gy Hry Hvy. cbn beta. pose proof (delitem_full k (fst c) oy gy i Hry) as Hfull.
    unfold del_out in Hfull. rewrite map_length in Hfull.
    destruct (bad_index k (length gy) i) as [e|] eqn:Hb; [left; by exists e|].
    assert ((k <> Circular -> the_int i <> Z.of_nat (length gy)) -> y = x -> keeps (kc k) oy gy p (delitem oy (ix i)) (fst c)) as Hkp.
    { intros Hne Hyx. specialize (Hp Hyx). subst y. rewrite Hx in Hy. injection Hy as <-.
      apply delitem_front; [done|done|done|]. by rewrite Hvy. }
    destruct k.
    + case_bool_decide as Hz; [left; by eexists|]. right. split; [by eexists|]. by apply Hkp.
    + case_bool_decide as Hz; [left; by eexists|]. right. split; [by eexists|]. by apply Hkp.
    + right. split; [by eexists|]. by apply Hkp.
  - (* LRemoveFront *) live Hs w y vsy Hy. eapply mut_case; [exact HR|exact Hy|exact Hx|exact Ho|exact Hr| |exact Hc].
    intros oy gy Hry Hvy. cbn beta. right. pose proof (remove_front_spec k _ _ _ Hry) as Hw. split; [by eexists|].
    intros Hyx. specialize (Hp Hyx). cbn in Hp. assert (p = 0) as -> by lia. by eapply keeps0.
  - (* LRemoveEnd *) live Hs w y vsy Hy. eapply mut_case; [exact HR|exact Hy|exact Hx|exact Ho|exact Hr| |exact Hc].
    intros oy gy Hry Hvy. cbn beta. right. pose proof (remove_end_spec k _ _ _ Hry) as Hw. split; [by eexists|].
    intros Hyx. specialize (Hp Hyx). subst y. rewrite Hx in Hy. injection Hy as <-. cbn in Hp.
    rewrite <- Hvy, map_length in Hp. by apply remove_end_front.
  - (* LRemove *) live Hs w y vsy Hy. eapply mut_case; [exact HR|exact Hy|exact Hx|exact Ho|exact Hr| |exact Hc].
    intros oy gy Hry Hvy. cbn beta. destruct all as [b|]; [|left; by exists TypeError].
    destruct (validate_item v) as [e|] eqn:Hvi.
    + left. exists e. unfold remove. by erewrite bind_exc by (by apply check_item_exc).
    + right. pose proof (remove_spec _ _ _ _ v b Hry Hvi) as Hw. split; [by eexists|].
      intros Hyx. specialize (Hp Hyx). subst y. rewrite Hx in Hy. injection Hy as <-. cbn in Hp.
      rewrite <- Hvy in Hp. by apply remove_front_kept.
  - (* LClear *) live Hs w y vsy Hy. eapply mut_case; [exact HR|exact Hy|exact Hx|exact Ho|exact Hr| |exact Hc].
    intros oy gy Hry Hvy. cbn beta. right. pose proof (clear_spec _ _ _ _ Hry) as Hw. split; [by eexists|].
    intros Hyx. specialize (Hp Hyx). cbn in Hp. assert (p = 0) as -> by lia. by eapply keeps0.
  - (* LRotate *) live Hs w y vsy Hy. eapply mut_case; [exact HR|exact Hy|exact Hx|exact Ho|exact Hr| |exact Hc].
    intros oy gy Hry Hvy. cbn beta. pose proof (rotate_inplace_full k (fst c) oy gy d r Hry) as Hfull.
    unfold rot_out in Hfull. destruct d as [z|]; [|left; by exists TypeError].
    destruct (bool_decide _); [left; by exists ValueError|]. right. split; [by eexists|].
    intros Hyx. specialize (Hp Hyx). cbn in Hp. assert (p = 0) as -> by lia. by eapply keeps0.
  - (* LRotated *) live Hs w y vsy Hy. the_obj HR Hy oy gy Hoy Hry Hvy Hc.
    pose proof (rotate_new_full k (fst c) oy gy d r Hry) as Hfull. unfold rot_out in Hfull.
    destruct d as [z|]; [|by eapply exc_case]. destruct (bool_decide _); [by eapply exc_case|by eapply made_case].
  - (* LExtend *)
    live Hs w y ys Hy. live Hs w z zs Hz.
    destruct (rel_var _ _ _ _ _ _ HR Hy) as (oy & gy & Hoy & Hry & Hvy & _).
    destruct (rel_var _ _ _ _ _ _ HR Hz) as (oz & gz & Hoz & Hrz & Hvz & _).
    cbn [model_step] in Hc. rewrite Hoy, Hoz in Hc. cbn [mbind option_bind] in Hc.
    destruct (decide (zs = [])) as [Hzs|Hzs].
    { (* nothing to append *)
      eapply (same_case _ _ _ _ _ _ _ _ _ (Ok tt (fst c))); [exact Hr| |done|exact Hc].
      destruct (obj_eq Hry) as (ob & Hob & Hk & Hlen & _).
      destruct (obj_eq Hrz) as (ob' & Hob' & Hk' & Hlen' & _).
      unfold extend. erewrite !bind_ok by (by apply get_obj_ok). rewrite Hk, Hk', is_instance_refl.
      subst zs. destruct gz as [|? ?]; [|done]. cbn in Hlen'.
      destruct k; cbn [mcls]; unfold ll_extend, dll_extend, cll_extend;
        (erewrite bind_ok by (by apply get_obj_ok)); by rewrite Hlen'. }
    assert (y <> z) as Hyz.
    { intros ->. rewrite Hy in Hz. injection Hz as ->. rewrite !(bool_decide_eq_true_2 (z = z)) in Hs by done.
      rewrite (bool_decide_eq_false_2 (zs = [])) in Hs by done. by destruct k. }
    destruct (rel_vars _ _ _ _ _ _ _ _ HR Hyz Hy Hz) as (o1 & o2 & g1 & g2 & Ho1 & Ho2 & Hne & Hr1 & _ & Hr2 & _ & Hdis & _).
    rewrite Hoy in Ho1. injection Ho1 as <-. rewrite Hoz in Ho2. injection Ho2 as <-.
    rewrite (rep_fun _ _ _ _ _ Hr1 Hry) in Hdis. rewrite (rep_fun _ _ _ _ _ Hr2 Hrz) in Hdis.
    destruct (decide (y = x)) as [->|Hyx].
    { rewrite Ho in Hoy. injection Hoy as <-. rewrite (rep_fun _ _ _ _ _ Hry Hr) in Hdis.
      pose proof (extend_front k _ o oz g gz p Hr Hrz Hne Hdis Hpl) as Hw.
      apply wp_elim in Hw as (a & s' & Hm & g' & Hr' & Hf).
      erewrite call_ok in Hc by exact Hm. injection Hc as _ <-. by exists g'. }
    pose proof (extend_any k (fst c) oy oz gy gz Hry Hrz Hne Hdis) as Hw.
    apply wp_elim in Hw as (a & s' & Hm & g' & Hr' & _ & Hmod & _).
    erewrite call_ok in Hc by exact Hm. injection Hc as _ <-. exists g. split; [|done]. cbn [fst].
    assert (forall l, l ∈ locs g -> l ∉ locs gy) as Hd1.
    { destruct (rel_vars _ _ _ _ _ _ _ _ HR (not_eq_sym Hyx) Hx Hy) as (q1 & q2 & h1 & h2 & Hq1 & Hq2 & _ & Hh1 & _ & Hh2 & _ & Hd & _).
      rewrite Ho in Hq1. injection Hq1 as <-. rewrite Hoy in Hq2. injection Hq2 as <-.
      by rewrite (rep_fun _ _ _ _ _ Hh1 Hr), (rep_fun _ _ _ _ _ Hh2 Hry) in Hd. }
    assert (o <> oy) as Hooy.
    { intros ->. apply Hyx. eapply NoDup_lookup; [by eapply rel_nodup|exact Hoy|exact Ho]. }
    eapply rep_frame; [exact Hr|exact Hmod|set_solver|].
    intros l Hl [Hl'|Hl']%elem_of_app; [by apply (Hd1 l)|].
    destruct (is_cll (kc k)) eqn:Hcll; [set_solver|].
    destruct (decide (z = x)) as [->|Hzx].
    { rewrite (bool_decide_eq_false_2 (y = x)), (bool_decide_eq_false_2 (zs = [])) in Hs by done.
      assert (Some (RUnit, <[x:=None]> (store w y (ys ++ zs))) = Some (out, w')) as [= <- <-] by (rewrite <- Hs; by destruct k).
      destruct Hx' as [vx Hx']. unfold content in Hx'. rewrite list_lookup_insert in Hx'; [done|].
      unfold store. rewrite insert_length. apply content_some in Hz. by eapply lookup_lt_Some. }
    destruct (rel_vars _ _ _ _ _ _ _ _ HR (not_eq_sym Hzx) Hx Hz) as (q1 & q2 & h1 & h2 & Hq1 & Hq2 & _ & Hh1 & _ & Hh2 & _ & Hd & _).
    rewrite Ho in Hq1. injection Hq1 as <-. rewrite Hoz in Hq2. injection Hq2 as <-.
    rewrite (rep_fun _ _ _ _ _ Hh1 Hr), (rep_fun _ _ _ _ _ Hh2 Hrz) in Hd. by apply (Hd l).
  - (* LCopy *) live Hs w y vsy Hy. the_obj HR Hy oy gy Hoy Hry Hvy Hc.
    eapply made_case; [exact Hr| |exact Hc]. by apply copy_spec.
  - (* LReverse *) live Hs w y vsy Hy. the_obj HR Hy oy gy Hoy Hry Hvy Hc.
    eapply made_case; [exact Hr| |exact Hc]. by apply reverse_spec.
  - (* LSplit *) live Hs w y vsy Hy. the_obj HR Hy oy gy Hoy Hry Hvy Hc.
    destruct (bad_index k (length gy) i) as [e|] eqn:Hb.
    + eapply exc_case; [exact Hr| |exact Hc]. by apply (split_exc k (fst c) oy gy).
    + pose proof (split_ok k (fst c) oy gy i Hry Hb) as Hw. cbn zeta in Hw.
      apply wp_elim in Hw as ([o1 o2] & s' & Hm & g1 & g2 & _ & _ & _ & _ & _ & _ & _ & _ & _ & _ & Hmod).
      eapply fresh_case; [exact Hr| | |exact Hc].
      * intros ? ? H. rewrite Hm in H. by injection H as _ <-.
      * intros ? ? H. by rewrite Hm in H.
  - (* LGet *) live Hs w y vsy Hy. the_obj HR Hy oy gy Hoy Hry Hvy Hc.
    destruct k.
    1, 2: assert (getitem oy (mix i) (fst c) = ll_getitem oy (mix i) (fst c)) as Hgi by
      (destruct (obj_eq Hry) as (ob & Hob & Hkb & _); unfold getitem;
       erewrite bind_ok by (by apply get_obj_ok); by rewrite Hkb).
    1, 2: destruct i as [z|start stop step|]; cbn [mix] in *;
      [ clear Hs; pose proof (ll_getitem_int _ _ _ _ z Hry eq_refl) as Hg; rewrite <- Hgi in Hg;
        destruct (bool_decide (_ \/ _)); [by eapply exc_case|];
        destruct (vals gy !! _); [by eapply same_case|by eapply exc_case]
      | 
      | eapply exc_case; [exact Hr| |exact Hc]; rewrite Hgi;
        destruct (obj_eq Hry) as (ob & Hob & Hkb & _); unfold ll_getitem;
        erewrite bind_ok by (by apply get_obj_ok); apply bind_exc;
        unfold check_index; by erewrite bind_ok by (by apply get_obj_ok) ].
    1, 2: destruct (bool_decide (default 1%Z step = 0%Z)) eqn:H0;
      [ apply bool_decide_eq_true in H0; eapply exc_case; [exact Hr| |exact Hc]; rewrite Hgi;
        destruct (obj_eq Hry) as (ob & Hob & Hkb & _); unfold ll_getitem;
        erewrite bind_ok by (by apply get_obj_ok);
        assert (check_index oy (ISlice start stop step) true true (fst c) = Ok tt (fst c)) as Hci by
          (unfold check_index; by erewrite bind_ok by (by apply get_obj_ok));
        erewrite bind_ok by exact Hci; rewrite H0; done
      | apply bool_decide_eq_false in H0; destruct (bool_decide (default 1%Z step < 0)%Z) eqn:H1; [done|];
        apply bool_decide_eq_false in H1;
        pose proof (slice_spec _ _ _ _ start stop (default 1%Z step) Hry eq_refl ltac:(lia)) as Hw;
        apply wp_elim in Hw as (a & s' & Hm & cc & -> & g1 & _ & _ & _ & _ & Hmod);
        assert (getitem oy (ISlice start stop step) (fst c) = Ok (GList cc) s') as Hm' by
          (rewrite Hgi, <- Hm; by destruct step);
        eapply fresh_case; [exact Hr| | |exact Hc];
        [ intros ? ? H; rewrite Hm' in H; by injection H as _ <-
        | intros ? ? H; by rewrite Hm' in H ] ].
    clear Hs. pose proof (cll_getitem_ok _ _ _ i Hry) as Hg. destruct (bad_index _ _ _) as [e|]; [by eapply exc_case|].
    destruct (vals gy !! _); [by eapply same_case|by eapply exc_case].
  - (* LContains *) live Hs w y vsy Hy. the_obj HR Hy oy gy Hoy Hry Hvy Hc. destruct (is_val v) eqn:Hiv; [|done].
    eapply same_case; [exact Hr|by eapply contains_ok|done|exact Hc].
  - (* LCount *) live Hs w y vsy Hy. the_obj HR Hy oy gy Hoy Hry Hvy Hc. destruct (is_val v) eqn:Hiv; [|done].
    eapply same_case; [exact Hr|by eapply count_ok|done|exact Hc].
  - (* LLen *) live Hs w y vsy Hy. the_obj HR Hy oy gy Hoy Hry Hvy Hc.
    eapply same_case; [exact Hr|by eapply ll_len_ok|done|exact Hc].
  - (* LIsEmpty *) live Hs w y vsy Hy. the_obj HR Hy oy gy Hoy Hry Hvy Hc.
    eapply same_case; [exact Hr|by eapply ll_is_empty_ok|done|exact Hc].
  - (* LToList *) live Hs w y vsy Hy. the_obj HR Hy oy gy Hoy Hry Hvy Hc.
    eapply same_case; [exact Hr|by eapply to_list_ok|done|exact Hc].
  - (* LEq *) live Hs w y ys Hy. live Hs w z zs Hz.
    destruct (rel_var _ _ _ _ _ _ HR Hy) as (oy & gy & Hoy & Hry & Hvy & _).
    destruct (rel_var _ _ _ _ _ _ HR Hz) as (oz & gz & Hoz & Hrz & Hvz & _).
    cbn [model_step] in Hc. rewrite Hoy, Hoz in Hc. cbn [mbind option_bind] in Hc.
    eapply same_case; [exact Hr|exact (proj1 (list_eq_ok _ _ _ _ _ _ Hry Hrz))|done|exact Hc].
  - (* LNe *) live Hs w y ys Hy. live Hs w z zs Hz.
    destruct (rel_var _ _ _ _ _ _ HR Hy) as (oy & gy & Hoy & Hry & Hvy & _).
    destruct (rel_var _ _ _ _ _ _ HR Hz) as (oz & gz & Hoz & Hrz & Hvz & _).
    cbn [model_step] in Hc. rewrite Hoy, Hoz in Hc. cbn [mbind option_bind] in Hc.
    eapply same_case; [exact Hr|exact (proj2 (list_eq_ok _ _ _ _ _ _ Hry Hrz))|done|exact Hc].
Qed.
End Front.
