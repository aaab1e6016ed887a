(** * Specs of the public list methods with their argument checks. *)
From Verif Require Import Base ListModel ListRep ListCore ListCore2 ListSpec ListPure ListOps ListOps2 ListRun.
Local Open Scope py_scope.

Notation kc := mcls.
Notation ix := mix.

Lemma check_index_ok k s o g i : rep (kc k) s o g ->
  check_index o (ix i) false false s =
    match bad_index k (length g) i with Some e => Exc e s | None => Ok tt s end.
Proof.
  intros Hr. destruct (obj_eq Hr) as (ob & Hob & Hk & Hlen & _).
  unfold check_index. erewrite bind_ok by (by apply get_obj_ok). rewrite Hk, Hlen.
  destruct i as [z|a b c|]; cbn [mix validate_index bad_index negb]; [|done|done].
  rewrite andb_true_r. case_bool_decide as Hz.
  - rewrite (proj2 (Z.leb_le z (-1))) by lia. done.
  - rewrite (proj2 (Z.leb_gt z (-1))) by lia.
    destruct k; cbn [mcls is_cll]; [| |done].
    + rewrite (proj2 (Z.ltb_ge z (- Z.of_nat (length g)))) by lia. cbn [orb].
      case_bool_decide as Hb; [by rewrite (proj2 (Z.ltb_lt _ _)) by lia|].
      by rewrite (proj2 (Z.ltb_ge _ _)) by lia.
    + rewrite (proj2 (Z.ltb_ge z (- Z.of_nat (length g)))) by lia. cbn [orb].
      case_bool_decide as Hb; [by rewrite (proj2 (Z.ltb_lt _ _)) by lia|].
      by rewrite (proj2 (Z.ltb_ge _ _)) by lia.
Qed.

Lemma bad_index_none k n i : bad_index k n i = None ->
  exists z, i = AInt z /\ (0 <= z)%Z /\ (k <> Circular -> (z <= Z.of_nat n)%Z).
Proof.
  destruct i as [z|a b c|]; cbn; [|done|done]. case_bool_decide as H0; [done|].
  intros H. exists z. split_and!; [done|lia|]. intros Hk.
  destruct k; [| |done]; case_bool_decide; done || lia.
Qed.

(** What a call on one object does: raise leaving everything as it was, or update it. *)
Definition step_spec (m : M st unit) (k : lcls) (s : st) (o : nat) (g : list gn) (r : exn + list pyval) : Prop :=
  match r with
  | inl e => m s = Exc e s
  | inr vs => wp m (fun _ s' => upd k s o g vs s') s
  end.

Definition insert_out (k : lclass) (vs : list pyval) (i : idx_arg) (v : pyval) : exn + list pyval :=
  match bad_index k (length vs) i with
  | Some e => inl e
  | None => match validate_item v with
            | Some e => inl e
            | None => inr (ListSpec.insert_at vs (Z.to_nat (match k with
                       | Circular => the_int i mod (Z.of_nat (length vs) + 1)
                       | _ => the_int i end)%Z) (norm_item v))
            end
  end.

Lemma insert_full k s o g i v : rep (kc k) s o g ->
  step_spec (ListModel.insert o (ix i) v) (kc k) s o g (insert_out k (vals g) i v).
Proof.
  intros Hr. destruct (obj_eq Hr) as (ob & Hob & Hk & Hlen & _).
  pose proof (check_index_ok k s o g i Hr) as Hc.
  unfold insert_out, ListModel.insert. rewrite map_length.
  destruct (bad_index k (length g) i) as [e|] eqn:Hb.
  { unfold step_spec. erewrite bind_ok by (by apply get_obj_ok). by erewrite bind_exc by exact Hc. }
  destruct (bad_index_none _ _ _ Hb) as (z & -> & Hz0 & Hz1). cbn [the_int mix] in *.
  destruct (validate_item v) as [e|] eqn:Hv.
  { unfold step_spec. erewrite bind_ok by (by apply get_obj_ok). erewrite bind_ok by exact Hc.
    erewrite bind_exc by (by apply check_item_exc). done. }
  unfold step_spec. wget_obj Hob. apply wp_bind. eapply wp_intro; [exact Hc|].
  apply wp_bind. eapply wp_intro; [by apply check_item_ok|]. rewrite Hk, Hlen.
  apply wp_bind. eapply wp_mono; [eapply insert_at_spec; [exact Hr|done|]|].
  - destruct k; cbn [mcls is_cll]; [specialize (Hz1 ltac:(done)); lia..|].
    pose proof (Z.mod_pos_bound z (Z.of_nat (length g) + 1)). lia.
  - intros ? s' Hu. apply wp_ret. by destruct k.
Qed.

Definition set_out (k : lclass) (vs : list pyval) (i : idx_arg) (v : pyval) : exn + list pyval :=
  match bad_index k (length vs) i with
  | Some e => inl e
  | None => 
      match k with
      | Circular => match validate_item v with
            | Some e => inl e
            | None => inr (<[Z.to_nat (the_int i mod Z.of_nat (length vs)) := norm_item v]> vs)
            end
      | _ => if bool_decide (the_int i = Z.of_nat (length vs)) then inl IndexError
             else match validate_item v with
            | Some e => inl e
            | None => inr (<[Z.to_nat (the_int i) := norm_item v]> vs)
            end
      end
  end.

Lemma set_data_exc l v e s : validate_item v = Some e -> set_data l v s = Exc e s.
Proof. unfold set_data. by intros ->. Qed.

Lemma setitem_full k s o g i v : rep (kc k) s o g ->
  (k = Circular -> g <> [] /\ v <> PNone) ->
  step_spec (setitem o (ix i) v) (kc k) s o g (set_out k (vals g) i v).
Proof.
  intros Hr Hcirc. destruct (obj_eq Hr) as (ob & Hob & Hk & Hlen & _).
  pose proof (check_index_ok k s o g i Hr) as Hc.
  unfold set_out, setitem. rewrite map_length.
  destruct (bad_index k (length g) i) as [e|] eqn:Hb.
  { unfold step_spec. erewrite bind_ok by (by apply get_obj_ok). by erewrite bind_exc by exact Hc. }
  destruct (bad_index_none _ _ _ Hb) as (z & -> & Hz0 & Hz1). cbn [the_int mix] in *.
  assert (k <> Circular -> step_spec
    (let! o0 := get_obj o in
     check_index o (IInt z) false false ;;
     (if is_cll (o_cls o0)
      then replace_value o (Z.to_nat (if Nat.eqb (o_len o0) 0 then 0%Z else (z mod Z.of_nat (o_len o0))%Z)) v
      else if Z.eqb z (Z.of_nat (o_len o0)) then raise IndexError
      else check_item v ;; replace_value o (Z.to_nat z) v)) (kc k) s o g
    (if bool_decide (z = Z.of_nat (length g)) then inl IndexError
     else match validate_item v with
          | Some e => inl e
          | None => inr (<[Z.to_nat z:=norm_item v]> (vals g))
          end)) as Hnc.
  { intros Hkc. assert (is_cll (kc k) = false) as Hcll by (by destruct k).
    case_bool_decide as Hzn.
    { unfold step_spec. erewrite bind_ok by (by apply get_obj_ok). erewrite bind_ok by exact Hc.
      rewrite Hk, Hcll, Hlen. by rewrite (proj2 (Z.eqb_eq _ _)). }
    destruct (validate_item v) as [e|] eqn:Hv.
    { unfold step_spec. erewrite bind_ok by (by apply get_obj_ok). erewrite bind_ok by exact Hc.
      rewrite Hk, Hcll, Hlen. rewrite (proj2 (Z.eqb_neq _ _)) by done.
      by erewrite bind_exc by (by apply check_item_exc). }
    unfold step_spec. wget_obj Hob. apply wp_bind. eapply wp_intro; [exact Hc|].
    rewrite Hk, Hcll, Hlen. rewrite (proj2 (Z.eqb_neq _ _)) by done.
    apply wp_bind. eapply wp_intro; [by apply check_item_ok|].
    eapply replace_value_spec; [done|done|]. specialize (Hz1 Hkc). lia. }
  destruct k; [by apply Hnc|by apply Hnc|]. destruct (Hcirc eq_refl) as [Hg Hvn].
  assert (length g <> 0) as Hl by (by destruct g).
  assert (Z.to_nat (z mod Z.of_nat (length g)) < length g) as Hlt.
  { pose proof (Z.mod_pos_bound z (Z.of_nat (length g))). lia. }
  destruct (validate_item v) as [e|] eqn:Hv.
  { unfold step_spec. erewrite bind_ok by (by apply get_obj_ok). erewrite bind_ok by exact Hc.
    rewrite Hk, Hlen. cbn [mcls is_cll]. rewrite (proj2 (Nat.eqb_neq _ _)) by done.
    unfold replace_value.
    assert (py_assert (S := st) (match v with PNone => false | _ => true end) s = Ok tt s) as Ha by (by destruct v).
    erewrite bind_ok by exact Ha.
    destruct (get_node_spec _ _ _ _ (Z.to_nat (z mod Z.of_nat (length g))) Hr ltac:(lia)) as (c & Hget & Hcc).
    erewrite bind_ok by exact Hget. cbn [snd]. rewrite Hcc by done.
    destruct (drop (Z.to_nat (z mod Z.of_nat (length g))) g) as [|m r] eqn:Hd.
    { apply (f_equal length) in Hd. rewrite drop_length in Hd. cbn in Hd. lia. }
    cbn [hd_loc deref]. erewrite bind_ok by done. by apply set_data_exc. }
  unfold step_spec. wget_obj Hob. apply wp_bind. eapply wp_intro; [exact Hc|].
  rewrite Hk, Hlen. cbn [mcls is_cll]. rewrite (proj2 (Nat.eqb_neq _ _)) by done.
  by eapply replace_value_spec.
Qed.

Definition del_out (k : lclass) (vs : list pyval) (i : idx_arg) : exn + list pyval :=
  match bad_index k (length vs) i with
  | Some e => inl e
  | None => match k with
      | Circular => inr (delete_at vs (Z.to_nat (the_int i mod Z.of_nat (length vs))))
      | _ => if bool_decide (the_int i = Z.of_nat (length vs)) then inl IndexError
             else inr (delete_at vs (Z.to_nat (the_int i)))
      end
  end.

Lemma delitem_full k s o g i : rep (kc k) s o g ->
  step_spec (delitem o (ix i)) (kc k) s o g (del_out k (vals g) i).
Proof.
  intros Hr. destruct (obj_eq Hr) as (ob & Hob & Hk & Hlen & _).
  pose proof (check_index_ok k s o g i Hr) as Hc.
  unfold del_out, delitem. rewrite map_length.
  destruct (bad_index k (length g) i) as [e|] eqn:Hb.
  { unfold step_spec. erewrite bind_ok by (by apply get_obj_ok). by erewrite bind_exc by exact Hc. }
  destruct (bad_index_none _ _ _ Hb) as (z & -> & Hz0 & Hz1). cbn [the_int mix] in *.
  assert (k = Circular \/ is_cll (kc k) = false /\ k <> Circular) as [->|[Hcll Hkc]].
  { destruct k; cbn; auto. }
  - unfold step_spec. wget_obj Hob. apply wp_bind. eapply wp_intro; [exact Hc|].
    rewrite Hk, Hlen. cbn [mcls is_cll]. destruct (Nat.eqb_spec (length g) 0) as [H0|H0].
    + apply wp_ret. apply nil_length_inv in H0 as ->. apply upd_refl; [done|].
      cbn. by destruct (Z.to_nat _).
    + eapply remove_idx_spec; [done|]. pose proof (Z.mod_pos_bound z (Z.of_nat (length g))). lia.
  - assert ((match k with
      | Circular => inr (delete_at (vals g) (Z.to_nat (z mod Z.of_nat (length g))))
      | _ => if bool_decide (z = Z.of_nat (length g)) then inl IndexError
             else inr (delete_at (vals g) (Z.to_nat z))
      end) = (if bool_decide (z = Z.of_nat (length g)) then inl IndexError
             else inr (delete_at (vals g) (Z.to_nat z)))) as -> by (by destruct k).
    case_bool_decide as Hzn.
    + unfold step_spec. erewrite bind_ok by (by apply get_obj_ok). erewrite bind_ok by exact Hc.
      rewrite Hk, Hcll, Hlen. by rewrite (proj2 (Z.eqb_eq _ _)).
    + unfold step_spec. wget_obj Hob. apply wp_bind. eapply wp_intro; [exact Hc|].
      rewrite Hk, Hcll, Hlen. rewrite (proj2 (Z.eqb_neq _ _)) by done.
      eapply remove_idx_spec; [done|]. specialize (Hz1 Hkc). lia.
Qed.

Lemma remove_front_spec k s o g : rep (kc k) s o g ->
  wp (remove_front o) (fun _ s' => upd (kc k) s o g (tail (vals g)) s') s.
Proof.
  intros Hr. unfold remove_front. apply wp_bind. eapply wp_intro; [by eapply ll_is_empty_ok|].
  destruct g as [|n g].
  { apply wp_ret. by apply upd_refl. }
  cbn [length Nat.eqb]. pose proof (delitem_full k s o (n :: g) (AInt 0) Hr) as H.
  unfold del_out, bad_index in H. cbn [the_int] in H.
  rewrite bool_decide_eq_false_2 in H by lia. destruct k.
  - rewrite bool_decide_eq_false_2 in H by lia. rewrite bool_decide_eq_false_2 in H by (cbn; lia). done.
  - rewrite bool_decide_eq_false_2 in H by lia. rewrite bool_decide_eq_false_2 in H by (cbn; lia). done.
  - rewrite Z.mod_0_l in H by (cbn; lia). done.
Qed.

Lemma removelast_delete (vs : list pyval) : vs <> [] -> delete_at vs (length vs - 1) = removelast vs.
Proof.
  intros Hne. destruct vs as [|x l _] using rev_ind; [done|].
  rewrite removelast_last. unfold delete_at. rewrite app_length. cbn [length].
  replace (length l + 1 - 1) with (length l) by lia. rewrite take_app.
  rewrite drop_ge by (rewrite app_length; cbn; lia). by rewrite app_nil_r.
Qed.

Lemma remove_end_spec k s o g : rep (kc k) s o g ->
  wp (remove_end o) (fun _ s' => upd (kc k) s o g (removelast (vals g)) s') s.
Proof.
  intros Hr. unfold remove_end. apply wp_bind. eapply wp_intro; [by eapply ll_is_empty_ok|].
  destruct (Nat.eqb_spec (length g) 0) as [H0|H0].
  { apply wp_ret. apply nil_length_inv in H0 as ->. by apply upd_refl. }
  apply wp_bind. eapply wp_intro; [by eapply ll_len_ok|].
  pose proof (delitem_full k s o g (AInt (Z.of_nat (length g) - 1)) Hr) as H.
  unfold del_out, bad_index in H. cbn [the_int mix] in H. rewrite map_length in H.
  rewrite bool_decide_eq_false_2 in H by lia.
  assert (delete_at (vals g) (Z.to_nat (Z.of_nat (length g) - 1)) = removelast (vals g)) as He.
  { rewrite <- removelast_delete by (by destruct g). f_equal. rewrite map_length. lia. }
  destruct k.
  - do 2 rewrite bool_decide_eq_false_2 in H by lia. by rewrite He in H.
  - do 2 rewrite bool_decide_eq_false_2 in H by lia. by rewrite He in H.
  - rewrite Z.mod_small in H by lia. by rewrite He in H.
Qed.

(** ** Reading an element, slices *)
Lemma ll_getitem_int k s o g z : rep k s o g -> is_cll k = false ->
  ll_getitem o (IInt z) s =
   if bool_decide (z < - Z.of_nat (length g) \/ Z.of_nat (length g) <= z)%Z then Exc IndexError s
   else match vals g !! Z.to_nat (if bool_decide (z < 0)%Z then z + Z.of_nat (length g) else z)%Z with
        | Some v => Ok (GVal v) s | None => Exc AssertionError s end.
Proof.
  intros Hr Hcll. destruct (obj_eq Hr) as (ob & Hob & Hk & Hlen & _).
  unfold ll_getitem. erewrite bind_ok by (by apply get_obj_ok).
  assert (check_index o (IInt z) true true s = if bool_decide (z < - Z.of_nat (length g) \/ Z.of_nat (length g) < z)%Z
     then Exc IndexError s else Ok tt s) as Hc.
  { unfold check_index. erewrite bind_ok by (by apply get_obj_ok). cbn [validate_index negb].
    rewrite Hk, Hlen, Hcll, andb_false_r. case_bool_decide as Hb.
    - destruct (Z.ltb_spec z (- Z.of_nat (length g))); [done|]. cbn.
      by rewrite (proj2 (Z.ltb_lt _ _)) by lia.
    - rewrite (proj2 (Z.ltb_ge z _)) by lia. cbn. by rewrite (proj2 (Z.ltb_ge _ z)) by lia. }
  destruct (decide (z < - Z.of_nat (length g) \/ Z.of_nat (length g) < z)%Z) as [Hd|Hd].
  { rewrite bool_decide_eq_true_2 in Hc by done. rewrite (bool_decide_eq_true_2 (_ \/ _)) by lia.
    by erewrite bind_exc by exact Hc. }
  rewrite bool_decide_eq_false_2 in Hc by done. erewrite bind_ok by exact Hc. rewrite Hlen.
  destruct (Z.eqb_spec z (Z.of_nat (length g))) as [->|Hne].
  { by rewrite (bool_decide_eq_true_2 (_ \/ _)) by lia. }
  rewrite (bool_decide_eq_false_2 (_ \/ _)) by lia.
  assert ((if Z.leb z (-1) then (z + Z.of_nat (length g))%Z else z) =
          (if bool_decide (z < 0)%Z then z + Z.of_nat (length g) else z)%Z) as ->.
  { case_bool_decide; [by rewrite (proj2 (Z.leb_le _ _)) by lia|by rewrite (proj2 (Z.leb_gt _ _)) by lia]. }
  set (i := Z.to_nat _). assert (i < length g) as Hi.
  { unfold i. case_bool_decide; lia. }
  destruct (get_node_spec _ _ _ _ i Hr ltac:(lia)) as (c & Hget & Hcc).
  erewrite bind_ok by exact Hget. cbn [snd].
  destruct (split_at_lookup g i Hi) as (n & Hn & Hg).
  rewrite Hcc by (by destruct g). rewrite (drop_S _ _ _ Hn). cbn [hd_loc deref].
  erewrite bind_ok by done.
  pose proof (rep_seg _ _ _ _ Hr) as Hs. rewrite Hg in Hs at 1. apply lseg_app in Hs as [_ [(cn & Hcn & _ & Hd' & _) _]].
  assert (get_data (g_loc n) s = Ok (g_val n) s) as E.
  { unfold get_data, bind. by rewrite (get_cell_ok _ _ _ Hcn), <- Hd'. }
  erewrite bind_ok by exact E. rewrite list_lookup_fmap, Hn. done.
Qed.

Lemma ll_getitem_int_pos k s o g z : rep k s o g -> (0 <= z < Z.of_nat (length g))%Z ->
  exists v, vals g !! Z.to_nat z = Some v /\ ll_getitem o (IInt z) s = Ok (GVal v) s.
Proof.
  intros Hr Hz. destruct (obj_eq Hr) as (ob & Hob & Hk & Hlen & _).
  assert (Z.to_nat z < length g) as Hi by lia.
  destruct (split_at_lookup g _ Hi) as (n & Hn & Hg).
  exists (g_val n). split; [by rewrite list_lookup_fmap, Hn|].
  unfold ll_getitem. erewrite bind_ok by (by apply get_obj_ok).
  assert (check_index o (IInt z) true true s = Ok tt s) as Hc.
  { unfold check_index. erewrite bind_ok by (by apply get_obj_ok). cbn [validate_index negb].
    rewrite Hk, Hlen, andb_false_r. destruct (is_cll k); [done|].
    rewrite (proj2 (Z.ltb_ge z _)) by lia. cbn. by rewrite (proj2 (Z.ltb_ge _ z)) by lia. }
  erewrite bind_ok by exact Hc. rewrite Hlen.
  rewrite (proj2 (Z.eqb_neq _ _)) by lia. rewrite (proj2 (Z.leb_gt _ _)) by lia.
  destruct (get_node_spec _ _ _ _ (Z.to_nat z) Hr ltac:(lia)) as (c & Hget & Hcc).
  erewrite bind_ok by exact Hget. cbn [snd].
  rewrite Hcc by (destruct g; [cbn in Hz; lia|done]). rewrite (drop_S _ _ _ Hn). cbn [hd_loc deref].
  erewrite bind_ok by done.
  pose proof (rep_seg _ _ _ _ Hr) as Hs. rewrite Hg in Hs at 1. apply lseg_app in Hs as [_ [(cn & Hcn & _ & Hd' & _) _]].
  assert (get_data (g_loc n) s = Ok (g_val n) s) as E.
  { unfold get_data, bind. by rewrite (get_cell_ok _ _ _ Hcn), <- Hd'. }
  by erewrite bind_ok by exact E.
Qed.


Lemma cll_getitem_ok s o g i : rep CCLL s o g ->
  getitem o (ix i) s =
    match bad_index Circular (length g) i with
    | Some e => Exc e s
    | None => match vals g !! Z.to_nat (the_int i mod Z.of_nat (length g)) with
              | Some v => Ok (GVal v) s
              | None => Exc IndexError s
              end
    end.
Proof.
  intros Hr. destruct (obj_eq Hr) as (ob & Hob & Hk & Hlen & _).
  unfold getitem. erewrite bind_ok by (by apply get_obj_ok). rewrite Hk. unfold cll_getitem.
  erewrite bind_ok by (by apply get_obj_ok).
  pose proof (check_index_ok Circular s o g i Hr) as Hc.
  destruct (bad_index Circular (length g) i) as [e|] eqn:Hb.
  { by erewrite bind_exc by exact Hc. }
  erewrite bind_ok by exact Hc. rewrite Hlen.
  destruct (bad_index_none _ _ _ Hb) as (z & -> & Hz0 & _). cbn [the_int mix].
  destruct (Nat.eqb_spec (length g) 0) as [H0|H0].
  { apply nil_length_inv in H0 as ->. done. }
  destruct (ll_getitem_int_pos CCLL s o g (z mod Z.of_nat (length g)) Hr) as (v & -> & ->); [|done].
  apply Z.mod_pos_bound. lia.
Qed.

Lemma slice_spec k s o g start stop st : rep k s o g -> is_cll k = false -> (0 < st)%Z ->
  wp (ll_getitem o (ISlice start stop (Some st))) (fun r s' => exists c, r = GList c /\
     created k s c (slice_pos (vals g) start stop st) s') s.
Proof.
  intros Hr Hcll Hst. destruct (obj_eq Hr) as (ob & Hob & Hk & Hlen & Hhd & _).
  unfold ll_getitem. wget_obj Hob. apply wp_bind.
  eapply wp_intro.
  { unfold check_index. erewrite bind_ok by (by apply get_obj_ok). done. }
  cbn [default from_option id]. rewrite (proj2 (Z.eqb_neq st 0)) by lia. rewrite Hk, Hlen.
  apply wp_bind. eapply wp_mono; [apply create_instance_spec|].
  intros c s1 (-> & Hr1 & Hm1 & Hl1 & Hn1). cbn beta.
  destruct (slice_pick (vals g) start stop st Hst) as [Hp Hle]. rewrite map_length in Hp, Hle.
  assert (rep k s1 o g) as Hr'.
  { eapply rep_frame; [exact Hr|exact Hm1|set_solver|set_solver]. }
  destruct (decide (g = [])) as [->|Hne].
  { cbn [length] in *. assert (Z.to_nat (List.last (slice_indices 0 start stop st) (-1)%Z + 1) = 0) as H0 by lia.
    rewrite H0. cbn [slice_loop]. apply wp_bind, wp_ret, wp_ret. eexists. split; [done|].
    rewrite H0 in Hp. assert (slice_pos (vals ([] : list gn)) start stop st = []) as -> by (symmetry; exact Hp).
    eapply created_from_appended; [done|done|done|]. by apply appended_refl. }
  rewrite Hhd, <- (endp_hd k) by done. apply wp_bind.
  eapply wp_mono.
  { eapply (slice_loop_spec k _ _ _ _ _ g s1 []); [by eapply rep_seg|exact Hle|done|by left|set_solver|by eapply rep_stored_list]. }
  intros ? s2 Ha. apply wp_ret. eexists. split; [done|]. rewrite <- Hp.
  by eapply created_from_appended.
Qed.

(** ** split, rotate, extend *)
Lemma split_ok k s o g i : rep (kc k) s o g -> bad_index k (length g) i = None ->
  let z := match k with Circular => (the_int i mod Z.of_nat (length g))%Z | _ => the_int i end in
  wp (ListModel.split o (ix i)) (fun r s' => created2 (kc k) s (fst r) (snd r)
      (take (Z.to_nat z) (vals g)) (drop (Z.to_nat z) (vals g)) s') s.
Proof.
  intros Hr Hb. destruct (obj_eq Hr) as (ob & Hob & Hk & Hlen & Hhd & _).
  pose proof (check_index_ok k s o g i Hr) as Hc. rewrite Hb in Hc.
  destruct (bad_index_none _ _ _ Hb) as (z & -> & Hz0 & Hz1). cbn [the_int mix] in *.
  unfold ListModel.split. wget_obj Hob. apply wp_bind. eapply wp_intro; [exact Hc|].
  rewrite Hk, Hlen. destruct k; cbn [mcls is_cll].
  - apply split_at_spec; [done|]. specialize (Hz1 ltac:(done)). lia.
  - apply split_at_spec; [done|]. specialize (Hz1 ltac:(done)). lia.
  - destruct (Nat.eqb_spec (length g) 0) as [H0|H0].
    + apply nil_length_inv in H0 as ->. cbn [map length]. rewrite take_nil, drop_nil.
      eapply wp_mono; [apply split_at_spec; [done|cbn; lia]|]. done.
    + apply split_at_spec; [done|]. pose proof (Z.mod_pos_bound z (Z.of_nat (length g))). lia.
Qed.
Lemma split_exc k s o g i e : rep (kc k) s o g -> bad_index k (length g) i = Some e ->
  ListModel.split o (ix i) s = Exc e s.
Proof.
  intros Hr Hb. destruct (obj_eq Hr) as (ob & Hob & _).
  pose proof (check_index_ok k s o g i Hr) as Hc. rewrite Hb in Hc.
  unfold ListModel.split. erewrite bind_ok by (by apply get_obj_ok). by erewrite bind_exc by exact Hc.
Qed.

(** extend, uniformly: the receiver gets both; only the receiver's and (unless
    circular) the argument's cells are written. *)
Lemma extend_any k s o o' g1 g2 :
  rep (kc k) s o g1 -> rep (kc k) s o' g2 -> o <> o' ->
  (forall l, l ∈ locs g1 -> l ∉ locs g2) ->
  wp (extend o o') (fun _ s' => exists g', rep (kc k) s' o g' /\ vals g' = vals g1 ++ vals g2
     /\ modifies (locs g1 ++ (if is_cll (kc k) then [] else locs g2)) [o] s s'
     /\ (forall l, l ∈ locs g' -> l ∈ locs g1 \/ l ∈ (if is_cll (kc k) then [] else locs g2)
             \/ length (s_nodes s) <= l)) s.
Proof.
  intros Hr1 Hr2 Hne Hdis. destruct (is_cll (kc k)) eqn:Hcll.
  - destruct k; try done. cbn [mcls] in *. eapply wp_mono; [by apply cll_extend_spec|].
    intros ? s' (gd' & Hr & Hv & Hm & Hfr & _). exists (g1 ++ gd'). split_and!; [done| | |].
    + by rewrite map_app, Hv.
    + by rewrite app_nil_r.
    + intros l. rewrite map_app. intros [?|?]%elem_of_app; auto.
  - eapply wp_mono; [by apply extend_spec|]. intros ? s' [Hr Hm].
    exists (g1 ++ g2). split_and!; [done| |done|].
    + by rewrite map_app.
    + intros l. rewrite map_app. intros [?|?]%elem_of_app; auto.
Qed.

Lemma rotate_spec k s o g d right : rep (kc k) s o g -> (0 <= d)%Z ->
  wp (rotate o d right) (fun r s' => created (kc k) s r (rotated (vals g) d right) s') s.
Proof.
  intros Hr Hd. destruct (obj_eq Hr) as (ob & Hob & Hk & Hlen & Hhd & _).
  destruct (rotated_calibrate (vals g) d right Hd) as [Hrot Hcal]. rewrite map_length in Hrot, Hcal.
  unfold rotate. wget_obj Hob. rewrite Hlen. set (c := calibrate (length g) d right) in *.
  apply wp_bind. eapply wp_mono.
  { apply (split_ok k s o g (AInt c)); [done|]. cbn. rewrite bool_decide_eq_false_2 by lia.
    destruct k; [rewrite bool_decide_eq_false_2 by lia; done..|done]. }
  intros [o1 o2] s1 (g1 & g2 & Hr1 & Hv1 & Hr2 & Hv2 & Ho1 & Ho2 & Hne & Hl1 & Hl2 & Hdis & Hm).
  cbn [fst snd the_int] in *. apply wp_bind.
  eapply wp_mono; [eapply (extend_any k s1 o2 o1 g2 g1); [done|done|done|]|].
  { intros l Hx Hy. by eapply Hdis. }
  intros ? s2 (g' & Hr' & Hv' & Hm' & Hfr). apply wp_ret. exists g'. split_and!; [done| |done| |].
  - rewrite Hv', Hv1, Hv2, Hrot. destruct k; [done|done|].
    pose proof (split_mod_same (vals g) c) as Hsm. rewrite map_length in Hsm.
    specialize (Hsm Hcal). cbn zeta in Hsm. destruct (Nat.eqb_spec (length g) 0) as [H0|H0].
    + apply nil_length_inv in H0 as ->. cbn [map]. by rewrite !drop_nil, !take_nil.
    + done.
  - pose proof (mod_nlen _ _ _ _ Hm). intros l Hl. destruct (Hfr _ Hl) as [?|[Hx|?]]; [by apply Hl2| |lia].
    destruct (is_cll (kc k)); [set_solver|by apply Hl1].
  - eapply modifies_trans; [exact Hm|exact Hm'|set_solver|set_solver| |].
    + intros l [Hx|Hx]%elem_of_app; right; [by apply Hl2|].
      destruct (is_cll (kc k)); [set_solver|by apply Hl1].
    + intros l ->%elem_of_list_singleton. by right.
Qed.

Definition rot_out (vs : list pyval) (d : option Z) (right : bool) : exn + list pyval :=
  match d with
  | None => inl TypeError
  | Some z => if bool_decide (z < 0)%Z then inl ValueError else inr (rotated vs z right)
  end.

Lemma check_distance_ok d s : check_distance d s =
  match d with None => Exc TypeError s
  | Some z => if bool_decide (z < 0)%Z then Exc ValueError s else Ok z s end.
Proof.
  destruct d as [z|]; [|done]. cbn. case_bool_decide; [by rewrite (proj2 (Z.ltb_lt _ _))|].
  by rewrite (proj2 (Z.ltb_ge _ _)) by lia.
Qed.

Lemma rotate_new_full k s o g d right : rep (kc k) s o g ->
  match rot_out (vals g) d right with
  | inl e => rotate_new o d right s = Exc e s
  | inr vs => wp (rotate_new o d right) (fun r s' => created (kc k) s r vs s') s
  end.
Proof.
  intros Hr. pose proof (check_distance_ok d s) as Hc. unfold rot_out, rotate_new.
  destruct d as [z|]; [|by erewrite bind_exc by exact Hc]. case_bool_decide as Hz.
  - by erewrite bind_exc by exact Hc.
  - apply wp_bind. eapply wp_intro; [exact Hc|]. apply rotate_spec; [done|lia].
Qed.

Lemma rotated_length vs d right : length (rotated vs d right) = length vs.
Proof.
  unfold rotated. induction (Z.to_nat d) as [|n IH]; [done|]. cbn [Nat.iter nat_rect].
  destruct right.
  - unfold rot1_right at 1. rewrite reverse_length, rot1_left_length, reverse_length. exact IH.
  - rewrite rot1_left_length. exact IH.
Qed.

Lemma rotate_inplace_full k s o g d right : rep (kc k) s o g ->
  step_spec (rotate_inplace o d right) (kc k) s o g (rot_out (vals g) d right).
Proof.
  intros Hr. pose proof (check_distance_ok d s) as Hc. unfold rot_out, rotate_inplace, step_spec.
  destruct d as [z|]; [|by erewrite bind_exc by exact Hc]. case_bool_decide as Hz.
  { by erewrite bind_exc by exact Hc. }
  apply wp_bind. eapply wp_intro; [exact Hc|]. apply wp_bind.
  eapply wp_mono; [apply rotate_spec; [exact Hr|lia]|].
  intros r s1 (g1 & Hr1 & Hv1 & Ho1 & Hl1 & Hm1). cbn beta.
  assert (rep (kc k) s1 o g) as Hr'.
  { eapply rep_frame; [exact Hr|exact Hm1|set_solver|set_solver]. }
  destruct (obj_eq Hr1) as (rb & Hrb & Hkr & Hlenr & Hhdr & Htlr).
  destruct (obj_eq Hr') as (ob & Hob & Hk & Hlen & Hhd & Htl).
  apply wp_bind. eapply wp_get_obj; [exact Hrb|]. apply wp_bind. eapply wp_get_obj; [exact Hob|].
  apply wp_put_obj.
  assert (length g1 = length g) as Hlg.
  { rewrite <- (map_length g_val g1), Hv1, rotated_length. by rewrite map_length. }
  exists g1. split_and!; [|done| |].
  - split; [|exact (rep_seg _ _ _ _ Hr1)|exact (rep_nodup _ _ _ _ Hr1)|exact (rep_stored _ _ _ _ Hr1)]. cbn.
    rewrite Hk. destruct (is_dll (kc k)) eqn:Hd.
    + exists (o_head rb), (o_tail rb). split_and!; [|done|done].
      erewrite set_obj_lookup by exact Hob. unfold set_head, set_tail. cbn. by rewrite Hk, Hlen, Hlg.
    + exists (o_head rb), (o_tail ob). split_and!; [|done|].
      * erewrite set_obj_lookup by exact Hob. unfold set_head. by rewrite Hk, Hlen, Hlg.
      * intros HC. by rewrite HC in Hd.
  - eapply modifies_trans; [exact Hm1|apply (put_obj_modifies []); done|set_solver|set_solver|set_solver|set_solver].
  - intros l Hl. right. by apply Hl1.
Qed.
