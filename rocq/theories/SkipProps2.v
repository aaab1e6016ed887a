(** * -inf in a SkipList, exactly (C18)

    Specification: [keeps_sentinel], [nanswers] and [nafter] below, over SkipSpec.v.
    Model: SkipModel.v.  Proofs about the other calls: SkipThm.v, SkipThm2.v, SkipThm3.v. *)
From Coq Require Import Sorted.
From Verif Require Import Base NumOrd ListModel ListRep ListSpec ListPure ListCore ListCore2 ListOps ListOps2 ListOps3 SkipModel SkipSpec SkipThm SkipThm2 SkipThm3.

(** ** What a SkipList does with -inf
    It answers as if -inf were in every list, without counting it or listing it. *)
Definition keeps_sentinel (o : skop) : Prop := match o with KRemove v => v <> PNum NegInf | _ => True end.
Definition nanswer (o : skop) (A : towers) : skout :=
  match o with
  | KContains (PNum NegInf) => KBool true
  | _ => tanswer o A
  end.
Definition nnext (o : skop) (A : towers) : towers :=
  match o with
  | KInsert (PNum NegInf) _ => A
  | _ => tnext o A
  end.
Fixpoint nanswers (os : list skop) (A : towers) : list skout :=
  match os with [] => [] | o :: os' => nanswer o A :: nanswers os' (nnext o A) end.
Fixpoint nafter (os : list skop) (A : towers) : towers :=
  match os with [] => A | o :: os' => nafter os' (nnext o A) end.

(** ** Proofs *)
Lemma avoids_dec o : avoids_neg_inf o \/ (exists h, o = KInsert (PNum NegInf) h) \/ o = KRemove (PNum NegInf) \/ o = KContains (PNum NegInf).
Proof.
  destruct o as [v h|v|v|i|i| | | | |]; cbn; try (by left); destruct (decide (v = PNum NegInf)) as [->|]; try (by left); right; eauto.
Qed.
Lemma nanswer_avoids o A : avoids_neg_inf o -> nanswer o A = tanswer o A /\ nnext o A = tnext o A.
Proof. destruct o as [v h|v|v|i|i| | | | |]; cbn; try done; destruct v as [|[]| | | |]; done. Qed.
Lemma step_exact self ks A o : Good self ks A -> keeps_sentinel o -> exists ks', kcall self o ks = Some (nanswer o A, ks') /\ Good self ks' (nnext o A).
Proof.
  intros H Ho. destruct (avoids_dec o) as [Ha|[(h & ->)|[->| ->]]]; [|exists ks|done|exists ks].
  - destruct (nanswer_avoids _ A Ha) as [-> ->]. by apply step_ok.
  - unfold kcall. cbn [kexec]. rewrite (bind_ok _ _ _ _ _ (neg_insert _ _ _ h H)). done.
  - unfold kcall. cbn [kexec]. rewrite (bind_ok _ _ _ _ _ (neg_contains _ _ _ H)). done.
Qed.
Lemma calls_exact self : forall os ks A, Good self ks A -> Forall keeps_sentinel os -> exists ks', kcalls (map (pair self) os) ks = Some (nanswers os A, ks') /\ Good self ks' (nafter os A).
Proof.
  induction os as [|o os IH]; intros ks A H Ho; [by exists ks|]. apply Forall_cons in Ho as [Ho Hos]. destruct (step_exact _ _ _ _ H Ho) as (ks1 & E & H1).
  destruct (IH _ _ H1 Hos) as (ks2 & E2 & H2). exists ks2. cbn [map kcalls fst snd]. by rewrite E, E2.
Qed.

(** *** remove(-inf) *)
Lemma remove_head s o n g : rep CLL s o (n :: g) -> exists s' g', remove_node o None (g_loc n) s = Ok tt s' /\ rep CLL s' o g' /\ vals g' = vals g /\
  modifies (locs (n :: g)) [o] s s' /\ get_down (g_loc n) s' = Ok (g_dn n) s'.
Proof.
  intros Hr. destruct (wp_elim _ _ _ (remove_node_spec _ _ _ [] _ _ Hr)) as (u & s' & E & Hr' & Hm & Hl & _). destruct u. cbn [last_loc last] in E. exists s', (rem_ghost CLL [] n g).
  split; [exact E|]. split; [exact Hr'|]. destruct g as [|m r]; cbn in Hr' |- *.
  - split_and!; [done|exact Hm|]. destruct (obj_eq Hr) as (ob & Hob & Hk & Hlen & Hhd & _). pose proof (rep_seg _ _ _ _ Hr) as [(c & Hc & Hd & Hdat & Hpri & Hdn & Hnx & Hpv) _].
    unfold remove_node in E. erewrite bind_ok in E by (by apply get_obj_ok). rewrite Hk in E. unfold ll_remove_node in E. erewrite bind_ok in E by (by apply get_obj_ok).
    assert (get_next (g_loc n) s = Ok (c_next c) s) as En. { unfold get_next, bind. by rewrite (get_cell_ok _ _ _ Hc). }
    rewrite (bind_ok _ _ _ _ _ En) in E. rewrite Hlen in E. cbn [length Nat.eqb] in E. rewrite Hhd in E by done. cbn [hd_loc deref] in E.
    unfold set_data_raw, bind, ret in E. rewrite (get_cell_ok _ _ _ Hc) in E. cbn in E. unfold get_obj in E. cbn in E. destruct (s_objs s !! o); [|done]. cbn in E. injection E as <-.
    unfold get_down, bind, get_cell. cbn. rewrite list_lookup_insert by (by eapply lookup_lt_Some). cbn. by rewrite Hdn.
  - split_and!; [done|exact Hm|]. eapply (get_down_in _ _ _ (GN (g_loc n) (g_val m) (g_pri n) (g_dn n))); [exact Hr'|left].
Qed.

(** The levels below [k] are as they were. *)
Record Low (self : nat) (ks : kst) (os : list nat) (G : list (list gn)) (k : nat) : Prop := MkLow {
  w_sl : exists r N L, k_sls ks !! self = Some (r, N) /\ k_lls ks !! r = Some L /\ k <= N /\ take k L = take k os;
  w_rep : forall j o g, j < k -> os !! j = Some o -> G !! j = Some g -> rep CLL (k_st ks) o g }.
Lemma take_lookup_eq {T} (L os : list T) k j : take k L = take k os -> j < k -> L !! j = os !! j.
Proof. intros E Hj. rewrite <- (lookup_take L k), <- (lookup_take os k) by done. by rewrite E. Qed.
Lemma heads_down s os G A j g g' n m t t' : Rep s os G A -> G !! S j = Some g -> G !! j = Some g' -> g = n :: t -> g' = m :: t' -> g_dn n = Some (g_loc m).
Proof.
  intros HR Hg Hg' -> ->. pose proof (r_down _ _ _ _ HR _ _ Hg) as HD. cbn in HD. specialize (HD _ Hg'). apply Forall_cons in HD as [(m' & Hin & Hv & ->) _].
  destruct (lookup_lt_is_Some_2 os (S j)) as [o Ho]; [rewrite (r_len _ _ _ _ HR); by eapply lookup_lt_Some|].
  destruct (lookup_lt_is_Some_2 os j) as [o' Ho']; [rewrite (r_len _ _ _ _ HR); by eapply lookup_lt_Some|].
  destruct (r_rep _ _ _ _ HR _ _ _ Ho Hg) as [_ V]. destruct (r_rep _ _ _ _ HR _ _ _ Ho' Hg') as [_ V']. cbn in V, V'. injection V as V _. injection V' as V' Vt.
  apply elem_of_cons in Hin as [->|Hin]; [done|]. exfalso. rewrite V in Hv.
  assert (PNum NegInf ∈ vals t') as Hneg. { rewrite <- Hv. by apply elem_of_list_fmap_1. }
  rewrite Vt in Hneg. apply elem_of_list_fmap in Hneg as (y & [= <-] & (h & Hy & _)%up_in). pose proof (r_neg _ _ _ _ HR) as HN. rewrite Forall_forall in HN. by apply (HN _ Hy).
Qed.
(** The state in which remove(-inf) leaves the bottom level. *)
Definition beheaded (self : nat) (ks : kst) (A : towers) : Prop :=
  exists o g, level_list self 0 ks = Ok o ks /\ rep CLL (k_st ks) o g /\ vals g = map PNum (elems A).
Lemma behead_loop self s0 os G A : Rep s0 os G A -> forall k ks n t, k < length G -> Low self ks os G (S k) -> G !! k = Some (n :: t) ->
  exists ks', remove_loop self (S k) None (Some (g_loc n)) ks = Ok tt ks' /\ beheaded self ks' A.
Proof.
  intros HR. induction k as [|k IH]; intros ks n t Hk HL Hg; destruct HL as [(r & N & L & Hs & Hl & HN & HT) HP]; destruct (Rep_level _ _ _ _ _ HR Hk) as (o & g0 & Ho & Hg0 & _ & Hv);
    rewrite Hg in Hg0; injection Hg0 as <-; cbn in Hv; injection Hv as Hvn Hvt.
  - pose proof (HP 0 o _ ltac:(lia) Ho Hg) as Hr. destruct (remove_head _ _ _ _ Hr) as (s1 & g1 & E1 & Hr1 & Hv1 & Hm1 & Hd1).
    assert (level_list self 0 ks = Ok o ks) as El. { unfold level_list, bind, get_sl. rewrite Hs. cbn. unfold get_lls. by rewrite Hl, (take_lookup_eq L os 1 0), Ho by (done || lia). }
    cbn [remove_loop]. rewrite (bind_ok _ _ _ _ _ El). erewrite (bind_ok (ret _)) by done. rewrite (bind_ok _ _ _ _ _ (lift_ok _ _ _ _ E1)).
    erewrite (bind_ok (lift (ll_len o))); [|apply lift_ok0; cbn; eapply ll_len_ok; exact Hr1]. cbn [Nat.eqb negb andb]. erewrite (bind_ok (ret tt)) by done.
    erewrite (bind_ok (lift (get_down _))); [|apply lift_ok0; cbn; exact Hd1]. erewrite (bind_ok (ret None)) by done. eexists. split; [reflexivity|].
    exists o, g1. split_and!; [|exact Hr1|by rewrite Hv1, Hvt, up_zero]. unfold level_list, bind, get_sl in El |- *. cbn. rewrite Hs in El |- *. cbn in El |- *. unfold get_lls in El |- *. cbn. rewrite Hl in El |- *. by destruct (L !! 0); [injection El as ->|].
  - pose proof (HP (S k) o _ ltac:(lia) Ho Hg) as Hr. destruct (remove_head _ _ _ _ Hr) as (s1 & g1 & E1 & Hr1 & Hv1 & Hm1 & Hd1).
    assert (level_list self (S k) ks = Ok o ks) as El. { unfold level_list, bind, get_sl. rewrite Hs. cbn. unfold get_lls. by rewrite Hl, (take_lookup_eq L os (S (S k)) (S k)), Ho by (done || lia). }
    destruct (Rep_level _ _ _ _ k HR ltac:(lia)) as (o' & g' & Ho' & Hg' & _ & Hv'). destruct g' as [|m t']; [done|].
    pose proof (heads_down _ _ _ _ _ _ _ _ _ _ _ HR Hg Hg' eq_refl eq_refl) as Hdn.
    remember (S k) as k1 eqn:Ek1. cbn [remove_loop]. rewrite (bind_ok _ _ _ _ _ El). erewrite (bind_ok (ret _)) by done. rewrite (bind_ok _ _ _ _ _ (lift_ok _ _ _ _ E1)).
    erewrite (bind_ok (lift (ll_len o))); [|apply lift_ok0; cbn; eapply ll_len_ok; exact Hr1].
    assert (forall j o2 g2, j < k1 -> os !! j = Some o2 -> G !! j = Some g2 -> rep CLL s1 o2 g2) as HP1.
    { intros j o2 g2 Hj Ho2 Hg2. eapply rep_frame; [apply (HP j); [lia|done|done]|exact Hm1| |].
      - intros ->%elem_of_list_singleton. pose proof (NoDup_lookup _ _ _ _ (r_os _ _ _ _ HR) Ho2 Ho). lia.
      - intros l Hl2 Hl1. pose proof (r_disj _ _ _ _ HR _ _ _ _ _ Hg2 Hg Hl2 Hl1). lia. }
    assert (exists ks1, (if negb (Nat.eqb k1 0) && Nat.eqb (length g1) 1 then remove_level self k1 else ret tt) (KSt s1 (k_lls ks) (k_sls ks)) = Ok tt ks1 /\ k_st ks1 = s1 /\ Low self ks1 os G k1) as (ks1 & E2 & Hst & HL1).
    { destruct (negb (Nat.eqb k1 0) && Nat.eqb (length g1) 1).
      - unfold remove_level. unfold get_sl at 1. unfold bind at 1. cbn [k_sls]. rewrite Hs. cbn [fst snd].
        rewrite (proj2 (Nat.leb_le 1 k1)) by lia. rewrite (proj2 (Nat.ltb_lt k1 N)) by lia. cbn [andb py_assert]. unfold bind at 1, ret at 1.
        unfold get_lls at 1. unfold bind at 1. cbn [k_lls]. rewrite Hl. unfold put_lls, put_sl, bind. cbn. eexists. split; [reflexivity|]. split; [done|]. split; cbn; [|exact HP1].
        eexists r, (N - 1), _. split; [by rewrite list_lookup_insert by (by eapply lookup_lt_Some)|]. split; [by rewrite list_lookup_insert by (by eapply lookup_lt_Some)|]. split; [lia|].
        assert (k1 < length L) as HLl. { eapply lookup_lt_Some. rewrite (take_lookup_eq L os (S k1) k1); [exact Ho|done|lia]. }
        rewrite take_app_le by (rewrite take_length; lia). rewrite take_take, Nat.min_id. apply (f_equal (take k1)) in HT. rewrite !take_take in HT. by replace (k1 `min` S k1) with k1 in HT by lia.
      - eexists. split; [reflexivity|]. split; [done|]. split; cbn; [|exact HP1]. exists r, N, L. split_and!; try done; [lia|].
        apply (f_equal (take k1)) in HT. rewrite !take_take in HT. by replace (k1 `min` S k1) with k1 in HT by lia. }
    rewrite (bind_ok _ _ _ _ _ E2). erewrite (bind_ok (lift (get_down _))); [|apply lift_ok0; rewrite Hst; exact Hd1]. rewrite Hdn. erewrite (bind_ok (ret None)) by done.
    subst k1. destruct (IH ks1 m t' ltac:(lia) HL1 Hg') as (ks' & E & HB). exists ks'. split; [exact E|done].
Qed.
Lemma search_neg_top self ks r os G A : Inv self ks r os G A -> exists n t, G !! (length G - 1) = Some (n :: t) /\ g_val n = PNum NegInf /\ search self (PNum NegInf) ks = Ok (None, g_loc n, []) ks.
Proof.
  intros H. pose proof (i_rep _ _ _ _ _ _ H) as HR. destruct (Rep_level _ _ _ _ (length G - 1) HR) as (o & g & Ho & Hg & Hr & Hv); [pose proof (r_pos _ _ _ _ HR); lia|].
  destruct g as [|n g]; [done|]. cbn in Hv. injection Hv as Hn Hv. exists n, g. split; [done|]. split; [done|].
  unfold search. rewrite (bind_ok _ _ _ _ _ (num_levels_ok _ _ _ _ _ _ H)). rewrite (bind_ok _ _ _ _ _ (level_list_ok _ _ _ _ _ _ _ _ H Ho)).
  destruct (head_ok _ _ _ Hr) as (ob & Hob & Hh); [done|]. apply lift_ok0. rewrite (bind_ok _ _ _ _ _ Hob), Hh. cbn [hd_loc deref]. erewrite (bind_ok (ret _)) by done.
  unfold get_fuel at 1, bind at 1. cbn [search_loop]. unfold get_fuel at 1, bind at 1. erewrite bind_ok; [|eapply get_down_in; [exact Hr|left]].
  assert (search_sorted (S (length (s_nodes (k_st ks)))) None (g_loc n) (PNum NegInf) (k_st ks) = Ok (None, g_loc n) (k_st ks)) as Es.
  { erewrite (search_sorted_ok _ _ _ g [] [] n); [done|exact Hr|constructor| |cbn; lia]. eapply bound_head; [exact Hv|]. intros y (h & Hin & _)%up_in.
    pose proof (r_neg _ _ _ _ HR) as HN. rewrite Forall_forall in HN. apply neg_nlt. apply (HN _ Hin). }
  pose proof (r_down _ _ _ _ HR _ _ Hg) as HD. destruct (length G - 1) as [|j] eqn:EG.
  - cbn in HD. apply Forall_cons in HD as [-> _]. rewrite (bind_ok _ _ _ _ _ Es). cbn [length fst snd]. done.
  - destruct (lookup_lt_is_Some_2 G j) as [g' Hg']; [lia|]. specialize (HD _ Hg'). apply Forall_cons in HD as [(m & _ & _ & ->) _]. rewrite (bind_ok _ _ _ _ _ Es). cbn [fst snd].
    erewrite bind_ok; [|eapply get_data_in; [exact Hr|left]]. rewrite Hn. done.
Qed.
Lemma remove_neg self ks A : Good self ks A -> exists ks', sl_remove self (PNum NegInf) ks = Ok tt ks' /\ beheaded self ks' A.
Proof.
  intros (r & os & G & H & Hl). pose proof (i_rep _ _ _ _ _ _ H) as HR. pose proof (r_pos _ _ _ _ HR) as Hpos. destruct (search_neg_top _ _ _ _ _ _ H) as (n & t & Hg & Hn & E).
  destruct (lookup_lt_is_Some_2 os (length G - 1)) as [o Ho]; [rewrite (r_len _ _ _ _ HR); lia|]. destruct (r_rep _ _ _ _ HR _ _ _ Ho Hg) as [Hr _].
  unfold sl_remove. rewrite (bind_ok _ _ _ _ _ E). cbn [fst snd]. erewrite (bind_ok (lift _)); [|eapply lift_ok0, get_data_in; [exact Hr|left]]. rewrite Hn, py_eq_num, bool_decide_eq_true_2 by done.
  rewrite (bind_ok _ _ _ _ _ (num_levels_ok _ _ _ _ _ _ H)). cbn [length]. replace (length G - 0) with (S (length G - 1)) by lia.
  apply (behead_loop self _ _ _ _ HR _ ks n t); [lia| |done]. split.
  - exists r, (length G), os. split_and!; [apply H|apply H|lia|done].
  - intros j o2 g2 _ Ho2 Hg2. by destruct (r_rep _ _ _ _ HR _ _ _ Ho2 Hg2).
Qed.
Lemma beheaded_answers self ks A q : beheaded self ks A -> q = KLen \/ q = KIsEmpty \/ q = KToList -> exists ks', kcall self q ks = Some (tanswer q (tail A), ks').
Proof.
  intros (o & g & El & Hr & Hv) Hq. assert (length g = length A) as Hlen. { apply (f_equal length) in Hv. unfold elems in Hv. by rewrite !map_length in Hv. }
  assert (sl_len self ks = Ok (length (tail A)) ks) as En.
  { unfold sl_len. rewrite (bind_ok _ _ _ _ _ El). erewrite bind_ok by (eapply lift_ok0, ll_len_ok; exact Hr). unfold ret. f_equal. rewrite Hlen. destruct A; cbn; lia. }
  unfold kcall. destruct Hq as [->|[->| ->]]; cbn [kexec tanswer].
  - rewrite (bind_ok _ _ _ _ _ En). by exists ks.
  - rewrite (bind_ok _ _ _ _ _ En). exists ks. destruct (tail A); [by rewrite bool_decide_eq_true_2|by rewrite bool_decide_eq_false_2].
  - unfold sl_to_list, bind at 1. rewrite (bind_ok _ _ _ _ _ El).
    destruct (wp_elim _ _ _ (slice_spec _ _ _ _ (Some 1%Z) None 1 Hr eq_refl ltac:(lia))) as (rr & s1 & E & c & -> & gc & Hrc & Hvc & _ & _ & Hmod).
    assert (getitem o (ISlice (Some 1%Z) None None) (k_st ks) = Ok (GList c) s1) as E1 by by rewrite (getitem_cll _ _ _ _ Hr).
    rewrite (bind_ok _ _ _ _ _ (lift_ok _ _ _ _ E1)). erewrite lift_ok0; [|cbn; by eapply to_list_ok]. rewrite Hvc, Hv. eexists. unfold ret. do 3 f_equal.
    destruct A as [|p A]; [done|]. cbn [elems map tail]. apply slice_tail.
Qed.
Lemma history_exact os : Forall keeps_sentinel os -> exists s, khistory os = Some (nanswers os [], s) /\ Good 0 s (nafter os []).
Proof. intros Ho. destruct new_ok as (s & E & H). unfold khistory. rewrite E. by apply calls_exact. Qed.

(** ** The theorems *)
(** Every history that never removes -inf, -inf inserted and looked up at will, whatever the
    coins: contains(-inf) is True from the start, insert(-inf) changes nothing, and all the
    other answers are those of the set of the other numbers. *)
Theorem C18_exact os : Forall keeps_sentinel os -> exists s, khistory os = Some (nanswers os [], s).
Proof. intros H. destruct (history_exact os H) as (s & E & _). by exists s. Qed.
Print Assumptions C18_exact.
(** So such a history is that of a set exactly when no answer tells them apart. *)
Theorem C18_set_iff os : Forall keeps_sentinel os -> (behaves_as_sorted_set os <-> nanswers os [] = tanswers os []).
Proof.
  intros H. destruct (history_exact os H) as (s & E & _). unfold behaves_as_sorted_set. rewrite E. split.
  - intros (s' & E'). by injection E' as -> _.
  - intros <-. by exists s.
Qed.
Print Assumptions C18_set_iff.
(** The first remove(-inf), in any list, returns as usual; after it the list counts and lists
    itself without its smallest number, whichever that is. *)
Theorem C18_remove_takes_smallest os q : Forall keeps_sentinel os -> q = KLen \/ q = KIsEmpty \/ q = KToList ->
  exists s, khistory (os ++ [KRemove (PNum NegInf); q]) = Some (nanswers os [] ++ [KUnit; tanswer q (tail (nafter os []))], s).
Proof.
  intros H Hq. destruct (history_exact os H) as (s & E & HG). destruct (remove_neg _ _ _ HG) as (s1 & E1 & HB). destruct (beheaded_answers _ _ _ q HB Hq) as (s2 & E2).
  exists s2. destruct new_ok as (s0 & E0 & _). unfold khistory in *. rewrite E0 in *. rewrite map_app, kcalls_app, E. cbn [map kcalls fst snd].
  assert (kcall 0 (KRemove (PNum NegInf)) s = Some (KUnit, s1)) as ->. { unfold kcall. cbn [kexec]. by rewrite (bind_ok _ _ _ _ _ E1). }
  by rewrite E2.
Qed.
Print Assumptions C18_remove_takes_smallest.
Definition C18_ops : list skop :=
  [KContains (PNum NegInf); KInsert (PInt 5) 2; KInsert (PNum NegInf) 3; KLen; KInsert (PInt 1) 0; KInsert (PNum PosInf) 1; KToList; KContains (PNum NegInf)].
Example C18_exact_example : Forall keeps_sentinel C18_ops /\
  nanswers C18_ops [] = [KBool true; KUnit; KUnit; KNat 1; KUnit; KUnit; KVals [PInt 1; PInt 5; PNum PosInf]; KBool true] /\
  elems (tail (nafter C18_ops [])) = [Fin 5; PosInf] /\ ~ behaves_as_sorted_set C18_ops.
Proof. split_and!; [repeat constructor; done|done|done|]. rewrite C18_set_iff by (repeat constructor; done). by vm_compute. Qed.
Example C18_set_example : behaves_as_sorted_set [KInsert (PNum NegInf) 1; KContains (PNum NegInf); KInsert (PInt 2) 0; KContains (PInt 2)].
Proof. rewrite C18_set_iff by (repeat constructor; done). by vm_compute. Qed.
