(** * The calls that scan a linked list (C82): proofs *)
From Verif Require Import Base ListSpec ListRep ListCore ListCore2 ListOps ListOps2 ListModel WalkModel WalkSpec WalkThm WalkThm2 ScanModel ScanSpec.
Local Open Scope py_scope.

(** ** The counter changes nothing *)
Lemma co_iter_from : forall n c, counts (iter_from_c n c) (iter_from n c).
Proof. induction n; intros; cbn [iter_from_c iter_from]; cog. Qed.
#[local] Hint Resolve co_iter_from co_add_front : co.
Lemma co_to_list o : counts (to_list_c o) (to_list o).
Proof. unfold to_list_c, to_list. cog. Qed.
#[local] Hint Resolve co_to_list : co.
Lemma co_count o v : counts (count_c o v) (count o v).
Proof. unfold count_c, count. cog. Qed.
Lemma co_copy o : counts (copy_c o) (copy o).
Proof. unfold copy_c, copy. cog. Qed.
Lemma co_reverse_loop r : forall n c, counts (reverse_loop_c r n c) (reverse_loop r n c).
Proof. induction n; intros; cbn [reverse_loop_c reverse_loop]; cog. Qed.
#[local] Hint Resolve co_reverse_loop : co.
Lemma co_reverse o : counts (reverse_c o) (reverse o).
Proof. unfold reverse_c, reverse. cog. Qed.
Lemma co_remove_loop o v b : forall n f p c, counts (remove_value_loop_c o v b n f p c) (remove_value_loop o v b n f p c).
Proof. induction n; intros; cbn [remove_value_loop_c remove_value_loop]; cog. Qed.
#[local] Hint Resolve co_remove_loop : co.
Lemma co_remove o v b : counts (remove_c o v b) (remove o v b).
Proof. unfold remove_c, remove. cog. Qed.
Lemma co_search : forall n v c, counts (search_loop_c n v c) (search_loop n v c).
Proof. induction n; intros; cbn [search_loop_c search_loop]; cog. Qed.
#[local] Hint Resolve co_search : co.
Lemma co_ll_contains o v : counts (ll_contains_c o v) (ll_contains o v).
Proof. unfold ll_contains_c, ll_contains. cog. Qed.
Lemma co_compare_loop op : forall n c e p q, counts (compare_loop_c op n c e p q) (compare_loop op n c e p q).
Proof. induction n; intros; cbn [compare_loop_c compare_loop]; cog. Qed.
#[local] Hint Resolve co_compare_loop : co.
Lemma co_compare op o p : counts (compare_c op o p) (compare op o p).
Proof. unfold compare_c, compare. cog. Qed.
#[local] Hint Resolve co_compare : co.
Lemma co_relations o p : counts (list_eq_c o p) (list_eq o p) /\ counts (list_ne_c o p) (list_ne o p)
  /\ counts (list_lt_c o p) (list_lt o p) /\ counts (list_le_c o p) (list_le o p)
  /\ counts (list_gt_c o p) (list_gt o p) /\ counts (list_ge_c o p) (list_ge o p).
Proof.
  split_and!; unfold list_eq_c, list_eq, list_ne_c, list_ne, list_lt_c, list_lt, list_le_c, list_le, list_gt_c, list_gt, list_ge_c, list_ge; cog.
Qed.

(** ** Whole scans *)
Lemma tk_iter : forall n c s, takes s (iter_from_c n c) n.
Proof. induction n; intros; cbn [iter_from_c]; [apply tk_ret|]. apply tk_tick. do 3 (apply tk_lfb; intros). apply tk_bind0; [apply IHn|]. intros. apply tk_ret. Qed.
Lemma tk_to_list o s k n : a_list s o k n -> takes s (to_list_c o) n.
Proof. intros (ob & Hob & _ & Hn). unfold to_list_c. tobj Hob. apply tk_iter. Qed.
Lemma tk_count o v s k n : a_list s o k n -> takes s (count_c o v) n.
Proof. intros H. pose proof H as (ob & Hob & _ & Hn). unfold count_c. tobj Hob. apply tk_bind0; [by eapply tk_to_list|]. intros. apply tk_ret. Qed.
Lemma create_obj k s x s' o ob : create_instance k s = Ok x s' -> s_objs s !! o = Some ob -> s_objs s' !! o = Some ob.
Proof. unfold create_instance, alloc_obj. intros [= _ <-] H. cbn. by apply lookup_app_l_Some. Qed.
Lemma tk_copy o s k n : a_list s o k n -> takes s (copy_c o) n.
Proof.
  intros H. pose proof H as (ob & Hob & Hk & Hn). unfold copy_c. tobj Hob. apply tk_lfb. intros c s' Hc.
  destruct (Nat.eqb_spec (o_len ob) 0) as [E|E]; [rewrite E; apply tk_ret|].
  apply tk_bind0. { eapply tk_to_list. exists ob. split; [by eapply create_obj|done]. }
  intros. apply tk_lfb. intros. apply tk_ret.
Qed.
Lemma tk_front_0 o v s : takes s (add_front_c o v) 0.
Proof.
  unfold add_front_c. apply tk_lfb. intros. unfold insert_at_c. apply tk_end. apply tk_bind0; [|intros; apply tk_lf].
  unfold get_node_c, dll_get_node_c, ll_get_node_c. apply tk_lfb. intros ob ? _. destruct (o_cls ob); try (apply tk_lfb; intros; apply tk_get_node_loop).
  apply tk_lfb. intros. cbn [Nat.leb]. apply tk_lfb. intros. apply tk_get_node_loop.
Qed.
Lemma tk_reverse_loop r : forall n c s, takes s (reverse_loop_c r n c) n.
Proof.
  induction n; intros; cbn [reverse_loop_c]; [apply tk_ret|]. apply tk_tick. do 2 (apply tk_lfb; intros).
  change n with (0 + n) at 2. eapply tk_bind; [apply tk_front_0|]. intros. apply tk_lfb. intros. apply IHn.
Qed.
Lemma tk_reverse o s k n : a_list s o k n -> takes s (reverse_c o) n.
Proof. intros (ob & Hob & _ & Hn). unfold reverse_c. tobj Hob. apply tk_lfb. intros. apply tk_end, tk_reverse_loop. Qed.
Lemma tk_remove_loop o v : forall n f p c s, takes s (remove_value_loop_c o v true n f p c) n.
Proof.
  induction n; intros; cbn [remove_value_loop_c negb andb]; [apply tk_ret|]. apply tk_tick. do 2 (apply tk_lfb; intros).
  destruct (py_eq _ v); [|apply tk_lfb; intros; apply IHn].
  do 2 (apply tk_lfb; intros). change n with (0 + n) at 2. eapply tk_bind; [destruct p; [apply tk_lf|apply tk_ret]|]. intros. apply IHn.
Qed.
Lemma tk_remove o v s k n : a_list s o k n -> takes s (remove_c o v (Some true)) n.
Proof. intros (ob & Hob & _ & Hn). unfold remove_c. tsame. tobj Hob. apply tk_remove_loop. Qed.

(** ** Searches *)
Lemma data_ok s l c : s_nodes s !! l = Some c -> get_data l s = Ok (c_data c) s.
Proof. intros H. unfold get_data. by rewrite (bind_ok _ _ _ _ _ (get_cell_ok _ _ _ H)). Qed.
Lemma next_ok s l c : s_nodes s !! l = Some c -> get_next l s = Ok (c_next c) s.
Proof. intros H. unfold get_next. by rewrite (bind_ok _ _ _ _ _ (get_cell_ok _ _ _ H)). Qed.
Lemma tk_lfo {A B} (m : M st A) (f : A -> M cst B) s x n : m s = Ok x s -> takes s (f x) n -> takes s (let! y := lf m in f y) n.
Proof. intros E H. apply tk_lfb. rewrite E. by intros ? ? [= <- <-]. Qed.
Lemma tk_search s d v g : forall m pv fuel, lseg (s_nodes s) d pv (m :: g) None -> Forall (fun n => stored (g_val n)) (m :: g) ->
  length g < fuel -> takes s (search_loop_c fuel v (g_loc m)) (looked_at v (vals (m :: g))).
Proof.
  induction g as [|x g IH]; intros m pv fuel [(c & Hc & _ & Hd & _ & _ & Hn & _) Hs] Hst Hf; (destruct fuel as [|fuel]; [lia|]);
    cbn [search_loop_c vals map looked_at].
  - eapply tk_eq; [apply tk_tick, (tk_lfo _ _ _ _ _ (next_ok _ _ _ Hc)); rewrite Hn; apply tk_ret|]. by case_bool_decide.
  - apply Forall_cons in Hst as [Hm Hst].
    assert (forall n, takes s (let! d := lf (get_data (g_loc m)) in if py_eq d v then ret (g_loc m) else search_loop_c fuel v (g_loc x)) n ->
      takes s (tick;; let! nx := lf (get_next (g_loc m)) in match nx with None => ret (g_loc m) | Some x => let! d := lf (get_data (g_loc m)) in
         if py_eq d v then ret (g_loc m) else search_loop_c fuel v x end) (S n)) as H.
    { intros n H. apply tk_tick, (tk_lfo _ _ _ _ _ (next_ok _ _ _ Hc)). by rewrite Hn. }
    case_bool_decide as E; apply H; apply (tk_lfo _ _ _ _ _ (data_ok _ _ _ Hc)); rewrite Hd, py_eq_dec_stored by done.
    + rewrite bool_decide_eq_true_2 by done. apply tk_ret.
    + rewrite bool_decide_eq_false_2 by done. eapply IH; [done|done|cbn in Hf; lia].
Qed.
Lemma scan_steps s d v q g : forall pv p k, lseg (s_nodes s) d pv g q -> Forall (fun n => stored (g_val n)) g -> (g <> [] -> p = hd_loc g q) ->
  scan_c (length g) v p (s, k) = Ok (bool_decide (v ∈ vals g)) (s, k + looked_at v (vals g)).
Proof.
  induction g as [|m g IH]; intros pv p k Hs Hst Hp.
  { cbn. unfold ret. rewrite Nat.add_0_r. done. }
  destruct Hs as [(c & Hc & _ & Hd & _ & _ & Hn & _) Hs]. apply Forall_cons in Hst as [Hm Hst]. rewrite Hp by done. cbn [length scan_c hd_loc vals map looked_at].
  unfold bind, lf, tick, deref, ret. cbn [fst snd]. rewrite (data_ok _ _ _ Hc), Hd, py_eq_dec_stored by done.
  destruct (decide (g_val m = v)) as [E|E]; [rewrite !(bool_decide_eq_true_2 (g_val m = v)) by done|rewrite !(bool_decide_eq_false_2 (g_val m = v)) by done].
  - rewrite bool_decide_eq_true_2 by (rewrite E; left). do 2 f_equal. lia.
  - cbn [fst snd]. rewrite (next_ok _ _ _ Hc), Hn. rewrite (IH (Some (g_loc m)) _ (S k) Hs Hst ltac:(done)). f_equal; [|f_equal; lia].
    apply bool_decide_ext. unfold vals. cbn. rewrite elem_of_cons. naive_solver.
Qed.
Lemma tk_contains k s o g v : rep k s o g -> is_val v = true -> takes s (contains_c o v) (if bool_decide (v = PNone) && negb (is_cll k) then 0 else looked_at v (vals g)).
Proof.
  intros Hr Hv. destruct (obj_eq Hr) as (ob & Hob & Hk & Hlen & Hhd & _). unfold contains_c. tobj Hob.
  assert (is_cll (o_cls ob) = false -> takes s (ll_contains_c o v) (if bool_decide (v = PNone) then 0 else looked_at v (vals g))) as Hll.
  { intros Hc. unfold ll_contains_c. tobj Hob. destruct (decide (v = PNone)) as [->|Hnn]; [apply tk_ret|].
    rewrite bool_decide_eq_false_2 by done. assert (forall A (a b : A), match v with PNone => a | _ => b end = b) as -> by (by destruct v).
    rewrite Hlen. destruct g as [|m g]; [apply tk_ret|]. cbn [length Nat.eqb]. tsame. rewrite Hhd by done. cbn [hd_loc].
    change (looked_at v (vals (m :: g))) with (0 + looked_at v (vals (m :: g))). eapply tk_bind; [apply tk_ret|]. intros ? ? n1 n2 [= <- <- <-].
    apply (tk_lfo _ _ _ s); [done|]. apply tk_bind0.
    - pose proof (rep_seg _ _ _ _ Hr) as Hs. rewrite endp_noncll in Hs by done. eapply tk_search; [done|by eapply rep_stored|].
      assert (length (locs (m :: g)) <= length (s_nodes s)) as Hb. { apply nodup_bound; [by eapply rep_nodup|]. intros. by eapply rep_bound. }
      rewrite map_length in Hb. cbn in Hb. lia.
    - intros. apply tk_lfb. intros. apply tk_ret. }
  destruct (o_cls ob); cbn [is_cll negb] in *; rewrite ?andb_true_r, ?andb_false_r; [by apply Hll..|].
  rewrite Hlen. pose proof (rep_seg _ _ _ _ Hr) as Hs.
  split; intros n; (rewrite (scan_steps _ _ v _ _ _ _ n Hs (rep_stored _ _ _ _ Hr)); [cbn; lia|intros Hne; rewrite Hhd by done; by rewrite endp_hd]).
Qed.
(** The circular scan gives the answer of the model. *)
Lemma same_contains k s o g v n : rep k s o g -> is_val v = true ->
  match contains_c o v (s, n) with Ok a p => contains o v s = Ok a p.1 | _ => False end.
Proof.
  intros Hr Hv. pose proof (contains_ok k s o g v Hr Hv) as Hc. destruct (obj_eq Hr) as (ob & Hob & Hk & Hlen & Hhd & _).
  rewrite Hc. unfold contains_c, bind at 1, lf at 1. cbn [fst snd]. rewrite (get_obj_ok _ _ _ Hob).
  assert (is_cll k = false -> match ll_contains_c o v (s, n) with Ok a p => Ok (bool_decide (v ∈ vals g)) s = Ok a p.1 | _ => False end) as Hll.
  { intros Hnc. pose proof (co_ll_contains o v s n) as H. assert (ll_contains o v s = Ok (bool_decide (v ∈ vals g)) s) as E.
    { unfold contains in Hc. rewrite (bind_ok _ _ _ _ _ (get_obj_ok _ _ _ Hob)), Hk in Hc. by destruct k. }
    rewrite E in H. by destruct (ll_contains_c o v (s, n)). }
  rewrite Hk. destruct k; [by apply Hll..|]. rewrite Hlen. pose proof (rep_seg _ _ _ _ Hr) as Hs.
  rewrite (scan_steps _ _ v _ _ _ _ n Hs (rep_stored _ _ _ _ Hr)); [done|]. intros Hne; rewrite Hhd by done; by rewrite endp_hd.
Qed.
(** remove(v, all=False) *)
Lemma tk_remove1_loop s o v d q g : forall pv pr p, lseg (s_nodes s) d pv g q -> Forall (fun n => stored (g_val n)) g -> (g <> [] -> p = hd_loc g q) ->
  takes s (remove_value_loop_c o v false (length g) false pr p) (looked_at v (vals g)).
Proof.
  induction g as [|m g IH]; intros pv pr p Hs Hst Hp; [apply tk_ret|].
  destruct Hs as [(c & Hc & _ & Hd & _ & _ & Hn & _) Hs]. apply Forall_cons in Hst as [Hm Hst]. rewrite Hp by done.
  cbn [length remove_value_loop_c hd_loc vals map looked_at negb andb].
  case_bool_decide as E; apply tk_tick, (tk_lfo _ _ _ (g_loc m)); [done| |done|]; apply (tk_lfo _ _ _ _ _ (data_ok _ _ _ Hc)); rewrite Hd, py_eq_dec_stored by done.
  - rewrite bool_decide_eq_true_2 by done. do 2 (apply tk_lfb; intros).
    apply tk_bind0; [destruct pr; [apply tk_lf|apply tk_ret]|]. intros. destruct (length g); apply tk_ret.
  - rewrite bool_decide_eq_false_2 by done. apply (tk_lfo _ _ _ _ _ (next_ok _ _ _ Hc)). rewrite Hn. by eapply IH.
Qed.
Lemma tk_remove1 k s o g v : rep k s o g -> takes s (remove_c o v (Some false)) (looked_at v (vals g)).
Proof.
  intros Hr. destruct (obj_eq Hr) as (ob & Hob & Hk & Hlen & Hhd & _). unfold remove_c. tsame. tobj Hob. rewrite Hlen.
  eapply tk_remove1_loop; [by eapply rep_seg|by eapply rep_stored|]. intros Hne. rewrite Hhd by done. by rewrite endp_hd.
Qed.

(** ** Comparisons *)
Lemma tk_compare_loop op s d1 d2 q1 q2 : forall g1 g2 n c ae p1 p2 pv1 pv2,
  lseg (s_nodes s) d1 pv1 g1 q1 -> lseg (s_nodes s) d2 pv2 g2 q2 -> Forall (fun n => stored (g_val n)) g1 ->
  n = Nat.min (length g1) (length g2) ->
  (g1 <> [] -> p1 = hd_loc g1 q1) -> (g2 <> [] -> p2 = hd_loc g2 q2) ->
  takes s (compare_loop_c op n c ae p1 p2) (compared op (vals g1) (vals g2)).
Proof.
  induction g1 as [|m g1 IH]; intros g2 n c ae p1 p2 pv1 pv2 Hs1 Hs2 Hst -> Hp1 Hp2; [apply tk_ret|].
  destruct g2 as [|m2 g2]; [apply tk_ret|]. cbn [length Nat.min compare_loop_c vals map compared].
  rewrite Hp1, Hp2 by done. cbn [hd_loc].
  destruct Hs1 as [(c1 & Hc1 & _ & Hd1 & _ & _ & Hn1 & _) Hs1].
  destruct Hs2 as [(c2 & Hc2 & _ & Hd2 & _ & _ & Hn2 & _) Hs2]. apply Forall_cons in Hst as [Hm Hst].
  assert (forall x, takes s (let! na := lf (get_next (g_loc m)) in let! nb := lf (get_next (g_loc m2)) in compare_loop_c op (Nat.min (length g1) (length g2)) (S c) x na nb) (compared op (vals g1) (vals g2))) as Hrec.
  { intros x. apply (tk_lfo _ _ _ _ _ (next_ok _ _ _ Hc1)), (tk_lfo _ _ _ _ _ (next_ok _ _ _ Hc2)). rewrite Hn1, Hn2. by eapply IH. }
  assert (forall n, takes s (if py_eq (g_val m) (g_val m2)
      then let! na := lf (get_next (g_loc m)) in let! nb := lf (get_next (g_loc m2)) in compare_loop_c op (Nat.min (length g1) (length g2)) (S c) ae na nb
      else match py_op op (g_val m) (g_val m2) with None => raise TypeError
        | Some true => let! na := lf (get_next (g_loc m)) in let! nb := lf (get_next (g_loc m2)) in compare_loop_c op (Nat.min (length g1) (length g2)) (S c) false na nb
        | Some false => ret (c, false) end) n ->
    takes s (compare_loop_c op (S (Nat.min (length g1) (length g2))) c ae (Some (g_loc m)) (Some (g_loc m2))) (S n)) as H.
  { intros n H. cbn [compare_loop_c]. apply tk_tick. apply (tk_lfo _ _ _ (g_loc m)); [done|]. apply (tk_lfo _ _ _ (g_loc m2)); [done|].
    apply (tk_lfo _ _ _ _ _ (data_ok _ _ _ Hc1)), (tk_lfo _ _ _ _ _ (data_ok _ _ _ Hc2)). by rewrite Hd1, Hd2. }
  rewrite py_eq_dec_stored in H by done.
  case_bool_decide as E; [by apply H|]. destruct (py_op op _ _) as [[]|]; apply H; [done|apply tk_ret|apply tk_raise].
Qed.
Lemma tk_compare op k s o o' g1 g2 : rep k s o g1 -> rep k s o' g2 -> takes s (compare_c op o o') (compared op (vals g1) (vals g2)).
Proof.
  intros Hr1 Hr2. destruct (obj_eq Hr1) as (ob & Hob & Hkb & Hlen & Hhd & _).
  destruct (obj_eq Hr2) as (oc & Hoc & Hkc & Hlen2 & Hhd2 & _).
  unfold compare_c. tobj Hob. tobj Hoc. rewrite Hlen, Hlen2.
  eapply tk_compare_loop; [by eapply rep_seg|by eapply rep_seg|by eapply rep_stored|done| |].
  - intros Hne. rewrite Hhd by done. by rewrite endp_hd.
  - intros Hne. rewrite Hhd2 by done. by rewrite endp_hd.
Qed.
Lemma tk_relations k s o o' g1 g2 : rep k s o g1 -> rep k s o' g2 ->
  let eq := if Nat.eqb (length g1) (length g2) then compared OpEq (vals g1) (vals g2) else 0 in
  takes s (list_eq_c o o') eq /\ takes s (list_ne_c o o') eq
  /\ takes s (list_lt_c o o') (compared OpLt (vals g1) (vals g2))
  /\ takes s (list_le_c o o') (compared OpLe (vals g1) (vals g2))
  /\ takes s (list_gt_c o o') (compared OpGt (vals g1) (vals g2))
  /\ takes s (list_ge_c o o') (compared OpGe (vals g1) (vals g2)).
Proof.
  intros Hr1 Hr2. destruct (obj_eq Hr1) as (ob & Hob & Hkb & Hlen & _).
  destruct (obj_eq Hr2) as (oc & Hoc & Hkc & Hlen2 & _). cbv zeta.
  assert (forall (f : unit -> M cst bool) n, takes s (f tt) n -> takes s (let! x := lf (check_cmp o o') in f x) n) as Hc.
  { intros f n H. by apply (tk_lfo _ _ _ tt); [by eapply check_cmp_ok|]. }
  split_and!; unfold list_eq_c, list_ne_c, list_lt_c, list_le_c, list_gt_c, list_ge_c; apply Hc; try tobj Hob; try tobj Hoc.
  1,2: rewrite Hlen, Hlen2; destruct (Nat.eqb _ _); [|apply tk_ret]; cbn [negb].
  all: apply tk_end || (apply tk_bind0; [by eapply tk_compare|intros; apply tk_ret]).
  all: by eapply tk_compare.
Qed.
