(** * What an empty queue prints: proofs *)
From Coq Require Import QArith.
From Verif Require Import Base ListModel ListRep ListCore ListOps ListSpec ListRun ListSim ListThm ListThm2
  QueueModel QueueSpec QueueThm PQThm DrawModel DrawSpec DrawThm LeftSpec.
Close Scope Q_scope.
Local Open Scope py_scope.

Implicit Types (text : pyval -> num -> pystr).

(** The list object is empty; its first node, if any, holds [r]. *)
Definition stale (s : st) (o : nat) (r : option (pyval * num)) : Prop :=
  exists ob, s_objs s !! o = Some ob /\ o_len ob = 0 /\
  match r with
  | None => o_head ob = None
  | Some (v, p) => exists l c, o_head ob = Some l /\ s_nodes s !! l = Some c /\ c_data c = v /\ c_prio c = p /\ c_next c = None
  end.
Lemma stale_print d text q r : stale (q_mem q) (q_box q) r ->
  print_queue d text q = Ok (joined (empty_picture d (match r with Some (v, p) => [text v p] | None => [] end))) q.
Proof.
  intros (ob & Hob & Hlen & Hh). unfold print_queue.
  assert (queue_is_empty q = Ok true q) as He.
  { unfold queue_is_empty. apply boxed_ok. unfold ll_is_empty. erewrite bind_ok by (by apply get_obj_ok). by rewrite Hlen. }
  destruct r as [[v p]|].
  - destruct Hh as (l & c & Hl & Hc & <- & <- & Hn).
    erewrite bind_ok; cycle 1.
    { apply boxed_ok. erewrite bind_ok by (by apply get_obj_ok). erewrite bind_ok by done. rewrite Hl. cbn [queue_print].
      erewrite bind_ok by (by apply get_cell_ok). rewrite Hn. by destruct (length _). }
    erewrite bind_ok by exact He. unfold ret. f_equal. unfold empty_picture, border, boxed_line. cbn [flat_map app]. by rewrite !app_nil_r.
  - erewrite bind_ok; cycle 1.
    { apply boxed_ok. erewrite bind_ok by (by apply get_obj_ok). erewrite bind_ok by done. by rewrite Hh. }
    by erewrite bind_ok by exact He.
Qed.

(** Removing the only node only changes the length. *)
Lemma remove_node_last s o n : rep CDLL s o [n] -> exists s', dll_remove_node o None (g_loc n) s = Ok tt s' /\ stale s' o (Some (g_val n, g_pri n)).
Proof.
  intros Hr. destruct (obj_eq Hr) as (ob & Hob & Hk & Hlen & Hhd & Htl). destruct (rep_seg _ _ _ _ Hr) as [(c & Hc & _ & Hd & Hp & _ & Hnx & _) _].
  unfold dll_remove_node. erewrite bind_ok by (by apply get_obj_ok).
  erewrite bind_ok; [|unfold get_next; by erewrite bind_ok by (by apply get_cell_ok)]. rewrite Hlen. cbn [length Nat.eqb].
  rewrite Htl, Hhd by done. cbn [last_loc hd_loc]. erewrite bind_ok by done. erewrite bind_ok by done. erewrite bind_ok by (by apply get_obj_ok).
  eexists. split; [done|]. exists (set_len ob (o_len ob - 1)). cbn. split; [apply list_lookup_insert; by eapply lookup_lt_Some|].
  rewrite Hlen. split; [done|]. exists (g_loc n), c. rewrite Hhd by done. split_and!; done.
Qed.
Lemma get_node_last s o n : rep CDLL s o [n] -> get_node o 0 s = Ok (None, Some (g_loc n)) s.
Proof.
  intros Hr. destruct (obj_eq Hr) as (ob & Hob & Hk & Hlen & Hhd & Htl).
  unfold get_node. erewrite bind_ok by (by apply get_obj_ok). rewrite Hk. unfold dll_get_node. erewrite bind_ok by (by apply get_obj_ok).
  cbn [Nat.leb]. unfold ll_get_node. erewrite bind_ok by (by apply get_obj_ok). rewrite Hhd by done. done.
Qed.
Lemma delitem_last s o n : rep CDLL s o [n] -> exists s', delitem o (IInt 0) s = Ok tt s' /\ stale s' o (Some (g_val n, g_pri n)).
Proof.
  intros Hr. destruct (remove_node_last s o n Hr) as (s' & E & Hs). exists s'. split; [|done].
  destruct (obj_eq Hr) as (ob & Hob & Hk & Hlen & Hhd & Htl).
  unfold delitem. erewrite bind_ok by (by apply get_obj_ok). unfold check_index.
  erewrite bind_ok; [|erewrite bind_ok by (by apply get_obj_ok); rewrite Hk, Hlen; done]. rewrite Hk, Hlen. cbn [is_cll length]. change (0 =? Z.of_nat 1)%Z with false. change (Z.to_nat 0) with 0. cbv iota.
  unfold remove_idx. erewrite bind_ok by (by apply get_node_last). cbn [fst snd]. erewrite bind_ok by done.
  unfold remove_node. erewrite bind_ok by (by apply get_obj_ok). by rewrite Hk.
Qed.
Lemma remove_front_last s o n : rep CDLL s o [n] -> exists s', remove_front o s = Ok tt s' /\ stale s' o (Some (g_val n, g_pri n)).
Proof.
  intros Hr. destruct (delitem_last s o n Hr) as (s' & E & Hs). exists s'. split; [|done].
  destruct (obj_eq Hr) as (ob & Hob & Hk & Hlen & _). unfold remove_front, ll_is_empty.
  erewrite bind_ok; [|by erewrite bind_ok by (by apply get_obj_ok)]. by rewrite Hlen.
Qed.
Lemma remove_end_last s o n : rep CDLL s o [n] -> exists s', remove_end o s = Ok tt s' /\ stale s' o (Some (g_val n, g_pri n)).
Proof.
  intros Hr. destruct (delitem_last s o n Hr) as (s' & E & Hs). exists s'. split; [|done].
  destruct (obj_eq Hr) as (ob & Hob & Hk & Hlen & _). unfold remove_end, ll_is_empty, ll_len.
  erewrite bind_ok; [|by erewrite bind_ok by (by apply get_obj_ok)]. rewrite Hlen. cbn [length Nat.eqb].
  erewrite bind_ok; [|by erewrite bind_ok by (by apply get_obj_ok)]. rewrite Hlen. done.
Qed.
(** On an empty list, removing does nothing. *)
Lemma remove_front_empty s o : rep CDLL s o [] -> remove_front o s = Ok tt s.
Proof.
  intros Hr. destruct (obj_eq Hr) as (ob & Hob & Hk & Hlen & _). unfold remove_front, ll_is_empty.
  erewrite bind_ok; [|by erewrite bind_ok by (by apply get_obj_ok)]. by rewrite Hlen.
Qed.
Lemma remove_end_empty s o : rep CDLL s o [] -> remove_end o s = Ok tt s.
Proof.
  intros Hr. destruct (obj_eq Hr) as (ob & Hob & Hk & Hlen & _). unfold remove_end, ll_is_empty.
  erewrite bind_ok; [|by erewrite bind_ok by (by apply get_obj_ok)]. by rewrite Hlen.
Qed.

Lemma new_stale a s q : queue_new a s = inr q -> stale (q_mem q) (q_box q) None.
Proof.
  unfold queue_new. destruct (init_cap a) as [e|c]; [done|]. cbn. intros [= <-]. cbn. exists (LObj CDLL None None 0). split; [|done]. by apply list_lookup_middle.
Qed.
Lemma clear_stale q u q' : queue_clear q = Ok u q' -> stale (q_mem q') (q_box q') None.
Proof.
  unfold queue_clear, bind, get_state. destruct (queue_new _ _) as [e|q2] eqn:E; [done|]. intros [= _ <-]. by eapply new_stale.
Qed.

(** ** Deque and Queue *)
Lemma empty_rep c q : queue_ok c q [] -> rep CDLL (q_mem q) (q_box q) [].
Proof. intros [_ _ _ _ ([|n g] & Hr & Hg)]; done. Qed.
Lemma one_rep c q x : queue_ok c q [x] -> exists n, rep CDLL (q_mem q) (q_box q) [n] /\ g_val n = x.
Proof. intros [_ _ _ _ ([|n [|m g]] & Hr & Hg)]; try done. injection Hg as Hg. by exists n. Qed.
Lemma boxed_run {A} (f : nat -> M st A) q a s : f (q_box q) (q_mem q) = Ok a s -> boxed f q = Ok a (with_mem q s).
Proof. intros H. unfold boxed, on_mem, bind, get_state. by rewrite H. Qed.
Lemma chk_exc v e q : validate_item v = Some e -> on_mem (check_item v) q = Exc e q.
Proof. intros Hv. unfold on_mem. rewrite (check_item_exc _ _ _ Hv). by destruct q. Qed.
Lemma chk_ok v q : validate_item v = None -> on_mem (check_item v) q = Ok tt q.
Proof. intros Hv. unfold on_mem. rewrite (check_item_ok _ _ Hv). by destruct q. Qed.

(** A call on an empty deque that leaves it empty changes nothing. *)
Lemma deque_idle c q op : queue_ok c q [] -> d_clears op = false -> snd (deque_spec c [] op) = [] ->
  exists r, deque_call op q = Ok r q \/ exists e, deque_call op q = Exc e q.
Proof.
  intros H Hc Hs. pose proof (empty_rep _ _ H) as Hr. pose proof (queue_empty_ok _ _ _ H) as He. cbn in He.
  assert (forall v, rejected v = None -> snd (deque_spec c [] (DAppendLeft v)) = [] \/ snd (deque_spec c [] (DAppendRight v)) = [] -> is_full c [] = true) as Hfull.
  { intros v Hv. cbn [deque_spec]. rewrite Hv. cbn [snd]. unfold push_left, push_right. destruct (is_full c []); [done|]. intros []; done. }
  destruct op as [v|v| | | | | | | | ]; cbn [deque_call]; try done.
  - destruct (validate_item v) as [e|] eqn:E.
    + exists (BBool true). right. exists e. apply bind_exc, bind_exc. by apply chk_exc.
    + pose proof (Hfull v ltac:(by rewrite rejected_ok) ltac:(by left)) as Hf. exists (BRet true PNone). left.
      unfold as_warn, deque_append_left, queue_enqueue. erewrite bind_ok; [done|]. erewrite bind_ok by (by apply chk_ok).
      unfold queue_enqueue_item. erewrite bind_ok by (by destruct v). erewrite bind_ok by (by eapply queue_full_ok). rewrite Hf.
      erewrite bind_ok by (by apply boxed_ok, remove_end_empty). erewrite bind_ok by (by eapply cap_zero_ok). by erewrite bind_ok by done.
  - destruct (validate_item v) as [e|] eqn:E.
    + exists (BBool true). right. exists e. apply bind_exc, bind_exc. by apply chk_exc.
    + pose proof (Hfull v ltac:(by rewrite rejected_ok) ltac:(by right)) as Hf. exists (BRet true PNone). left.
      unfold as_warn, deque_append_right. erewrite bind_ok; [done|]. erewrite bind_ok by (by apply chk_ok).
      erewrite bind_ok by (by eapply queue_full_ok). rewrite Hf.
      erewrite bind_ok by (by apply boxed_ok, remove_front_empty). erewrite bind_ok by (by eapply cap_zero_ok). by erewrite bind_ok by done.
  - eexists. left. unfold as_pair, deque_pop_left. erewrite bind_ok; [done|]. by erewrite bind_ok by exact He.
  - eexists. left. unfold as_pair, deque_pop_right, queue_dequeue. erewrite bind_ok; [done|]. by erewrite bind_ok by exact He.
  - exists (BBool true). right. eexists. unfold as_val, deque_get_left. apply bind_exc. by erewrite bind_ok by exact He.
  - exists (BBool true). right. eexists. unfold as_val, deque_get_right, queue_top. apply bind_exc. by erewrite bind_ok by exact He.
  - eexists. left. unfold as_nat. by erewrite bind_ok by (by eapply queue_len_ok).
  - eexists. left. unfold as_bool. by erewrite bind_ok by exact He.
  - eexists. left. unfold as_bool. by erewrite bind_ok by (by eapply queue_full_ok).
Qed.
(** A call that takes out the only item. *)
Lemma deque_last c q x l op : queue_ok c q (x :: l) -> d_clears op = false -> snd (deque_spec c (x :: l) op) = [] ->
  exists r q' p, deque_call op q = Ok r q' /\ stale (q_mem q') (q_box q') (Some (x, p)).
Proof.
  intros H Hc Hs. pose proof (queue_empty_ok _ _ _ H) as He. cbn in He.
  destruct op as [v|v| | | | | | | | ]; cbn [deque_call deque_spec] in *; try done.
  - destruct (rejected v); [done|]. cbn in Hs. unfold push_left in Hs. by destruct (is_full c (x :: l)).
  - destruct (rejected v); [done|]. cbn in Hs. unfold push_right in Hs. destruct (is_full c (x :: l)); [by destruct l|done].
  - cbn in Hs. subst l. destruct (one_rep _ _ _ H) as (n & Hr & <-). destruct (remove_front_last _ _ _ Hr) as (s' & E & Hst).
    exists (BRet false (g_val n)), (with_mem q s'), (g_pri n). split; [|done].
    unfold as_pair, deque_pop_left. erewrite (bind_ok _ _ q (false, g_val n) (with_mem q s')); [done|]. erewrite bind_ok by exact He. cbv beta iota.
    erewrite bind_ok by (by eapply head_data_ok). by erewrite bind_ok by (by apply boxed_run).
  - destruct (last (x :: l)) as [v|] eqn:El; [|by apply last_none in El]. cbn [snd] in Hs.
    assert (l = []) as -> by (by destruct l). injection El as ->.
    destruct (one_rep _ _ _ H) as (n & Hr & <-). destruct (remove_end_last _ _ _ Hr) as (s' & E & Hst).
    exists (BRet false (g_val n)), (with_mem q s'), (g_pri n). split; [|done].
    unfold as_pair, deque_pop_right, queue_dequeue. erewrite (bind_ok _ _ q (false, g_val n) (with_mem q s')); [done|]. erewrite bind_ok by exact He. cbv beta iota.
    erewrite bind_ok by (by eapply tail_data_ok). by erewrite bind_ok by (by apply boxed_run).
  - destruct (last (x :: l)); done.
Qed.

Definition left_ok (c : num) (q : qst) (l : list pyval) (r : option pyval) : Prop :=
  queue_ok c q l /\ (l = [] -> exists r', stale (q_mem q) (q_box q) r' /\ option_map fst r' = r).
Lemma deque_left c q l r op : left_ok c q l r -> exists q',
  (deque_call op q = Ok (fst (deque_spec c l op)) q'
   \/ exists e, fst (deque_spec c l op) = BExc e /\ deque_call op q = Exc e q')
  /\ left_ok c q' (snd (deque_spec c l op)) (leaves (d_clears op) l r (snd (deque_spec c l op))).
Proof.
  intros [H Hr]. destruct (deque_sim c q l op H) as (q' & Hq' & Hok). exists q'. split; [done|]. split; [done|]. intros Hs. rewrite Hs.
  destruct (d_clears op) eqn:Ec.
  - destruct op; try done. exists None. split; [|by destruct l]. destruct Hq' as [Hq'|(e & He & _)]; [|done]. cbn in Hq'. unfold as_unit in Hq'.
    destruct (queue_clear q) as [u q2| |] eqn:Eq; unfold bind in Hq'; rewrite Eq in Hq'; [|done|done]. injection Hq' as ->. by eapply clear_stale.
  - destruct l as [|x l].
    + destruct (deque_idle c q op H Ec Hs) as [o Ho]. assert (q' = q) as ->.
      { destruct Hq' as [Hq'|(e & _ & Hq')]; destruct Ho as [Ho|(e' & Ho)]; congruence. }
      by apply Hr.
    + destruct (deque_last c q x l op H Ec Hs) as (o & q2 & p & Ho & Hst). assert (q' = q2) as ->.
      { destruct Hq' as [Hq'|(e & _ & Hq')]; congruence. }
      by exists (Some (x, p)).
Qed.
Lemma calls_left {O} (call : O -> M qst bout) (R : qst -> list pyval -> option pyval -> Prop) step clears :
  (forall q l r op, R q l r -> exists q',
      (call op q = Ok (fst (step l op)) q' \/ exists e, fst (step l op) = BExc e /\ call op q = Exc e q')
      /\ R q' (snd (step l op)) (leaves (clears op) l r (snd (step l op)))) ->
  forall ops q l r, R q l r -> exists q', calls call q ops = Some (fst (spec_calls step l ops), q') /\
    R q' (snd (spec_calls step l ops)) (left_over step clears l r ops).
Proof.
  intros Hs ops. induction ops as [|op ops IH]; intros q l r H; [by exists q|].
  destruct (Hs q l r op H) as (q1 & Hq1 & HR). destruct (IH _ _ _ HR) as (q2 & Hc & HR2). exists q2. cbn [calls spec_calls left_over].
  destruct (step l op) as [o l'] eqn:E. cbn [fst snd] in *. destruct (spec_calls step l' ops) as [rs l''] eqn:E2. cbn [fst snd] in *. split; [|done].
  destruct Hq1 as [->|(e & -> & ->)]; by rewrite Hc.
Qed.
Lemma left_drawn c q l r d show : left_ok c q l r -> print_queue d (fun v _ => show v) q = Ok (joined (drawn d show l r)) q.
Proof.
  intros [H Hr]. destruct l as [|x l].
  - destruct (Hr eq_refl) as (r' & Hst & <-). rewrite (stale_print d _ q r' Hst). by destruct r' as [[v p]|].
  - destruct (qo_rep _ _ _ H) as (g & Hg & Hv). rewrite (print_queue_ok _ _ _ g Hg) by (intros ->; done).
    unfold drawn. rewrite <- Hv. unfold txts. by rewrite map_map.
Qed.
Theorem deque_draws show a ops : bad_capacity a = None ->
  exists q0 c q, queue_new a st0 = inr q0 /\ capacity_of a c
    /\ calls deque_call q0 ops = Some (fst (spec_calls (deque_spec c) [] ops), q)
    /\ deque_repr (fun d _ => show d) q
        = Ok (joined (drawn c_both show (snd (spec_calls (deque_spec c) [] ops)) (left_over (deque_spec c) d_clears [] None ops))) q.
Proof.
  intros E. destruct (init_cap_good a E) as (c & Ha & Hc & Hf & H0).
  destruct (queue_new_ok c a st0 Ha Hf H0) as (q & Hq0 & Hq & _).
  destruct (calls_left deque_call (left_ok c) (deque_spec c) d_clears (deque_left c) ops q [] None) as (q' & Hr & Hok).
  { split; [done|]. intros _. exists None. split; [by eapply new_stale|done]. }
  exists q, c, q'. split_and!; try done. by eapply left_drawn.
Qed.
Theorem queue_draws show a ops : bad_capacity a = None ->
  exists q0 c q, queue_new a st0 = inr q0 /\ capacity_of a c
    /\ calls queue_call q0 ops = Some (fst (spec_calls (queue_spec c) [] ops), q)
    /\ queue_repr (fun d _ => show d) q
        = Ok (joined (drawn c_right show (rev (snd (spec_calls (queue_spec c) [] ops))) (left_over (queue_spec c) q_clears [] None ops))) q.
Proof.
  intros E. destruct (init_cap_good a E) as (c & Ha & Hc & Hf & H0).
  destruct (queue_new_ok c a st0 Ha Hf H0) as (q & Hq0 & Hq & _).
  destruct (calls_left queue_call (fun q l r => left_ok c q (rev l) r) (queue_spec c) q_clears) with (ops := ops) (q := q) (l := @nil pyval) (r := @None pyval) as (q' & Hr & Hok).
  { intros s l r op Hs. destruct (queue_spec_deque c l op) as [Hr Hl]. rewrite <- Hr, <- Hl, queue_call_deque.
    assert (leaves (q_clears op) l r (snd (queue_spec c l op)) = leaves (d_clears (as_deque op)) (rev l) r (snd (deque_spec c (rev l) (as_deque op)))) as ->; [|by apply deque_left].
    rewrite Hl. assert (q_clears op = d_clears (as_deque op)) as -> by (by destruct op).
    destruct (d_clears (as_deque op)) eqn:Ec; [unfold leaves; by repeat case_match|].
    destruct (snd (queue_spec c l op)) as [|y l'] eqn:Es; cbn [rev leaves].
    - destruct l as [|x l]; [done|]. cbn [rev]. assert (l = []) as ->; [|done].
      destruct op; cbn in Es, Ec; try done. destruct (rejected v); [done|]. cbn in Es. unfold push_right in Es. destruct (is_full c (x :: l)); [by destruct l|done].
    - unfold leaves. destruct (rev l' ++ [y]) eqn:E2; [by destruct (rev l')|]. by destruct l. }
  { split; [done|]. intros _. exists None. split; [by eapply new_stale|done]. }
  exists q, c, q'. split_and!; try done. by eapply left_drawn.
Qed.

(** ** PriorityQueue *)
Lemma returns_same m q r q' r2 q2 : returns m q r q' -> m q = Ok r2 q2 \/ (exists e, m q = Exc e q2) -> q' = q2.
Proof. intros [H|(e & _ & H)] [H2|(e' & H2)]; congruence. Qed.
Lemma stale_grow s o r c : stale s o r -> stale (St (s_nodes s ++ [c]) (s_objs s)) o r.
Proof.
  intros (ob & Hob & Hl & Hr). exists ob. split; [done|]. split; [done|]. destruct r as [[v p]|]; [|done].
  destruct Hr as (l & cl & Hh & Hc & Hd). exists l, cl. split; [done|]. split; [by apply lookup_app_l_Some|done].
Qed.
(** A call on an empty priority queue that leaves it empty. *)
Lemma pq_idle c q op r q' x : pq_ok c q [] -> stale (q_mem q) (q_box q) x -> p_clears op = false -> returns (pq_call op) q r q' -> pq_ok c q' [] ->
  stale (q_mem q') (q_box q') x.
Proof.
  intros H Hx Hc Hret H'. pose proof (pq_queue _ _ _ H) as Hq. cbn in Hq. pose proof (empty_rep _ _ Hq) as Hr. pose proof (queue_empty_ok _ _ _ Hq) as He. cbn in He.
  assert (forall r2, pq_call op q = Ok r2 q \/ (exists e, pq_call op q = Exc e q) -> stale (q_mem q') (q_box q') x) as Hsame.
  { intros r2 Hq2. by rewrite (returns_same _ _ _ _ r2 q Hret Hq2). }
  destruct op as [v p|b| | | | | ]; cbn [pq_call] in *; try done.
  - destruct (validate_item v) as [e|] eqn:Ev.
    { apply (Hsame (BBool true)). right. exists e. unfold as_warn, pq_enqueue. apply bind_exc, bind_exc. by apply chk_exc. }
    destruct (prio_of p) as [pr|] eqn:Ep.
    2:{ apply (Hsame (BBool true)). right. exists TypeError. unfold as_warn, pq_enqueue. apply bind_exc. erewrite bind_ok by (by apply chk_ok). by destruct p. }
    set (s1 := St (s_nodes (q_mem q) ++ [Cell true (norm_item v) None None pr None]) (s_objs (q_mem q))).
    assert (rep CDLL s1 (q_box q) []) as Hr1.
    { eapply rep_frame; [exact Hr|apply alloc_modifies|set_solver|set_solver]. }
    assert (forall w q2, queue_enqueue_node (length (s_nodes (q_mem q))) (pushq q pr s1) = Ok w q2 ->
      as_warn (pq_enqueue v p) q = Ok (BRet w PNone) q2) as Hrun.
    { intros w q2 Hq2. unfold as_warn, pq_enqueue. erewrite (bind_ok _ _ q w q2); [done|]. erewrite bind_ok by (by apply chk_ok).
      erewrite (bind_ok _ _ q pr q) by (destruct p; naive_solver).
      erewrite (bind_ok _ _ q (length (s_nodes (q_mem q))) (with_mem q s1)).
      2:{ unfold on_mem, new_prio_node. rewrite Ev. done. }
      erewrite bind_ok by done. erewrite bind_ok by done. exact Hq2. }
    assert (queue_ok c (pushq q pr s1) []) as Hq1. { destruct H as [H1 H2 H3 H4 _ _]. split; try done. by exists []. }
    destruct (is_full c []) eqn:Ef.
    + assert (queue_enqueue_node (length (s_nodes (q_mem q))) (pushq q pr s1) = Ok true (pushq q pr s1)) as E.
      { unfold queue_enqueue_node. erewrite bind_ok by (by eapply queue_full_ok). rewrite Ef.
        erewrite bind_ok by (by apply boxed_ok, remove_end_empty). erewrite bind_ok by (by eapply cap_zero_ok). by erewrite bind_ok by done. }
      rewrite (returns_same _ _ _ _ _ _ Hret (or_introl (Hrun _ _ E))). by apply stale_grow.
    + exfalso. set (n := GN (length (s_nodes (q_mem q))) (norm_item v) pr None).
      assert (fresh_node CDLL s1 [] n) as Hf.
      { split; [|set_solver|by apply stored_norm]. cbn. rewrite lookup_app_r, Nat.sub_diag by lia. done. }
      pose proof H as [Hcc Hnf H0 Hl _ _].
      pose proof (enqueue_node_ok c (pushq q pr s1) [] n Hcc Hnf H0 Hl Hr1 Hf) as Hw.
      apply wp_elim in Hw as (w & q2 & Hq2 & -> & s' & -> & Hr'). unfold pushed in Hr'. cbn [map] in Hr'. rewrite Ef in Hr'.
      pose proof (returns_same _ _ _ _ _ _ Hret (or_introl (Hrun _ _ Hq2))) as ->.
      destruct (obj_eq Hr') as (ob & Hob & _ & Hlen & _). destruct (obj_eq (po_rep _ _ _ H')) as (ob' & Hob' & _ & Hlen' & _). cbn in Hob, Hob'. rewrite Hob in Hob'. injection Hob' as <-.
      by rewrite Hlen in Hlen'.
  - apply (Hsame (BRet true PNone)). left. unfold as_pair, pq_dequeue. erewrite (bind_ok _ _ q (true, PNone) q); [done|]. by erewrite bind_ok by exact He.
  - apply (Hsame (BBool true)). right. eexists. unfold as_val, queue_top. apply bind_exc. by erewrite bind_ok by exact He.
  - eapply Hsame. left. unfold as_nat. by erewrite bind_ok by (by eapply queue_len_ok).
  - eapply Hsame. left. unfold as_bool. by erewrite bind_ok by exact He.
  - eapply Hsame. left. unfold as_bool. by erewrite bind_ok by (by eapply queue_full_ok).
Qed.
Lemma rep_same_length s o g g' : rep CDLL s o g -> rep CDLL s o g' -> length g = length g'.
Proof.
  intros H H'. destruct (obj_eq H) as (ob & Hob & _ & Hl & _). destruct (obj_eq H') as (ob' & Hob' & _ & Hl' & _). rewrite Hob in Hob'. injection Hob' as <-. congruence.
Qed.
Lemma pq_last c q n b r q' : pq_ok c q [n] -> returns (pq_call (PDequeue b)) q r q' -> pq_ok c q' [] -> stale (q_mem q') (q_box q') (Some (g_val n, g_pri n)).
Proof.
  intros H Hret H'. pose proof (pq_queue _ _ _ H) as Hq. pose proof (queue_empty_ok _ _ _ Hq) as He. cbn in He.
  pose proof (po_rep _ _ _ H) as Hr. destruct (obj_eq Hr) as (ob & Hob & _ & Hlen & Hhd & _). specialize (Hhd ltac:(done)).
  pose proof (rep_seg _ _ _ _ Hr) as Hs. destruct Hs as [(cl & Hcl & _ & Hd & Hp & _ & Hnx & Hpv) _]. cbn in Hnx.
  set (find := fun o : nat => let! b0 := get_obj o in let! s := get_state in
         prio_find (S (length (s_nodes s))) (if b then q_min q else q_max q) (o_head b0)).
  assert (boxed find q = Ok (if bool_decide (g_pri n = if b then q_min q else q_max q) then Some (g_loc n) else None) q) as Hf.
  { apply boxed_ok. unfold find. erewrite bind_ok by (by apply get_obj_ok). erewrite bind_ok by done. rewrite Hhd. cbn [hd_loc prio_find].
    erewrite bind_ok by (by apply get_cell_ok). rewrite Hp, Hnx. destruct (bool_decide _); [done|]. by destruct (length (s_nodes (q_mem q))). }
  destruct (bool_decide (g_pri n = if b then q_min q else q_max q)).
  - destruct (remove_node_last _ _ _ Hr) as (s' & E & Hst). pose proof Hst as (ob' & Hob' & Hl' & _).
    assert (exists q2, (if b then update_min else update_max) (with_mem q s') = Ok tt q2 /\ q_mem q2 = s' /\ q_box q2 = q_box q) as (q2 & Eu & Hm & Hb).
    { assert (forall f w, boxed (prio_scan f w) (with_mem q s') = Ok w (with_mem q s')) as Hsc.
      { intros f w. apply boxed_ok. unfold prio_scan, ll_is_empty. erewrite bind_ok; [|by erewrite bind_ok by (by apply get_obj_ok)]. by rewrite Hl'. }
      destruct b; eexists; [unfold update_min|unfold update_max]; (split; [by erewrite bind_ok by apply Hsc|done]). }
    assert (pq_call (PDequeue b) q = Ok (BRet false (g_val n)) q2) as Ecall.
    { cbn [pq_call]. unfold as_pair, pq_dequeue. erewrite (bind_ok _ _ q (false, g_val n) q2); [done|]. erewrite bind_ok by exact He. cbv beta iota.
      erewrite bind_ok by done. cbv beta. erewrite bind_ok by exact Hf. cbv beta iota.
      erewrite (bind_ok _ _ q (g_val n) q).
      2:{ unfold on_mem, get_data. erewrite bind_ok by (by apply get_cell_ok). cbn. rewrite Hd. by destruct q. }
      erewrite (bind_ok _ _ q None q).
      2:{ unfold on_mem, get_prev. erewrite bind_ok by (by apply get_cell_ok). cbn. rewrite Hpv by done. by destruct q. }
      erewrite (bind_ok _ _ q tt (with_mem q s')).
      2:{ apply boxed_run. unfold remove_node. destruct (obj_eq Hr) as (ob2 & Hob2 & Hk2 & _). erewrite bind_ok by (by apply get_obj_ok). by rewrite Hk2. }
      erewrite bind_ok by exact Eu. done. }
    rewrite (returns_same _ _ _ _ _ _ Hret (or_introl Ecall)), Hm, Hb. done.
  - exfalso. assert (pq_call (PDequeue b) q = Exc UnboundLocalError q) as Ecall.
    { cbn [pq_call]. unfold as_pair, pq_dequeue. apply bind_exc. erewrite bind_ok by exact He. cbv beta iota.
      erewrite bind_ok by done. cbv beta. by erewrite bind_ok by exact Hf. }
    pose proof (returns_same _ _ _ _ (BBool true) q Hret (or_intror (ex_intro _ _ Ecall))) as ->.
    by pose proof (rep_same_length _ _ _ _ Hr (po_rep _ _ _ H')).
Qed.
Lemma pq_left c q g op r q' g' x : pq_ok c q g -> (g = [] -> stale (q_mem q) (q_box q) x) ->
  returns (pq_call op) q r q' -> pq_result c q g op r q' g' ->
  g' = [] -> stale (q_mem q') (q_box q') (leaves (p_clears op) (pairs g) x (pairs g')).
Proof.
  intros H Hx Hret [Hok' Hmay _] ->. cbn [map]. destruct (p_clears op) eqn:Ec.
  - destruct op; try done. assert (leaves true (pairs g) x [] = None) as -> by (by destruct g). cbn in Hret. unfold as_unit in Hret.
    destruct (queue_clear_ok _ _ _ (pq_queue _ _ _ H)) as (q2 & Hq2 & _).
    assert (pq_call PClear q = Ok (BRet false PNone) q2) as E by (cbn; unfold as_unit; by erewrite bind_ok by exact Hq2).
    rewrite (returns_same _ _ _ _ _ _ Hret (or_introl E)). by eapply clear_stale.
  - destruct g as [|n g]; [by eapply pq_idle; [|apply Hx| | |]|]. cbn [map leaves].
    assert (exists b, op = PDequeue b) as [b ->].
    { destruct Hmay as [Hm|Hm]; [|inversion Hm; by eexists]. inversion Hm as [v p pr Hv Hp E1 E2 E3| | | | | | | | | |]; subst; try done; try (by eexists).
      unfold pq_push in E3. by destruct (is_full _ _). }
    assert (g = []) as ->.
    { destruct Hmay as [Hm|Hm]; [|by inversion Hm]. inversion Hm as [| | |lo l1 v p l2 El Hex E1 E2 E3| | | | | | |]; try done. apply app_eq_nil in E3 as [-> ->]. by destruct g. }
    by eapply pq_last.
Qed.
Theorem pq_draws text a ops : bad_capacity a = None ->
  exists q0 c q outs l r, queue_new a st0 = inr q0 /\ capacity_of a c
    /\ calls pq_call q0 ops = Some (outs, q)
    /\ answered_leaving (fun l op r l' => pq_may c l op r l' \/ pq_deviates l op r l') [] None ops outs l r
    /\ queue_repr text q = Ok (joined (drawn c_right (fun x => text (fst x) (snd x)) l r)) q.
Proof.
  intros E. destruct (init_cap_good a E) as (c & Ha & Hc & Hf & H0).
  destruct (queue_new_ok c a st0 Ha Hf H0) as (q & Hq & [H1 H2 H3 H4 (g & Hr & Hg)] & _). exists q, c.
  assert (g = []) as -> by (by destruct g).
  assert (pq_ok c q []) as Hok by (split; try done; intros []; constructor).
  assert (forall g q x, pq_ok c q g -> (g = [] -> stale (q_mem q) (q_box q) x) -> exists q' outs l r, calls pq_call q ops = Some (outs, q')
    /\ answered_leaving (fun l op r l' => pq_may c l op r l' \/ pq_deviates l op r l') (pairs g) x ops outs l r
    /\ queue_repr text q' = Ok (joined (drawn c_right (fun x => text (fst x) (snd x)) l r)) q') as Hgen.
  2:{ destruct (Hgen _ _ None Hok) as (q' & outs & l & r & Hx); [intros _; by eapply new_stale|]. exists q', outs, l, r. by split; [|split]. }
  clear.
  induction ops as [|op ops IH]; intros g q x Hok Hx.
  - exists q, [], (pairs g), x. split; [done|]. split; [constructor|]. unfold queue_repr. destruct g as [|n g].
    + rewrite (stale_print _ _ _ _ (Hx eq_refl)). by destruct x as [[v p]|].
    + destruct Hok as [? ? ? ? Hrep ?]. rewrite (print_queue_ok _ _ _ (n :: g) Hrep) by done. unfold drawn, txts. cbn [map]. by rewrite map_map.
  - destruct (pq_step c q g op Hok) as (o & q' & g' & Hret & Hres). pose proof (pq_left _ _ _ _ _ _ _ _ Hok Hx Hret Hres) as Hx'. destruct Hres as [Hok' Hmay _].
    destruct (IH g' q' _ Hok' Hx') as (qq & outs & l & r & Hrun & Hans & Hpr).
    exists qq, (o :: outs), l, r. split; [|split; [by econstructor|done]].
    cbn [calls]. destruct Hret as [-> |(e & -> & ->)]; by rewrite Hrun.
Qed.
Lemma drawn_right_iff {A} d (text : A -> pystr) l r :
  joined (drawn d text l r) = joined (drawn d text l None) <-> l <> [] \/ r = None.
Proof.
  split; [|intros [H| ->]; [by destruct l|done]]. destruct l; [|by left]. destruct r as [x|]; [|by right]. intros H. exfalso.
  apply (f_equal length) in H. unfold drawn, empty_picture, border, boxed_line in H.
  cbn [flat_map joined] in H. repeat (rewrite ?app_length, ?repeat_length in H; cbn [length flat_map app] in H). lia.
Qed.
