(** * How far the calls on queues walk: bounds *)
From Verif Require Import Base ListSpec ListRep ListCore ListCore2 ListOps ListOps2 ListRun ListOps3 ListModel
  QueueModel QueueSpec QueueThm PQThm PQSpec PQExact WalkModel WalkSpec WalkThm WalkThm2.
Local Open Scope py_scope.

Lemma tk_on_mem {A} (c : M cst A) q n : takes (q_mem q) c n -> takes q (on_mem_c c) n.
Proof.
  intros [Hm Hl]. split; intros k; unfold on_mem_c; cbn; [specialize (Hm k)|specialize (Hl k)];
    by destruct (c (q_mem q, k)) as [? []|? []|].
Qed.
Lemma am_on_mem {A} (c : M cst A) q n : at_most (q_mem q) c n -> at_most q (on_mem_c c) n.
Proof.
  intros Hm k; unfold on_mem_c; cbn; specialize (Hm k).
    by destruct (c (q_mem q, k)) as [? []|? []|].
Qed.
Lemma tk_boxed {A} (f : nat -> M cst A) q n : takes (q_mem q) (f (q_box q)) n -> takes q (boxed_c f) n.
Proof. intros H. unfold boxed_c. apply tk_lfb. intros ? ? [= <- <-]. by apply tk_on_mem. Qed.
Lemma am_boxed {A} (f : nat -> M cst A) q n : at_most (q_mem q) (f (q_box q)) n -> at_most q (boxed_c f) n.
Proof. intros H. unfold boxed_c. apply am_lfb. intros ? ? [= <- <-]. by apply am_on_mem. Qed.
Lemma queue_box c q l : queue_ok c q l -> a_list (q_mem q) (q_box q) CDLL (length l).
Proof. intros H. destruct (qo_rep _ _ _ H) as (g & Hr & <-). rewrite map_length. by apply rep_a_list. Qed.

Lemma tk_get_node_0 o s : takes s (get_node_c o 0) 0.
Proof.
  unfold get_node_c. apply tk_lfb. intros ob s' [Hob ->]%get_obj_inv. pose proof (tk_ll_get_node o 0 s).
  destruct (o_cls ob); try done. unfold dll_get_node_c. apply tk_lfb. intros ob' s' [_ ->]%get_obj_inv. done.
Qed.
Lemma tk_insert_0 o v s : takes s (insert_at_c o 0 v) 0.
Proof. unfold insert_at_c. eapply tk_bind0; [apply tk_get_node_0|]. intros. apply tk_lf. Qed.
Lemma tk_insert_node_0 o v s : takes s (insert_node_at_c o 0 v) 0.
Proof. unfold insert_node_at_c. eapply tk_bind0; [apply tk_get_node_0|]. intros. apply tk_lf. Qed.
Lemma walk_end n : walk CDLL n (n - 1) <= 1.
Proof.
  unfold walk. destruct (Nat.leb_spec (n - 1) (n / 2)) as [H|H]; [|lia].
  destruct n as [|[|[|n]]]; try (cbn; lia). exfalso.
  assert (S (S (S n)) / 2 < S (S (S n)) - 1); [|lia].
  apply Nat.div_lt_upper_bound; lia.
Qed.
Lemma walk_after n : walk CDLL n n = 0.
Proof.
  unfold walk. destruct (Nat.leb_spec n (n / 2)) as [H|H]; [|lia].
  destruct n; [done|]. pose proof (Nat.div_lt (S n) 2). lia.
Qed.
Lemma on_mem_check v q x q' : on_mem (check_item v) q = Ok x q' -> q' = q.
Proof.
  unfold on_mem. destruct (check_item v (q_mem q)) eqn:E; try done. apply check_item_inv in E as ->. intros [= _ <-]. by destruct q.
Qed.
Lemma am_end {S A B} (s : S) (c : M (S * nat) A) (f : A -> B) n : at_most s c n -> at_most s (let! x := c in ret (f x)) n.
Proof. intros H. rewrite <- (Nat.add_0_r n). eapply am_bind; [done|]. intros. apply tk_ret. Qed.

(** [if full then <make room> else pass] walks at most one node. *)
Lemma am_room c q l (b : bool) : queue_ok c q l -> at_most q (if b then boxed_c remove_end_c else ret tt) 1.
Proof.
  intros H. destruct b; [|eapply am_le; [apply tk_ret|lia]]. apply am_boxed.
  eapply am_le; [apply (tk_remove_end _ _ _ _ (queue_box _ _ _ H))|apply walk_end].
Qed.
Lemma am_enqueue c q l v : queue_ok c q l -> at_most q (queue_enqueue_c v) 1.
Proof.
  intros H. unfold queue_enqueue_c. apply am_lfb. intros ? ? ->%on_mem_check. unfold queue_enqueue_item_c.
  apply am_lfb. intros ? q' E. assert (q' = q) as -> by (destruct v; try done; by injection E).
  apply am_lfb. rewrite (queue_full_ok _ _ _ H). intros ? ? [= <- <-].
  change 1 with (1 + 0). eapply am_bind; [by eapply am_room|]. intros. apply am_lfb. intros pos ? _.
  change 0 with (0 + 0). eapply am_bind; [|intros; apply tk_ret].
  destruct pos; [|apply tk_ret]. apply am_end, am_boxed, tk_insert_0.
Qed.
Lemma am_dequeue c q l : queue_ok c q l -> at_most q queue_dequeue_c 1.
Proof.
  intros H. unfold queue_dequeue_c. apply am_lfb. rewrite (queue_empty_ok _ _ _ H). intros ? ? [= <- <-].
  destruct (bool_decide _) eqn:E; [eapply am_le; [apply tk_ret|lia]|]. apply am_lfb. intros v q' Ev.
  assert (q' = q) as ->.
  { apply bool_decide_eq_false in E. destruct (last l) as [w|] eqn:El; [|by apply last_none in El].
    rewrite (tail_data_ok _ _ _ _ H El) in Ev. by injection Ev. }
  apply am_end. exact (am_room _ _ _ true H).
Qed.
Lemma am_append_right c q l v : queue_ok c q l -> at_most q (deque_append_right_c v) 0.
Proof.
  intros H. unfold deque_append_right_c. apply am_lfb. intros ? ? ->%on_mem_check.
  apply am_lfb. rewrite (queue_full_ok _ _ _ H). intros ? ? [= <- <-].
  change 0 with (0 + 0). eapply am_bind.
  { destruct (is_full c l); [|apply tk_ret]. apply am_boxed. apply (tk_remove_front _ _ _ _ (queue_box _ _ _ H)). }
  intros [] q1 j j' E.
  assert (exists l', queue_ok c q1 l') as (l' & H').
  { destruct (is_full c l); [|injection E as <- <-; by exists l].
    apply (co_ok _ _ _ _ _ _ _ (co_boxed _ _ co_remove_front)) in E. pose proof (box_remove_front _ _ _ H) as Hw.
    unfold wp in Hw. rewrite E in Hw. by exists (tail l). }
  apply am_lfb. intros pos q2 E2. assert (q2 = q1) as ->. { unfold cap_positive, bind, get_state in E2. by injection E2. }
  change 0 with (0 + 0). eapply am_bind; [|intros; apply tk_ret].
  destruct pos; [|apply tk_ret]. apply am_lfb. rewrite (queue_len_ok _ _ _ H'). intros ? ? [= <- <-].
  apply am_end, am_boxed. pose proof (tk_insert_at (q_box q1) (length l') v _ _ _ (queue_box _ _ _ H')) as [Hm _].
  by rewrite walk_after in Hm.
Qed.
Lemma am_pop_left c q l : queue_ok c q l -> at_most q deque_pop_left_c 0.
Proof.
  intros H. unfold deque_pop_left_c. apply am_lfb. rewrite (queue_empty_ok _ _ _ H). intros ? ? [= <- <-].
  destruct (bool_decide _) eqn:E; [apply tk_ret|]. apply am_lfb. intros v q' Ev.
  assert (q' = q) as ->.
  { apply bool_decide_eq_false in E. destruct l as [|w l]; [done|]. rewrite (head_data_ok _ _ _ _ H) in Ev. by injection Ev. }
  apply am_end, am_boxed. apply (tk_remove_front _ _ _ _ (queue_box _ _ _ H)).
Qed.
Lemma am_deque_call c q l op : queue_ok c q l -> at_most q (deque_call_c op) 1.
Proof.
  intros H. destruct op; cbn [deque_call_c]; try (eapply am_le; [apply tk_lf|lia]); unfold as_warn, as_pair; apply am_end.
  - by eapply am_enqueue.
  - eapply am_le; [by eapply am_append_right|lia].
  - eapply am_le; [by eapply am_pop_left|lia].
  - by eapply am_dequeue.
Qed.
Lemma queue_new_inv a s q : queue_new a s = inr q -> exists c, init_cap a = inr c /\ c <> NegInf /\ within c 0.
Proof.
  destruct (bad_capacity a) as [e|] eqn:E; unfold queue_new; [by rewrite (init_cap_bad _ _ E)|].
  destruct (init_cap_good a E) as (c & Ha & _ & Hf & H0). by exists c.
Qed.
Lemma reached_deque a q : reached deque_call a q -> exists c l, queue_ok c q l.
Proof.
  intros (ops & q0 & rs & Hn & Hc). destruct (queue_new_inv _ _ _ Hn) as (c & Ha & Hf & H0).
  destruct (queue_new_ok c a st0 Ha Hf H0) as (q1 & Hn' & Hq & _). rewrite Hn in Hn'. injection Hn' as <-.
  destruct (calls_sim deque_call (queue_ok c) (deque_spec c) (deque_sim c) ops q0 [] Hq) as (s' & Hc' & Hok).
  rewrite Hc in Hc'. injection Hc' as _ ->. eauto.
Qed.
Lemma reached_queue a q : reached queue_call a q -> reached deque_call a q.
Proof.
  intros (ops & q0 & rs & Hn & Hc). exists (map as_deque ops), q0, rs. split; [done|].
  revert q0 rs Hn Hc. intros q0 rs _. revert q0 rs. induction ops as [|op ops IH]; intros q0 rs; cbn [calls map]; [done|].
  rewrite queue_call_deque. destruct (deque_call (as_deque op) q0); try done.
  all: destruct (calls queue_call s ops) as [[rs' q']|] eqn:E; [|done]; intros [= <- ->]; by rewrite (IH _ _ E).
Qed.
Lemma am_queue_call c q l op : queue_ok c q l -> at_most q (queue_call_c op) 1.
Proof.
  intros H. destruct op; cbn [queue_call_c]; try (eapply am_le; [apply tk_lf|lia]); unfold as_warn, as_pair; apply am_end.
  - by eapply am_enqueue.
  - by eapply am_dequeue.
Qed.

(** ** PriorityQueue *)
Lemma new_prio_kept o v p : kept o (new_prio_node v p).
Proof. unfold new_prio_node. case_match; [done|]. apply kept_alloc_cell. Qed.
Lemma am_pq_enqueue c q g v p : pq_ok c q g -> at_most q (pq_enqueue_c v p) 1.
Proof.
  intros H. unfold pq_enqueue_c. apply am_lfb. intros ? ? ->%on_mem_check.
  apply am_lfb. intros pr q1 E1. assert (q1 = q) as -> by (destruct p; try done; by injection E1).
  apply am_lfb. intros l q2 E2.
  apply am_lfb. intros ? ? [= <- <-]. apply am_lfb. intros ? ? [= _ <-].
  unfold queue_enqueue_node_c.
  assert (q_box q2 = q_box q /\ a_list (q_mem q2) (q_box q2) CDLL (length g)) as [Hb Hl].
  { unfold on_mem in E2. destruct (new_prio_node v pr (q_mem q)) eqn:E; try done. injection E2 as <- <-. split; [done|]. cbn.
    destruct (rep_a_list _ _ _ _ (po_rep _ _ _ H)) as (ob & Hob & ?). exists ob. split; [|done].
    apply (new_prio_kept (q_box q)) in E. congruence. }
  apply am_lfb. intros full q3 E3. assert (q3 = QSt (q_cap q2) (q_box q2) (num_min (q_min q2) pr) (num_max (q_max q2) pr) (q_mem q2)) as ->.
  { unfold queue_is_full, queue_len, boxed, on_mem, bind, get_state in E3. cbn in E3. unfold ll_len, bind, get_obj in E3.
    destruct Hl as (ob & Hob & _). rewrite Hob in E3. by injection E3. }
  change 1 with (1 + 0). eapply am_bind.
  - destruct full; [|eapply am_le; [apply tk_ret|lia]]. apply am_boxed. cbn.
    eapply am_le; [apply (tk_remove_end _ _ _ _ Hl)|apply walk_end].
  - intros. apply am_lfb. intros pos ? _. change 0 with (0 + 0). eapply am_bind; [|intros; apply tk_ret].
    destruct pos; [|apply tk_ret]. apply am_end, am_boxed, tk_insert_node_0.
Qed.
Lemma tk_prio_fold s f g : forall fuel acc pv, lseg (s_nodes s) true pv g None -> length g < fuel ->
  takes s (prio_fold_c fuel f acc (hd_loc g None)) (length g).
Proof.
  induction g as [|n g IH]; intros fuel acc pv Hs Hf.
  { destruct fuel; apply tk_ret. }
  destruct fuel as [|fuel]; [cbn in Hf; lia|]. destruct Hs as [(c & Hc & _ & _ & Hp & _ & Hn & _) Hs].
  cbn [hd_loc prio_fold_c length]. apply tk_tick, tk_lfb. rewrite (get_cell_ok _ _ _ Hc). intros ? ? [= <- <-]. rewrite Hn.
  eapply IH; [done|]. cbn in Hf. lia.
Qed.
Lemma tk_prio_scan s o f a g : rep CDLL s o g -> takes s (prio_scan_c f a o) (length g).
Proof.
  intros Hr. unfold prio_scan_c. apply tk_lfb. rewrite (ll_is_empty_ok Hr). intros ? ? [= <- <-].
  destruct g as [|n g]; [apply tk_ret|]. cbn [length Nat.eqb].
  destruct (obj_eq Hr) as (ob & Hob & _ & _ & Hhd & _). tobj Hob. apply tk_lfb. intros ? ? [= <- <-]. rewrite Hhd by done.
  pose proof (rep_seg _ _ _ _ Hr) as Hs. cbn [is_dll] in Hs. rewrite endp_dll in Hs by done.
  eapply tk_prio_fold; [exact Hs|]. pose proof (lseg_length_le _ _ _ _ _ Hs (rep_nodup _ _ _ _ Hr)). lia.
Qed.
Lemma find_c_steps s p g : forall fuel pv, lseg (s_nodes s) true pv g None -> length g < fuel ->
  at_most s (prio_find_c fuel p (hd_loc g None)) (length g)
  /\ (g <> [] -> at_least s (prio_find_c fuel p (hd_loc g None)) 1).
Proof.
  induction g as [|n g IH]; intros fuel pv Hs Hf.
  { split; [|done]. destruct fuel; apply tk_ret. }
  destruct fuel as [|fuel]; [cbn in Hf; lia|]. destruct Hs as [(c & Hc & _ & _ & Hp & _ & Hn & _) Hs].
  cbn [hd_loc prio_find_c length]. cbn in Hf. destruct (IH fuel _ Hs ltac:(lia)) as [IH1 IH2].
  assert (forall t : M cst (option loc), at_most s t (length g) -> at_most s (tick ;; t) (S (length g))) as H1.
  { intros t Ht k. specialize (Ht (S k)). unfold bind, tick. cbn. destruct (t (s, S k)) as [? []|? []|]; cbn in *; try done; lia. }
  assert (forall t : M cst (option loc), at_least s t 0 -> at_least s (tick ;; t) 1) as H2.
  { intros t Ht k. specialize (Ht (S k)). unfold bind, tick. cbn. destruct (t (s, S k)) as [? []|? []|]; cbn in *; try done; lia. }
  split.
  - apply H1, am_lfb. rewrite (get_cell_ok _ _ _ Hc). intros ? ? [= <- <-].
    destruct (bool_decide _); [eapply am_le; [apply tk_ret|lia]|]. by rewrite Hn.
  - intros _. apply H2, al_lfb. rewrite (get_cell_ok _ _ _ Hc). intros ? ? [= <- <-].
    destruct (bool_decide _); [apply tk_ret|]. rewrite Hn. destruct g as [|m g]; [destruct fuel; apply tk_ret|].
    eapply al_le; [by apply IH2|lia].
Qed.
Lemma tk_update q (b : bool) g : rep CDLL (q_mem q) (q_box q) g -> takes q (if b then update_min_c else update_max_c) (length g).
Proof.
  intros Hr. destruct b; (eapply tk_bind0; [apply tk_boxed; by apply tk_prio_scan|]); intros; apply tk_lfb; intros; apply tk_lf.
Qed.
Lemma pq_dequeue_steps c q g b : pq_ok c q g ->
  at_most q (pq_dequeue_c b) (2 * length g) /\ at_least q (pq_dequeue_c b) (length g).
Proof.
  intros H. pose proof (queue_empty_ok _ _ _ (pq_queue _ _ _ H)) as He.
  destruct (decide (g = [])) as [-> |Hne].
  { split; unfold pq_dequeue_c; [apply am_lfb|apply al_lfb]; rewrite He; intros ? ? [= <- <-]; apply tk_ret. }
  rewrite bool_decide_eq_false_2 in He by (by destruct g).
  pose proof H as [Hc Hnf H0 Hl Hr Hb].
  destruct (obj_eq Hr) as (ob & Hob & _ & _ & Hhd & _). specialize (Hhd Hne).
  pose proof (rep_seg _ _ _ _ Hr) as Hs. rewrite endp_dll in Hs by done.
  assert (length g < S (length (s_nodes (q_mem q)))) as Hlt.
  { pose proof (lseg_length_le _ _ _ _ _ Hs (rep_nodup _ _ _ _ Hr)). lia. }
  set (find := fun o : nat => let! b0 := get_obj o in let! s := get_state in
         prio_find (S (length (s_nodes s))) (if b then q_min q else q_max q) (o_head b0)).
  set (find_c := fun o : nat => let! b0 := lf (get_obj o) in let! s := lf get_state in
         prio_find_c (S (length (s_nodes s))) (if b then q_min q else q_max q) (o_head b0)).
  assert (at_most q (boxed_c find_c) (length g) /\ at_least q (boxed_c find_c) 1) as [F1 F2].
  { destruct (find_c_steps (q_mem q) (if b then q_min q else q_max q) g _ _ Hs Hlt) as [F1 F2]. specialize (F2 Hne). split.
    - apply am_boxed. unfold find_c. apply am_lfb. rewrite (get_obj_ok _ _ _ Hob). intros ? ? [= <- <-].
      apply am_lfb. intros ? ? [= <- <-]. by rewrite Hhd.
    - unfold boxed_c. apply al_lfb. intros ? ? [= <- <-].
      assert (at_least (q_mem q) (find_c (q_box q)) 1) as F3.
      { unfold find_c. apply al_lfb. rewrite (get_obj_ok _ _ _ Hob). intros ? ? [= <- <-].
        apply al_lfb. intros ? ? [= <- <-]. by rewrite Hhd. }
      intros k. specialize (F3 k). unfold on_mem_c. cbn. by destruct (find_c (q_box q) (q_mem q, k)) as [? []|? []|]. }
  set (rest := fun found : option loc => match found with
    | None => raise UnboundLocalError
    | Some l =>
        let! v := lf (on_mem (get_data l)) in
        let! pv := lf (on_mem (get_prev l)) in
        lf (boxed (fun o => remove_node o pv l)) ;;
        (if b then update_min_c else update_max_c) ;;
        ret (false, v)
    end).
  assert (forall x q' j j', boxed_c find_c (q, j) = Ok x (q', j') -> takes q' (rest x) (length g - 1)) as R.
  { intros x q' j j' E. apply (co_ok _ _ _ _ _ _ _ (co_find_box _)) in E.
    assert (forall y, prio_find (S (length (s_nodes (q_mem q)))) (if b then q_min q else q_max q) (hd_loc g None) (q_mem q) = Ok y (q_mem q) ->
      x = y /\ q' = q) as Hfind.
    { intros y Hy. assert (boxed find q = Ok y q) as E'.
      { apply boxed_ok. unfold find. erewrite bind_ok by (by apply get_obj_ok). erewrite bind_ok by done. by rewrite Hhd. }
      unfold find in E'. rewrite E in E'. by injection E'. }
    destruct (prio_find_first (q_mem q) (if b then q_min q else q_max q) g _ _ Hs Hlt) as [(g1 & n & g2 & -> & Hn & Hn1 & Hf)|[Hp Hf]];
      apply Hfind in Hf as [-> ->]; [|apply tk_raise]. cbn [rest].
    apply lseg_app in Hs as [_ [(cl & Hcl & _ & Hd & _ & _ & _ & Hpv) _]].
    assert (wp (remove_node (q_box q) (last_loc None g1) (g_loc n)) (rem_post CDLL (q_mem q) (q_box q) g1 n g2) (q_mem q)) as Hrm
      by exact (remove_node_spec _ _ _ _ _ _ Hr).
    apply wp_elim in Hrm as ([] & s' & Hrm & Hr' & _ & _).
    apply tk_lfb. intros v q1 E1. assert (q1 = q) as ->.
    { unfold on_mem, get_data in E1. erewrite bind_ok in E1 by (by apply get_cell_ok). cbn in E1. injection E1 as _ <-. by destruct q. }
    apply tk_lfb. intros pv q2 E2. assert (q2 = q /\ pv = last_loc None g1) as [-> ->].
    { unfold on_mem, get_prev in E2. erewrite bind_ok in E2 by (by apply get_cell_ok). cbn in E2. injection E2 as <- <-.
      rewrite Hpv by done. by destruct q. }
    apply tk_lfb. intros [] q3 E3. assert (q3 = with_mem q s') as ->.
    { unfold boxed, on_mem, bind at 1, get_state in E3. rewrite Hrm in E3. by injection E3. }
    eapply tk_bind0; [|intros; apply tk_ret]. eapply tk_eq; [by apply (tk_update (with_mem q s') b _ Hr')|].
    rewrite rem_ghost_length. rewrite !app_length. cbn. lia. }
  assert (length g <> 0) as Hg by (by destruct g).
  unfold pq_dequeue_c. split.
  - apply am_lfb. rewrite He. intros ? ? [= <- <-]. apply am_lfb. intros ? ? [= <- <-].
    eapply am_le; [eapply am_bind; [exact F1|]|]; [|instantiate (1 := length g - 1); lia].
    intros x q' j j' E. by apply (R _ _ _ _ E).
  - apply al_lfb. rewrite He. intros ? ? [= <- <-]. apply al_lfb. intros ? ? [= <- <-].
    eapply al_le; [eapply al_bind; [exact F2|]|]; [|instantiate (1 := length g - 1); lia].
    intros x q' j j' E. by apply (R _ _ _ _ E).
Qed.
Lemma pq_new_matches c a : init_cap a = inr c -> c <> NegInf -> within c 0 ->
  exists q, queue_new a st0 = inr q /\ matches c q new_pq.
Proof.
  intros Ha Hf H0. destruct (queue_new_ok c a st0 Ha Hf H0) as (q & Hn & [H1 H2 H3 H4 (g & Hr & Hg)] & Hmin & Hmax).
  exists q. split; [done|]. assert (g = []) as -> by (by destruct g). exists []. split; [|done]. split; try done. intros []; constructor.
Qed.
Lemma reached_pq a q : reached pq_call a q -> exists c x, matches c q x.
Proof.
  intros (ops & q0 & rs & Hn & Hc). destruct (queue_new_inv _ _ _ Hn) as (c & Ha & Hf & H0).
  destruct (pq_new_matches c a Ha Hf H0) as (q1 & Hn' & Hq). rewrite Hn in Hn'. injection Hn' as <-.
  destruct (exact_pq_calls c ops q0 new_pq Hq) as (s' & Hc' & Hok). rewrite Hc in Hc'. injection Hc' as _ ->. eauto.
Qed.
(** [n] elements of priority 0. *)
Lemma many_refs n : forall x m, held x = repeat (PNum (Fin 0), Fin 0) m -> (m = 0 -> low x = PosInf) -> (m <> 0 -> low x = Fin 0) ->
  let y := snd (pq_refs PosInf x (repeat (PEnqueue (PNum (Fin 0)) (PrNum (Fin 0))) n)) in
  held y = repeat (PNum (Fin 0), Fin 0) (m + n) /\ (m + n <> 0 -> low y = Fin 0).
Proof.
  induction n as [|n IH]; intros x m Hh Hl0 Hl; [cbn; by rewrite Nat.add_0_r|].
  cbn [repeat pq_refs]. set (x1 := snd (pq_ref PosInf x (PEnqueue (PNum (Fin 0)) (PrNum (Fin 0))))).
  assert (held x1 = repeat (PNum (Fin 0), Fin 0) (S m) /\ low x1 = Fin 0) as [H1 H2].
  { unfold x1. cbn. rewrite Hh. split; [done|]. destruct m; [by rewrite Hl0|by rewrite Hl]. }
  specialize (IH x1 (S m) H1 ltac:(done) (fun _ => H2)).
  destruct (pq_ref PosInf x (PEnqueue (PNum (Fin 0)) (PrNum (Fin 0)))) as [r y1] eqn:E. cbn [snd] in x1. subst x1.
  destruct (pq_refs PosInf y1 _) as [rs y2]. cbn [snd] in *. by rewrite Nat.add_succ_r.
Qed.
