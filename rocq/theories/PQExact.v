(** * PriorityQueue: the exact answers *)
From Coq Require Import QArith Qabs.
From Verif Require Import Base NumOrd ListModel ListSpec ListRep ListCore ListCore2 ListOps ListOps2 ListRun ListOps3 QueueModel QueueSpec QueueThm PQThm PQSpec.
Close Scope Q_scope.
Local Open Scope py_scope.

Lemma best_unique b x y ps : best b x ps -> best b y ps -> x = y.
Proof.
  intros [Hx Hx'] [Hy Hy']. rewrite Forall_forall in Hx, Hy. destruct Hx' as [-> |Hx'], Hy' as [-> |Hy']; [done| | |].
  - apply (ord_antisym b); [by apply Hx|apply ord_worst].
  - apply (ord_antisym b); [apply ord_worst|by apply Hy].
  - apply (ord_antisym b); [by apply Hx|by apply Hy].
Qed.
Lemma best_foldr b ps : best b (foldr (pick b) (worst b) ps) ps.
Proof. induction ps as [|p ps IH]; [apply best_nil|]. cbn. rewrite pick_comm. by apply best_pick. Qed.
Lemma first_of_some p l l1 v l2 : first_of p l = Some (l1, v, l2) -> l = l1 ++ (v, p) :: l2 /\ p ∉ map snd l1.
Proof.
  revert l1. induction l as [|[w q] l IH]; intros l1; [done|]. cbn. case_decide as E.
  - intros [= <- <- <-]. split; [by rewrite E|set_solver].
  - destruct (first_of p l) as [[[a b] d]|]; [|done]. intros [= <- <- <-]. destruct (IH _ eq_refl) as [-> H]. split; [done|]. cbn. set_solver.
Qed.
Lemma first_of_none p l : first_of p l = None <-> p ∉ map snd l.
Proof.
  induction l as [|[w q] l IH]; [cbn; set_solver|]. cbn. case_decide as E; [split; [done|set_solver]|].
  destruct (first_of p l) as [[[a b] d]|]; [split; [done|]|]; set_solver.
Qed.
Lemma first_of_app p l1 v l2 : p ∉ map snd l1 -> first_of p (l1 ++ (v, p) :: l2) = Some (l1, v, l2).
Proof.
  induction l1 as [|[w q] l1 IH]; cbn; intros H; [by rewrite decide_True|]. rewrite decide_False by set_solver. rewrite IH; [done|set_solver].
Qed.
Lemma prio_find_first s p g : forall fuel pv, lseg (s_nodes s) true pv g None -> length g < fuel ->
  (exists g1 n g2, g = g1 ++ n :: g2 /\ g_pri n = p /\ p ∉ pris g1
     /\ prio_find fuel p (hd_loc g None) s = Ok (Some (g_loc n)) s)
  \/ (p ∉ pris g /\ prio_find fuel p (hd_loc g None) s = Ok None s).
Proof.
  induction g as [|n g IH]; intros fuel pv Hs Hf.
  { right. split; [set_solver|]. by destruct fuel. }
  destruct fuel as [|fuel]; [cbn in Hf; lia|]. destruct Hs as [(c & Hc & _ & _ & Hp & _ & Hn & _) Hs].
  cbn [hd_loc prio_find]. erewrite bind_ok by (by apply get_cell_ok). rewrite Hn, Hp.
  destruct (decide (g_pri n = p)) as [E|E].
  { left. exists [], n, g. rewrite bool_decide_eq_true_2 by done. split_and!; try done. set_solver. }
  rewrite bool_decide_eq_false_2 by done.
  destruct (IH fuel _ Hs) as [(g1 & m & g2 & -> & Hm & Hn1 & Hf')|[Hp' Hf']]; [cbn in Hf; lia| |].
  - left. exists (n :: g1), m, g2. split_and!; try done. cbn. set_solver.
  - right. split; [|done]. cbn. set_solver.
Qed.
Lemma rem_pairs g1 n g2 : pairs (rem_ghost CDLL g1 n g2) = take_out (g_pri n) (pairs g1) (pairs g2).
Proof.
  unfold rem_ghost, take_out. destruct g1 as [|a g1]; [|by rewrite map_app]. destruct g2 as [|m [|m' g2]]; done.
Qed.

(** The model state [q] with the nodes [g] is the reference state [x]. *)
Definition matches (c : num) (q : qst) (x : pq) : Prop :=
  exists g, pq_ok c q g /\ held x = pairs g /\ low x = q_min q /\ high x = q_max q.

Lemma exact_enqueue c q x v p : matches c q x ->
  exists q', returns (pq_call (PEnqueue v p)) q (fst (pq_ref c x (PEnqueue v p))) q' /\ matches c q' (snd (pq_ref c x (PEnqueue v p))).
Proof.
  intros (g & H & Hh & Hlo & Hhi). cbn [pq_call pq_ref]. unfold as_warn, pq_enqueue.
  destruct (validate_item v) as [e|] eqn:Ev.
  { rewrite rejected_ok, Ev. exists q. split; [|by exists g].
    right. exists e. split; [done|]. apply bind_exc, bind_exc. unfold on_mem. rewrite (check_item_exc _ _ _ Ev). by destruct q. }
  rewrite rejected_ok, Ev.
  assert (on_mem (check_item v) q = Ok tt q) as Hchk.
  { unfold on_mem. rewrite check_item_ok by done. by destruct q. }
  destruct (prio_of p) as [pr|] eqn:Ep.
  2: { exists q. split; [|by exists g].
    right. eexists. split; [done|]. apply bind_exc. erewrite bind_ok by done. destruct p; try done. }
  set (n := GN (length (s_nodes (q_mem q))) (norm_item v) pr None).
  set (s1 := St (s_nodes (q_mem q) ++ [Cell true (norm_item v) None None pr None]) (s_objs (q_mem q))).
  destruct H as [Hc Hnf H0 Hl Hr Hb].
  assert (rep CDLL s1 (q_box q) g) as Hr1.
  { eapply rep_frame; [exact Hr|apply alloc_modifies|set_solver|set_solver]. }
  assert (fresh_node CDLL s1 g n) as Hf.
  { split; [| |by apply stored_norm].
    - cbn. rewrite lookup_app_r, Nat.sub_diag by lia. done.
    - intros Hin. apply (rep_bound _ _ _ _ _ Hr) in Hin. cbn in Hin. lia. }
  pose proof (enqueue_node_ok c (pushq q pr s1) g n Hc Hnf H0 Hl Hr1 Hf) as Hw.
  apply wp_elim in Hw as (w & q' & Hq' & -> & s' & -> & Hr').
  exists (with_mem (pushq q pr s1) s').
  cbn [fst snd]. rewrite Hh. split.
  { left. rewrite is_full_pairs. erewrite bind_ok; [done|]. erewrite bind_ok by done.
    erewrite (bind_ok _ _ q pr q) by (destruct p; naive_solver).
    erewrite (bind_ok _ _ q (length (s_nodes (q_mem q))) (with_mem q s1)).
    2:{ unfold on_mem, new_prio_node. rewrite Ev. done. }
    erewrite bind_ok by done. erewrite bind_ok by done. exact Hq'. }
  exists (pushed c n g). cbn [held low high]. rewrite pushed_pairs, Hlo, Hhi. split; [|done].
  split; try done; [by apply pushed_len|]. intros b. change (cache b (with_mem _ s')) with (cache b (pushq q pr s1)).
  rewrite cache_pushq. apply pushed_Forall; [apply pick_r|]. eapply Forall_impl; [apply Hb|].
  intros y Hy. eapply ord_trans; [apply pick_l|done].
Qed.
Lemma exact_dequeue c q x b : matches c q x ->
  exists q', returns (pq_call (PDequeue b)) q (fst (pq_ref c x (PDequeue b))) q' /\ matches c q' (snd (pq_ref c x (PDequeue b))).
Proof.
  intros (g & H & Hh & Hlo & Hhi). cbn [pq_call pq_ref]. unfold as_pair, pq_dequeue.
  pose proof (queue_empty_ok _ _ _ (pq_queue _ _ _ H)) as He. rewrite Hh.
  destruct (decide (g = [])) as [-> |Hne].
  { exists q. split; [|by exists []]. left. erewrite bind_ok; [|erewrite bind_ok by exact He; done]. done. }
  rewrite bool_decide_eq_false_2 in He by (by destruct g).
  pose proof H as [Hc Hnf H0 Hl Hr Hb].
  destruct (obj_eq Hr) as (ob & Hob & _ & _ & Hhd & _). specialize (Hhd Hne).
  pose proof (rep_seg _ _ _ _ Hr) as Hs. rewrite endp_dll in Hs by done.
  assert (length g < S (length (s_nodes (q_mem q)))) as Hlt.
  { pose proof (lseg_length_le _ _ _ _ _ Hs (rep_nodup _ _ _ _ Hr)). lia. }
  set (find := fun o : nat => let! b0 := get_obj o in let! s := get_state in
         prio_find (S (length (s_nodes s))) (if b then q_min q else q_max q) (o_head b0)).
  assert (forall x, prio_find (S (length (s_nodes (q_mem q)))) (cache b q) (hd_loc g None) (q_mem q) = Ok x (q_mem q) ->
    boxed find q = Ok x q) as Hfind.
  { intros y Hy. apply boxed_ok. unfold find. erewrite bind_ok by (by apply get_obj_ok).
    erewrite bind_ok by done. rewrite Hhd. exact Hy. }
  assert ((if b then low x else high x) = cache b q) as Hcache by (by destruct b).
  assert (forall (r1 r2 : bout * pq), match pairs g with [] => r1 | _ => r2 end = r2) as Hcase by (by destruct g).
  rewrite Hcase, Hcache. clear Hcase.
  destruct (prio_find_first (q_mem q) (cache b q) g _ _ Hs Hlt) as [(g1 & n & g2 & -> & Hn & Hn1 & Hf)|[Hp Hf]]; apply Hfind in Hf.
  2:{ replace (first_of (cache b q) (pairs g)) with (@None (list (pyval * num) * pyval * list (pyval * num))).
      2:{ symmetry. apply first_of_none. by rewrite pairs_pris. }
      exists q. split; [|by exists g].
      right. eexists. split; [done|]. apply bind_exc. erewrite bind_ok by exact He. cbv beta iota.
      erewrite bind_ok by done. cbv beta. erewrite bind_ok by exact Hf. done. }
  replace (first_of (cache b q) (pairs (g1 ++ n :: g2))) with (Some (pairs g1, g_val n, pairs g2)).
  2:{ rewrite map_app. cbn [map]. rewrite Hn. symmetry. apply first_of_app. by rewrite pairs_pris. }
  cbn [fst snd].
  apply lseg_app in Hs as [_ [(cl & Hcl & _ & Hd & _ & _ & _ & Hpv) _]].
  assert (wp (remove_node (q_box q) (last_loc None g1) (g_loc n)) (rem_post CDLL (q_mem q) (q_box q) g1 n g2) (q_mem q)) as Hrm
    by exact (remove_node_spec _ _ _ _ _ _ Hr).
  apply wp_elim in Hrm as ([] & s' & Hrm & Hr' & _ & _).
  destruct (update_ok b q s' _ Hr') as (q' & Hupd & Hc' & Hbx' & Hm' & Hbest & Hother).
  exists q'. split.
  { left. erewrite (bind_ok _ _ q (false, g_val n) q'); [done|]. erewrite bind_ok by exact He. cbv beta iota.
    erewrite bind_ok by done. cbv beta. erewrite bind_ok by exact Hf. cbv beta iota.
    erewrite (bind_ok _ _ q (g_val n) q).
    2:{ unfold on_mem, get_data. erewrite bind_ok by (by apply get_cell_ok). cbn. rewrite Hd. by destruct q. }
    erewrite (bind_ok _ _ q (last_loc None g1) q).
    2:{ unfold on_mem, get_prev. erewrite bind_ok by (by apply get_cell_ok). cbn. rewrite Hpv by done. by destruct q. }
    erewrite (bind_ok _ _ q tt (with_mem q s')).
    2:{ unfold boxed, on_mem, bind at 1, get_state. rewrite Hrm. done. }
    erewrite bind_ok by exact Hupd. done. }
  assert (foldr (pick b) (worst b) (map snd (take_out (cache b q) (pairs g1) (pairs g2))) = cache b q') as Hnew.
  { rewrite <- Hn, <- rem_pairs, pairs_pris. eapply best_unique; [apply best_foldr|done]. }
  exists (rem_ghost CDLL g1 n g2). cbn [held low high]. rewrite rem_pairs, Hn. split; [|split; [done|]].
  2:{ unfold lowest_of, highest_of. destruct b; cbn in Hnew, Hother; split; congruence. }
  split; rewrite ?Hbx', ?Hm', ?Hc'; try done.
  + rewrite rem_ghost_length. eapply within_le; [exact Hl|]. rewrite !app_length. cbn. lia.
  + intros b'. destruct (decide (b' = b)) as [-> |Hbb]; [apply Hbest|].
    assert (b' = negb b) as -> by (by destruct b, b'). rewrite Hother. specialize (Hb (negb b)).
    rewrite Forall_forall in Hb |- *. intros y Hy. apply Hb. by apply rem_pris_incl.
Qed.
Lemma exact_pq_step c q x op : matches c q x ->
  exists q', returns (pq_call op) q (fst (pq_ref c x op)) q' /\ matches c q' (snd (pq_ref c x op)).
Proof.
  intros HM. destruct op as [v p|b| | | | | ]; [by apply exact_enqueue|by apply exact_dequeue| | | | | ]; cbn [pq_call pq_ref];
    pose proof HM as (g & H & Hh & Hlo & Hhi); pose proof (pq_queue _ _ _ H) as Hq; rewrite ?Hh.
  - unfold as_val, queue_top. exists q. destruct (last (map fst (pairs g))) as [v|] eqn:E.
    + split; [|done]. left. erewrite bind_ok; [done|]. erewrite bind_ok by (by eapply queue_empty_ok).
      rewrite bool_decide_eq_false_2 by (by eapply last_some_ne). cbv beta iota. by eapply tail_data_ok.
    + apply last_none in E. assert (g = []) as -> by (by destruct g). split; [|done].
      right. eexists. split; [done|]. apply bind_exc. erewrite bind_ok by (by eapply queue_empty_ok). done.
  - destruct (queue_clear_ok _ _ _ Hq) as (q' & Hq' & Hok & Hmin & Hmax). exists q'.
    split; [left; unfold as_unit; by erewrite bind_ok by exact Hq'|].
    destruct Hok as [H1 H2 H3 H4 (g' & Hr & Hg')]. assert (g' = []) as -> by (by destruct g').
    exists []. split; [|done]. split; try done. intros b. constructor.
  - exists q. split; [|done]. left. unfold as_nat. erewrite bind_ok by (by eapply queue_len_ok). rewrite !map_length. done.
  - exists q. split; [|done]. left. unfold as_bool. erewrite bind_ok by (by eapply queue_empty_ok). unfold ret. do 2 f_equal.
    by destruct g.
  - exists q. split; [|done]. left. unfold as_bool. by erewrite bind_ok by (by eapply queue_full_ok).
Qed.
Lemma exact_pq_calls c ops : forall q x, matches c q x ->
  exists q', calls pq_call q ops = Some (fst (pq_refs c x ops), q') /\ matches c q' (snd (pq_refs c x ops)).
Proof.
  induction ops as [|op ops IH]; intros q x H; [by exists q|]. destruct (exact_pq_step c q x op H) as (q1 & Hret & H1).
  destruct (IH _ _ H1) as (q2 & Hrun & H2). exists q2. cbn [calls pq_refs]. destruct (pq_ref c x op) as [r x1]. cbn [fst snd] in *.
  destruct (pq_refs c x1 ops) as [rs x2]. cbn [fst snd] in *. split; [|done].
  destruct Hret as [-> |(e & -> & ->)]; by rewrite Hrun.
Qed.
Theorem pq_exact a ops :
  match bad_capacity a with
  | Some e => pq_run a ops = inl e
  | None => exists c, capacity_of a c /\ pq_run a ops = inr (Some (fst (pq_refs c new_pq ops)))
  end.
Proof.
  destruct (bad_capacity a) as [e|] eqn:E; unfold pq_run.
  { unfold queue_new. by rewrite (init_cap_bad _ _ E). }
  destruct (init_cap_good a E) as (c & Ha & Hc & Hf & H0). exists c.
  destruct (queue_new_ok c a st0 Ha Hf H0) as (q & -> & [H1 H2 H3 H4 (g & Hr & Hg)] & Hmin & Hmax).
  assert (g = []) as -> by (by destruct g).
  assert (matches c q new_pq) as HM. { exists []. split; [|done]. split; try done. intros []; constructor. }
  destruct (exact_pq_calls c ops q new_pq HM) as (q' & -> & _). done.
Qed.
(** The remembered bounds are bounds, whatever the capacity. *)
Definition bounded (x : pq) : Prop := Forall (fun i => num_le (low x) (snd i) /\ num_le (snd i) (high x)) (held x).
Lemma bounded_pris x : bounded x <-> Forall (ord true (low x)) (map snd (held x)) /\ Forall (ord false (high x)) (map snd (held x)).
Proof.
  unfold bounded. induction (held x) as [|i l IH]; cbn; [split; [done|constructor]|]. rewrite !Forall_cons, IH. unfold ord. naive_solver.
Qed.
Lemma pq_push_in c n l y : y ∈ map snd (pq_push c n l) -> y = snd n \/ y ∈ map snd l.
Proof.
  unfold pq_push. destruct (is_full c (map fst l)).
  2: { cbn. set_solver. }
  destruct l as [|z l]; [set_solver|]. destruct (exists_last (l := z :: l)) as (l' & u & ->); [done|].
  rewrite removelast_last. cbn. rewrite map_app. set_solver.
Qed.
Lemma take_out_in p v l1 l2 y : y ∈ map snd (take_out p l1 l2) -> y ∈ map snd (l1 ++ (v, p) :: l2).
Proof.
  unfold take_out. destruct l1 as [|a l1]; [|rewrite !map_app; cbn; set_solver].
  destruct l2 as [|[w q] [|z l2]]; cbn; set_solver.
Qed.
Lemma ref_bounded c x op : bounded x -> bounded (snd (pq_ref c x op)).
Proof.
  intros Hb. destruct op as [v p|b| | | | | ]; cbn [pq_ref]; try done.
  - destruct (rejected v); [done|]. destruct (prio_of p) as [pr|]; [|done]. cbn [snd]. apply bounded_pris in Hb as [Hl Hh].
    apply bounded_pris. cbn [held low high]. rewrite -> Forall_forall in Hl, Hh. split; apply Forall_forall.
    + intros y [-> |Hy]%pq_push_in; [apply (pick_r true)|]. eapply (ord_trans true); [apply (pick_l true)|by apply Hl].
    + intros y [-> |Hy]%pq_push_in; [apply (pick_r false)|]. eapply (ord_trans false); [apply (pick_l false)|by apply Hh].
  - destruct (held x) as [|i l] eqn:E; [done|]. rewrite <- E. clear E i l.
    destruct (first_of _ (held x)) as [[[l1 v] l2]|] eqn:E; [|done]. apply first_of_some in E as [E _].
    cbn [snd]. apply bounded_pris in Hb as [Hl Hh]. rewrite -> Forall_forall in Hl, Hh.
    apply bounded_pris. cbn [held low high]. pose proof (take_out_in (if b then low x else high x) v l1 l2) as Hin. rewrite <- E in Hin.
    destruct b; split.
    + apply (best_foldr true).
    + apply Forall_forall. intros y Hy%Hin. by apply Hh.
    + apply Forall_forall. intros y Hy%Hin. by apply Hl.
    + apply (best_foldr false).
  - destruct (last _); done.
  - constructor.
Qed.
Lemma refs_bounded c ops : forall x, bounded x -> bounded (snd (pq_refs c x ops)).
Proof.
  induction ops as [|op ops IH]; intros x Hx; [done|]. cbn [pq_refs]. pose proof (ref_bounded c x op Hx) as H1.
  destruct (pq_ref c x op) as [r x1]. cbn [snd] in H1. specialize (IH x1 H1). destruct (pq_refs c x1 ops); done.
Qed.
Lemma reached_bounded c ops : bounded (snd (pq_refs c new_pq ops)).
Proof. apply refs_bounded. constructor. Qed.
Lemma bounded_extreme x b : bounded x -> extreme b (if b then low x else high x) (held x).
Proof. intros H. unfold extreme. eapply Forall_impl; [exact H|]. intros i []. by destruct b. Qed.
Lemma pq_refs_app c ops1 ops2 x : pq_refs c x (ops1 ++ ops2) =
  let '(r1, x1) := pq_refs c x ops1 in let '(r2, x2) := pq_refs c x1 ops2 in (r1 ++ r2, x2).
Proof.
  revert x. induction ops1 as [|op ops1 IH]; intros x; cbn; [by destruct (pq_refs c x ops2)|].
  destruct (pq_ref c x op) as [r x1]. rewrite IH. destruct (pq_refs c x1 ops1) as [r1 x2]. by destruct (pq_refs c x2 ops2).
Qed.

(** When one dequeue is what the property asks for. *)
Lemma dequeue_fails_iff c x b : fst (pq_ref c x (PDequeue b)) = BExc UnboundLocalError <->
  held x <> [] /\ (if b then low x else high x) ∉ map snd (held x).
Proof.
  cbn [pq_ref]. destruct (held x) as [|i l] eqn:E; [by split; [|intros []]|]. rewrite <- E.
  destruct (first_of _ (held x)) as [[[l1 v] l2]|] eqn:F.
  - split; [done|]. intros [_ H]. apply first_of_none in H. by rewrite F in H.
  - apply first_of_none in F. split; [|done]. intros _. split; [|done]. by rewrite E.
Qed.
Lemma dequeue_ideal_iff c x b : bounded x ->
  pq_may c (held x) (PDequeue b) (fst (pq_ref c x (PDequeue b))) (held (snd (pq_ref c x (PDequeue b)))) <->
  held x = [] \/ (if b then low x else high x) ∈ map snd (held x)
    /\ (forall v w q y l, held x = (v, if b then low x else high x) :: (w, q) :: y :: l -> q = if b then low x else high x).
Proof.
  intros Hb. pose proof (bounded_extreme x b Hb) as Hx. cbn [pq_ref]. set (p := if b then low x else high x) in *. clearbody p.
  destruct (held x) as [|i l] eqn:E.
  { cbn. rewrite E. split; [by left|intros _; by constructor]. }
  destruct (first_of p (i :: l)) as [[[l1 v] l2]|] eqn:F.
  2: { apply first_of_none in F. cbn [fst snd]. rewrite E. split; [by inversion 1|]. intros [|[? _]]; done. }
  pose proof F as [Hl Hn]%first_of_some. rewrite Hl. rewrite Hl in Hx. cbn [fst snd held]. split.
  - intros H. right. split; [rewrite map_app; set_solver|]. intros v' w q y l' Hl'.
    destruct l1 as [|[v1 p1] l1]; cbn in Hl'; simplify_eq/=.
    2: { cbn in Hn. set_solver. }
    inversion H as [| | |lw k1 u p' k2 Hk Hp'| | | | | | | ]; subst.
    assert (p' = p) as ->.
    { apply (ord_antisym b).
      - rewrite -> Hk in Hx. unfold extreme in Hp'. rewrite -> Forall_forall in Hp'. pose proof (Hp' (v', p)) as Hq. cbn in Hq.
        unfold ord. destruct b; apply Hq; set_solver.
      - unfold extreme in Hx. rewrite -> Forall_forall in Hx. pose proof (Hx (v', p')) as Hq. cbn [snd] in Hq.
        unfold ord. destruct b; apply Hq; rewrite Hk; set_solver. }
    match goal with Hr : k1 ++ k2 = _ |- _ => rename Hr into Hres end.
    assert (Permutation ((v', p) :: (k1 ++ k2)) ((v', p) :: (w, q) :: y :: l')) as HP.
    { rewrite Hk. by rewrite Permutation_middle. }
    rewrite Hres in HP. apply (Permutation_map snd), Permutation_cons_inv in HP.
    assert (Permutation ([p] ++ map snd (y :: l')) ([q] ++ map snd (y :: l'))) as HQ by exact HP.
    apply Permutation_app_inv_r, Permutation_length_1_inv in HQ. by simplify_eq.
  - intros [|[_ Hi]]; [by destruct l1|].
    assert (take_out p l1 l2 = l1 ++ l2) as ->; [|by econstructor].
    unfold take_out. destruct l1; [|done]. destruct l2 as [|[w q] [|y l2]]; [done..|]. cbn. by rewrite (Hi v w q y l2 eq_refl).
Qed.
Lemma pq_refs_length c ops x : length (fst (pq_refs c x ops)) = length ops.
Proof.
  revert x. induction ops as [|op ops IH]; intros x; [done|]. cbn. destruct (pq_ref c x op) as [r x1].
  specialize (IH x1). destruct (pq_refs c x1 ops). cbn in *. by rewrite IH.
Qed.
