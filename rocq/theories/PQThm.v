(** * PriorityQueue: what every history does. *)
From Coq Require Import QArith Qabs.
From Verif Require Import Base NumOrd ListModel ListSpec ListRep ListCore ListCore2 ListOps ListOps2 ListRun ListOps3 QueueModel QueueSpec QueueThm.
Close Scope Q_scope.
Local Open Scope py_scope.

Definition cache (b : bool) (q : qst) : num := if b then q_min q else q_max q.
Lemma extreme_ord b p l : extreme b p l <-> Forall (ord b p) (map snd l).
Proof. unfold extreme. rewrite Forall_map. by destruct b. Qed.

(** [x] is the best of [ps] (and [worst] when there is none). *)
Definition best (b : bool) (x : num) (ps : list num) : Prop :=
  Forall (ord b x) ps /\ (x = worst b \/ x ∈ ps).
Lemma best_nil b : best b (worst b) [].
Proof. split; [constructor|by left]. Qed.
Lemma best_pick b x p ps : best b x ps -> best b (pick b x p) (p :: ps).
Proof.
  intros [H1 H2]. split.
  - constructor; [apply pick_r|]. eapply Forall_impl; [done|]. intros. eapply ord_trans; [apply pick_l|done].
  - destruct (pick_or b x p) as [-> | ->]; [|right; set_solver]. destruct H2; [by left|right; set_solver].
Qed.
Lemma best_found b x ps : best b x ps -> ps <> [] -> x ∈ ps.
Proof.
  intros [H1 [-> |?]] Hne; [|done]. destruct ps as [|p ps]; [done|]. inversion H1; subst.
  replace (worst b) with p; [set_solver|]. eapply ord_antisym; [apply ord_worst|done].
Qed.

(** ** Walking the chain *)
Notation pris g := (map g_pri g).
Notation pair_of n := (g_val n, g_pri n).
Notation pairs g := (map (fun n => (g_val n, g_pri n)) g).
Lemma pairs_vals g : map fst (pairs g) = vals g.
Proof. rewrite map_map. done. Qed.
Lemma pairs_pris g : map snd (pairs g) = pris g.
Proof. rewrite map_map. done. Qed.

Lemma prio_fold_ok s f g : forall fuel acc pv, lseg (s_nodes s) true pv g None -> length g < fuel ->
  prio_fold fuel f acc (hd_loc g None) s = Ok (fold_left (fun a n => f (g_pri n) a) g acc) s.
Proof.
  induction g as [|n g IH]; intros fuel acc pv Hs Hf.
  { destruct fuel; done. }
  destruct fuel as [|fuel]; [cbn in Hf; lia|]. destruct Hs as [(c & Hc & _ & _ & Hp & _ & Hn & _) Hs].
  cbn [hd_loc prio_fold]. erewrite bind_ok by (by apply get_cell_ok). rewrite Hn, Hp. cbn [fold_left].
  eapply IH; [done|]. cbn in Hf. lia.
Qed.
Lemma fold_best b g : forall acc ps, best b acc ps ->
  best b (fold_left (fun a n => pick b (g_pri n) a) g acc) (rev (pris g) ++ ps).
Proof.
  induction g as [|n g IH]; intros acc ps Hb; [done|]. cbn [fold_left map rev]. rewrite <- app_assoc. cbn [app].
  apply IH. rewrite pick_comm. by apply best_pick.
Qed.

Lemma lseg_length_le h d pv g q : lseg h d pv g q -> NoDup (locs g) -> length g <= length h.
Proof.
  intros Hs Hn. rewrite <- (map_length g_loc g). rewrite <- (seq_length (length h) 0).
  apply submseteq_length. apply NoDup_submseteq; [done|]. intros l Hl. apply elem_of_seq.
  split; [lia|]. by eapply lseg_bound.
Qed.

Lemma prio_scan_ok b s o g : rep CDLL s o g ->
  exists x, prio_scan (pick b) (worst b) o s = Ok x s /\ best b x (pris g).
Proof.
  intros Hr. unfold prio_scan. erewrite bind_ok by (exact (ll_is_empty_ok Hr)).
  destruct g as [|n g]; [exists (worst b); split; [done|apply best_nil]|]. cbn [length Nat.eqb].
  destruct (obj_eq Hr) as (ob & Hob & _ & _ & Hhd & _).
  erewrite bind_ok by (by apply get_obj_ok). erewrite bind_ok by done. rewrite Hhd by done.
  pose proof (rep_seg _ _ _ _ Hr) as Hs. cbn [is_dll] in Hs. rewrite endp_dll in Hs by done.
  erewrite prio_fold_ok; [|exact Hs|pose proof (lseg_length_le _ _ _ _ _ Hs (rep_nodup _ _ _ _ Hr)); lia].
  eexists. split; [done|]. pose proof (fold_best b (n :: g) _ _ (best_nil b)) as [H1 H2].
  rewrite app_nil_r in H1, H2. split.
  - apply Forall_forall. intros p Hp. rewrite Forall_forall in H1. apply H1. apply elem_of_list_In, in_rev.
    rewrite rev_involutive. by apply elem_of_list_In.
  - destruct H2 as [|H2]; [by left|right]. by apply elem_of_list_In, in_rev, elem_of_list_In.
Qed.

Lemma prio_find_ok s p g : forall fuel pv, lseg (s_nodes s) true pv g None -> length g < fuel ->
  (exists g1 n g2, g = g1 ++ n :: g2 /\ g_pri n = p
     /\ prio_find fuel p (hd_loc g None) s = Ok (Some (g_loc n)) s)
  \/ (p ∉ pris g /\ prio_find fuel p (hd_loc g None) s = Ok None s).
Proof.
  induction g as [|n g IH]; intros fuel pv Hs Hf.
  { right. split; [set_solver|]. by destruct fuel. }
  destruct fuel as [|fuel]; [cbn in Hf; lia|]. destruct Hs as [(c & Hc & _ & _ & Hp & _ & Hn & _) Hs].
  cbn [hd_loc prio_find]. erewrite bind_ok by (by apply get_cell_ok). rewrite Hn, Hp.
  destruct (decide (g_pri n = p)) as [E|E].
  { left. exists [], n, g. rewrite bool_decide_eq_true_2 by done. done. }
  rewrite bool_decide_eq_false_2 by done.
  destruct (IH fuel _ Hs) as [(g1 & m & g2 & -> & Hm & Hf')|[Hp' Hf']]; [cbn in Hf; lia| |].
  - left. by exists (n :: g1), m, g2.
  - right. split; [|done]. cbn. set_solver.
Qed.

(** ** Contents *)
Record pq_ok (c : num) (q : qst) (g : list gn) : Prop := POk {
  po_cap : q_cap q = c; po_fin : c <> NegInf; po_zero : within c 0; po_len : within c (length g);
  po_rep : rep CDLL (q_mem q) (q_box q) g;
  po_bound : forall b, Forall (ord b (cache b q)) (pris g) }.
Lemma pq_queue c q g : pq_ok c q g -> queue_ok c q (map fst (pairs g)).
Proof.
  intros [H1 H2 H3 H4 H5 _]. split; try done; [by rewrite !map_length|]. exists g. by rewrite pairs_vals.
Qed.
Lemma is_full_pairs c g : is_full c (map fst (pairs g)) = is_full c (vals g).
Proof. by rewrite pairs_vals. Qed.

Lemma remove_end_ghost s o g : rep CDLL s o g -> g <> [] ->
  wp (remove_end o) (fun _ s' => rep CDLL s' o (removelast g) /\ modifies (locs g) [o] s s'
     /\ length (s_nodes s') = length (s_nodes s)) s.
Proof.
  intros Hr Hne. unfold remove_end. apply wp_bind. eapply wp_intro; [exact (ll_is_empty_ok Hr)|].
  destruct g as [|n g' _] using rev_ind; [done|]. rewrite app_length. cbn [length].
  rewrite Nat.add_1_r. cbn [Nat.eqb].
  apply wp_bind. eapply wp_intro; [exact (ll_len_ok Hr)|]. rewrite app_length. cbn [length].
  destruct (obj_eq Hr) as (ob & Hob & Hk & Hlen & _). rewrite app_length in Hlen. cbn in Hlen.
  unfold delitem. wget_obj Hob.
  apply wp_bind. eapply wp_intro.
  { unfold check_index. erewrite bind_ok by (by apply get_obj_ok). rewrite Hk, Hlen. unfold validate_index. cbn [is_cll].
    replace (Z.leb _ _) with false by (symmetry; apply Z.leb_gt; lia). cbn [andb].
    replace (Z.ltb _ _) with false by (symmetry; apply Z.ltb_ge; lia).
    replace (Z.ltb _ _) with false by (symmetry; apply Z.ltb_ge; lia). cbn. done. }
  rewrite Hk, Hlen. cbn [is_cll].
  replace (Z.eqb _ _) with false by (symmetry; apply Z.eqb_neq; lia).
  replace (Z.to_nat _) with (length g') by lia.
  unfold remove_idx. apply wp_bind.
  destruct (get_node_spec _ _ _ _ (length g') Hr) as (cc & Hgn & Hcc); [rewrite app_length; cbn; lia|].
  eapply wp_intro; [exact Hgn|]. rewrite Hcc by (by destruct g').
  rewrite firstn_app, firstn_all, Nat.sub_diag, app_nil_r, skipn_app, skipn_all, Nat.sub_diag. cbn [app hd_loc fst snd skipn].
  apply wp_bind, wp_ret.
  eapply wp_mono; [exact (remove_node_spec _ _ _ _ _ _ Hr)|]. cbn. intros _ s' (Hr' & Hm & Hl & _).
  rewrite removelast_last. split; [|done]. unfold rem_ghost in Hr'. rewrite app_nil_r in Hr'. by destruct g'.
Qed.

(** The caches are exact for the direction [b]. *)
Definition exact_cache (b : bool) (q : qst) (g : list gn) : Prop := best b (cache b q) (pris g).
(** The call only dequeues in direction [b], and did not warn if it enqueued. *)
Definition one_way (b : bool) (op : pop) (r : bout) : Prop :=
  match op with
  | PEnqueue _ _ => forall v, r <> BRet true v
  | PDequeue b' => b' = b
  | _ => True
  end.

Record pq_result (c : num) (q : qst) (g : list gn) (op : pop) (r : bout) (q' : qst) (g' : list gn) : Prop := PRes {
  pr_ok : pq_ok c q' g';
  pr_may : pq_may c (pairs g) op r (pairs g') \/ pq_deviates (pairs g) op r (pairs g');
  pr_exact : forall b, exact_cache b q g -> one_way b op r -> exact_cache b q' g' /\ r <> BExc UnboundLocalError }.

Definition returns (m : M qst bout) (q : qst) (r : bout) (q' : qst) : Prop :=
  m q = Ok r q' \/ exists e, r = BExc e /\ m q = Exc e q'.

Lemma removelast_map {A B} (f : A -> B) l : map f (removelast l) = removelast (map f l).
Proof. induction l as [|x [|y l] IH]; cbn in *; [done|done|]. by rewrite IH. Qed.
Lemma Forall_removelast {A} (P : A -> Prop) l : Forall P l -> Forall P (removelast l).
Proof.
  induction l as [|x [|y l] IH]; cbn; [done|constructor|]. rewrite !Forall_cons. cbn in IH.
  rewrite Forall_cons in IH. naive_solver.
Qed.
Lemma removelast_incl {A} (l : list A) x : x ∈ removelast l -> x ∈ l.
Proof.
  intros H. assert (Forall (.∈ l) (removelast l)) as Hf by (apply Forall_removelast, Forall_forall; done).
  rewrite Forall_forall in Hf. by apply Hf.
Qed.

Definition pushed (c : num) (n : gn) (g : list gn) : list gn :=
  if is_full c (vals g) then match g with [] => [] | _ => n :: removelast g end else n :: g.
Lemma pushed_pairs c n g : pairs (pushed c n g) = pq_push c (pair_of n) (pairs g).
Proof.
  unfold pushed, pq_push. rewrite pairs_vals. destruct (is_full c (vals g)); [|done].
  destruct g as [|m g]; [done|]. cbn [map]. f_equal. by rewrite removelast_map.
Qed.

Definition pushq (q : qst) (p : num) (s : st) : qst :=
  QSt (q_cap q) (q_box q) (num_min (q_min q) p) (num_max (q_max q) p) s.
Lemma cache_pushq b q p s : cache b (pushq q p s) = pick b (cache b q) p.
Proof. by destruct b. Qed.

Lemma insert_front s o g n : rep CDLL s o g -> fresh_node CDLL s g n ->
  wp (insert_node_at o 0 (g_loc n)) (fun _ s' => rep CDLL s' o (n :: g)) s.
Proof.
  intros Hr Hf. unfold insert_node_at. apply wp_bind.
  destruct (get_node_spec _ _ _ _ 0 Hr) as (cc & Hgn & _); [lia|]. eapply wp_intro; [exact Hgn|].
  cbn [fst take]. change (last_loc None []) with (@None nat).
  eapply wp_mono; [apply (insert_node_spec CDLL s o [] n g); done|]. intros r s' (_ & Hr' & _). done.
Qed.

(** queue.py:260-269 from a state where the new node is already allocated. *)
Lemma enqueue_node_ok c q g n :
  q_cap q = c -> c <> NegInf -> within c 0 -> within c (length g) ->
  rep CDLL (q_mem q) (q_box q) g -> fresh_node CDLL (q_mem q) g n ->
  wp (queue_enqueue_node (g_loc n)) (fun w q' => w = is_full c (vals g) /\ exists s',
     q' = with_mem q s' /\ rep CDLL s' (q_box q) (pushed c n g)) q.
Proof.
  intros Hc Hnf H0 Hl Hr Hf.
  assert (queue_ok c q (vals g)) as Hq.
  { split; try done; [by rewrite map_length|]. by exists g. }
  unfold queue_enqueue_node. apply wp_bind. eapply wp_intro; [by eapply queue_full_ok|]. unfold pushed.
  destruct (is_full c (vals g)) eqn:E.
  - destruct g as [|m g].
    + apply wp_bind, wp_boxed. unfold remove_end. apply wp_bind. eapply wp_intro; [exact (ll_is_empty_ok Hr)|].
      apply wp_ret. rewrite with_mem_id. apply wp_bind. eapply wp_intro; [by eapply cap_zero_ok|].
      apply wp_bind, wp_ret, wp_ret. split; [done|]. exists (q_mem q). by rewrite with_mem_id.
    + apply wp_bind, wp_boxed. eapply wp_mono; [apply remove_end_ghost; [exact Hr|done]|].
      intros _ s1 (Hr1 & Hm & Hlen). set (g1 := removelast (m :: g)) in *.
      apply wp_bind. eapply wp_intro.
      { eapply (cap_positive_ok c _ (vals g1)); [|left; unfold g1; rewrite removelast_map; apply full_lt; [by rewrite map_length|done]].
        split; try done; [|by exists g1]. rewrite map_length. eapply within_le; [done|]. apply removelast_length_le. }
      apply wp_bind, wp_bind, wp_boxed. eapply wp_mono.
      { apply insert_front; [exact Hr1|]. destruct Hf as [Hcell Hnew Hst]. split; [| |done].
        - etrans; [eapply mod_nodes; [exact Hm|by eapply lookup_lt_Some|done]|exact Hcell].
        - intros Hin. apply Hnew. unfold g1 in Hin. rewrite removelast_map in Hin. by apply removelast_incl in Hin. }
      cbn. intros _ s2 Hr2. apply wp_ret, wp_ret. split; [done|]. by exists s2.
  - apply wp_bind, wp_ret, wp_bind. eapply wp_intro; [by eapply queue_ok_cap|].
    apply wp_bind, wp_bind, wp_boxed. eapply wp_mono; [by apply insert_front|].
    cbn. intros _ s2 Hr2. apply wp_ret, wp_ret. split; [done|]. by exists s2.
Qed.

Lemma pushed_len c n g : within c (length g) -> within c (length (pushed c n g)).
Proof.
  intros Hw. unfold pushed. destruct (is_full c (vals g)) eqn:E.
  - destruct g as [|m g]; [done|]. cbn [length]. by rewrite removelast_length_ne.
  - cbn [length]. rewrite <- (map_length g_val). apply within_S; [by rewrite map_length|done].
Qed.
Lemma pushed_Forall (P : num -> Prop) c n g : P (g_pri n) -> Forall P (pris g) -> Forall P (pris (pushed c n g)).
Proof.
  intros Hn Hg. unfold pushed. destruct (is_full c (vals g)).
  - destruct g as [|m g]; [done|]. cbn [map]. constructor; [done|]. rewrite removelast_map. by apply Forall_removelast.
  - cbn. by constructor.
Qed.

Lemma pq_enqueue_step c q g v p : pq_ok c q g -> exists r q' g',
  returns (pq_call (PEnqueue v p)) q r q' /\ pq_result c q g (PEnqueue v p) r q' g'.
Proof.
  intros H. cbn [pq_call]. unfold as_warn, pq_enqueue.
  destruct (validate_item v) as [e|] eqn:Ev.
  { exists (BExc e), q, g. split.
    - right. exists e. split; [done|]. apply bind_exc, bind_exc. unfold on_mem. rewrite (check_item_exc _ _ _ Ev). by destruct q.
    - split; [done| |].
      + left. apply may_reject. by rewrite rejected_ok.
      + intros b Hb _. split; [done|]. destruct v; naive_solver. }
  assert (on_mem (check_item v) q = Ok tt q) as Hchk.
  { unfold on_mem. rewrite check_item_ok by done. by destruct q. }
  destruct (prio_of p) as [pr|] eqn:Ep.
  2: { exists (BExc TypeError), q, g. split.
    - right. eexists. split; [done|]. apply bind_exc. erewrite bind_ok by done. destruct p; try done.
    - split; [done| |].
      + left. apply may_bad_prio; [by rewrite rejected_ok|done].
      + intros b Hb _. by split. }
  set (n := GN (length (s_nodes (q_mem q))) (norm_item v) pr None).
  set (s1 := St (s_nodes (q_mem q) ++ [Cell true (norm_item v) None None pr None]) (s_objs (q_mem q))).
  destruct H as [Hc Hnf H0 Hl Hr Hb].
  assert (rep CDLL s1 (q_box q) g) as Hr1.
  { eapply rep_frame; [exact Hr|apply alloc_modifies|set_solver|set_solver]. }
  assert (fresh_node CDLL s1 g n) as Hf.
  { split; [| |by apply stored_norm].
    - cbn. rewrite lookup_app_r, Nat.sub_diag by lia. done.
    - intros Hin. apply (rep_bound _ _ _ _ _ Hr) in Hin. cbn in Hin. lia. }
  pose proof (enqueue_node_ok c (pushq q pr s1) g n Hc Hnf H0 Hl Hr1 Hf) as Hw.
  apply wp_elim in Hw as (w & q' & Hq' & -> & s' & -> & Hr').
  exists (BRet (is_full c (vals g)) PNone), (with_mem (pushq q pr s1) s'), (pushed c n g).
  split.
  { left. erewrite bind_ok; [done|]. erewrite bind_ok by done.
    erewrite (bind_ok _ _ q pr q) by (destruct p; naive_solver).
    erewrite (bind_ok _ _ q (length (s_nodes (q_mem q))) (with_mem q s1)).
    2:{ unfold on_mem, new_prio_node. rewrite Ev. done. }
    erewrite bind_ok by done. erewrite bind_ok by done. exact Hq'. }
  split.
  - split; try done; [by apply pushed_len|]. intros b. change (cache b (with_mem _ s')) with (cache b (pushq q pr s1)).
    rewrite cache_pushq. apply pushed_Forall; [apply pick_r|]. eapply Forall_impl; [apply Hb|].
    intros x Hx. eapply ord_trans; [apply pick_l|done].
  - left. rewrite pushed_pairs, <- is_full_pairs. apply may_enqueue; [by rewrite rejected_ok|done].
  - intros b Hex Hway. split; [|done]. cbn in Hway. unfold exact_cache.
    change (cache b (with_mem _ s')) with (cache b (pushq q pr s1)). rewrite cache_pushq.
    unfold pushed. destruct (is_full c (vals g)); [exfalso; by eapply Hway|]. by apply best_pick.
Qed.

Lemma update_ok (b : bool) q s g : rep CDLL s (q_box q) g ->
  exists q', (if b then update_min else update_max) (with_mem q s) = Ok tt q'
   /\ q_cap q' = q_cap q /\ q_box q' = q_box q /\ q_mem q' = s
   /\ best b (cache b q') (pris g) /\ cache (negb b) q' = cache (negb b) q.
Proof.
  intros Hr. destruct (prio_scan_ok b s _ g Hr) as (x & Hx & Hb).
  assert (boxed (prio_scan (pick b) (worst b)) (with_mem q s) = Ok x (with_mem q s)) as Hbx by (by apply boxed_ok).
  destruct b; cbn [pick worst] in Hbx.
  - eexists. split; [unfold update_min; erewrite bind_ok by exact Hbx; done|]. done.
  - eexists. split; [unfold update_max; erewrite bind_ok by exact Hbx; done|]. done.
Qed.

Lemma rem_pris_incl g1 n g2 x : x ∈ pris (rem_ghost CDLL g1 n g2) -> x ∈ pris (g1 ++ n :: g2).
Proof.
  unfold rem_ghost. destruct g1 as [|a g1], g2 as [|m g2]; cbn; rewrite ?map_app; cbn; try set_solver.
  destruct g2; cbn; set_solver.
Qed.

Lemma pq_dequeue_step c q g b : pq_ok c q g -> exists r q' g',
  returns (pq_call (PDequeue b)) q r q' /\ pq_result c q g (PDequeue b) r q' g'.
Proof.
  intros H. cbn [pq_call]. unfold as_pair, pq_dequeue.
  pose proof (queue_empty_ok _ _ _ (pq_queue _ _ _ H)) as He.
  destruct (decide (g = [])) as [-> |Hne].
  { exists (BRet true PNone), q, []. split.
    - left. erewrite bind_ok; [|erewrite bind_ok by exact He; done]. done.
    - split; [done| |].
      + left. by apply may_dequeue_empty.
      + by intros b' Hb _. }
  rewrite bool_decide_eq_false_2 in He by (by destruct g).
  pose proof H as [Hc Hnf H0 Hl Hr Hb].
  destruct (obj_eq Hr) as (ob & Hob & _ & _ & Hhd & _). specialize (Hhd Hne).
  pose proof (rep_seg _ _ _ _ Hr) as Hs. rewrite endp_dll in Hs by done.
  assert (length g < S (length (s_nodes (q_mem q)))) as Hlt.
  { pose proof (lseg_length_le _ _ _ _ _ Hs (rep_nodup _ _ _ _ Hr)). lia. }
  set (find := fun o : nat => let! b0 := get_obj o in let! s := get_state in
         prio_find (S (length (s_nodes s))) (if b then q_min q else q_max q) (o_head b0)).
  assert (forall x, prio_find (S (length (s_nodes (q_mem q)))) (cache b q) (hd_loc g None) (q_mem q) = Ok x (q_mem q) ->
    boxed find q = Ok x q) as Hfind.
  { intros x Hx. apply boxed_ok. unfold find. erewrite bind_ok by (by apply get_obj_ok).
    erewrite bind_ok by done. rewrite Hhd. exact Hx. }
  destruct (prio_find_ok (q_mem q) (cache b q) g _ _ Hs Hlt) as [(g1 & n & g2 & -> & Hn & Hf)|[Hp Hf]]; apply Hfind in Hf.
  2:{ exists (BExc UnboundLocalError), q, g. split.
    - right. eexists. split; [done|]. apply bind_exc. erewrite bind_ok by exact He. cbv beta iota.
      erewrite bind_ok by done. cbv beta. erewrite bind_ok by exact Hf. done.
    - split; [done| |].
      + right. apply dev_unbound. by destruct g.
      + intros b' Hb' Hw. cbn in Hw. subst b'. apply best_found in Hb'; [done|by destruct g]. }
  assert (extreme b (g_pri n) (pairs (g1 ++ n :: g2))) as Hext.
  { apply extreme_ord. rewrite pairs_pris, Hn. apply Hb. }
  apply lseg_app in Hs as [_ [(cl & Hcl & _ & Hd & _ & _ & _ & Hpv) _]].
  assert (wp (remove_node (q_box q) (last_loc None g1) (g_loc n)) (rem_post CDLL (q_mem q) (q_box q) g1 n g2) (q_mem q)) as Hrm
    by exact (remove_node_spec _ _ _ _ _ _ Hr).
  apply wp_elim in Hrm as ([] & s' & Hrm & Hr' & _ & _).
  destruct (update_ok b q s' _ Hr') as (q' & Hupd & Hc' & Hbx' & Hm' & Hbest & Hother).
  exists (BRet false (g_val n)), q', (rem_ghost CDLL g1 n g2).
  split.
  { left. erewrite (bind_ok _ _ q (false, g_val n) q'); [done|]. erewrite bind_ok by exact He. cbv beta iota.
    erewrite bind_ok by done. cbv beta. erewrite bind_ok by exact Hf. cbv beta iota.
    erewrite (bind_ok _ _ q (g_val n) q).
    2:{ unfold on_mem, get_data. erewrite bind_ok by (by apply get_cell_ok). cbn. rewrite Hd. by destruct q. }
    erewrite (bind_ok _ _ q (last_loc None g1) q).
    2:{ unfold on_mem, get_prev. erewrite bind_ok by (by apply get_cell_ok). cbn. rewrite Hpv by done. by destruct q. }
    erewrite (bind_ok _ _ q tt (with_mem q s')).
    2:{ unfold boxed, on_mem, bind at 1, get_state. rewrite Hrm. done. }
    erewrite bind_ok by exact Hupd. done. }
  split.
  - split; rewrite ?Hbx', ?Hm', ?Hc'; try done.
    + rewrite rem_ghost_length. eapply within_le; [exact Hl|]. rewrite !app_length. cbn. lia.
    + intros b'. destruct (decide (b' = b)) as [-> |Hbb]; [apply Hbest|].
      assert (b' = negb b) as -> by (by destruct b, b'). rewrite Hother. specialize (Hb (negb b)).
      rewrite Forall_forall in Hb |- *. intros x Hx. apply Hb. by apply rem_pris_incl.
  - unfold rem_ghost. rewrite map_app in Hext |- *. cbn [map] in Hext |- *.
    destruct g1 as [|a g1].
    + destruct g2 as [|m g2]; [left; by apply (may_dequeue c _ b [] (g_val n) (g_pri n) [])|].
      cbn [is_dll andb app map] in *. destruct g2 as [|m' g2]; cbn [length Nat.eqb map].
      * left. by apply (may_dequeue c _ b [] (g_val n) (g_pri n) [_]).
      * right. by eapply dev_inherit.
    + left. rewrite map_app. by eapply may_dequeue.
  - intros b' Hex Hw. cbn in Hw. subst b'. split; [apply Hbest|done].
Qed.

Lemma pq_step c q g op : pq_ok c q g -> exists r q' g',
  returns (pq_call op) q r q' /\ pq_result c q g op r q' g'.
Proof.
  intros H. pose proof (pq_queue _ _ _ H) as Hq.
  assert (forall r, (pq_may c (pairs g) op r (pairs g)) -> r <> BExc UnboundLocalError -> pq_result c q g op r q g) as Hkeep.
  { intros r Hm Hr. split; [done|by left|by intros]. }
  destruct op as [v p|b| | | | | ]; [by apply pq_enqueue_step|by apply pq_dequeue_step| | | | | ]; cbn [pq_call].
  - unfold as_val, queue_top. destruct (last (map fst (pairs g))) as [v|] eqn:E.
    + exists (BRet false v), q, g. split.
      * left. erewrite bind_ok; [done|]. erewrite bind_ok by (by eapply queue_empty_ok).
        rewrite bool_decide_eq_false_2 by (by eapply last_some_ne). cbv beta iota. by eapply tail_data_ok.
      * apply Hkeep; [|done]. rewrite pairs_vals in E. apply last_vals in E as (g' & n & -> & <-).
        rewrite map_app. by eapply may_top.
    + exists (BExc IndexError), q, g. apply last_none in E. assert (g = []) as -> by (by destruct g). split.
      * right. eexists. split; [done|]. apply bind_exc. erewrite bind_ok by (by eapply queue_empty_ok). done.
      * apply Hkeep; [|done]. by apply may_top_empty.
  - destruct (queue_clear_ok _ _ _ Hq) as (q' & Hq' & Hok & Hmin & Hmax). exists (BRet false PNone), q', [].
    split; [left; unfold as_unit; by erewrite bind_ok by exact Hq'|].
    destruct Hok as [H1 H2 H3 H4 (g' & Hr & Hg')]. assert (g' = []) as -> by (by destruct g').
    split.
    + split; try done. intros b. constructor.
    + left. apply may_clear.
    + intros b _ _. split; [|done]. unfold exact_cache. replace (cache b q') with (worst b); [apply best_nil|].
      by destruct b.
  - exists (BNat (length g)), q, g. split.
    + left. unfold as_nat. erewrite bind_ok by (by eapply queue_len_ok). rewrite !map_length. done.
    + apply Hkeep; [|done]. rewrite <- (map_length (fun n => (g_val n, g_pri n))). apply may_len.
  - exists (BBool (bool_decide (pairs g = []))), q, g. split.
    + left. unfold as_bool. erewrite bind_ok by (by eapply queue_empty_ok). unfold ret. do 2 f_equal.
      by destruct g.
    + apply Hkeep; [|done]. apply may_empty.
  - exists (BBool (is_full c (map fst (pairs g)))), q, g. split.
    + left. unfold as_bool. by erewrite bind_ok by (by eapply queue_full_ok).
    + apply Hkeep; [|done]. apply may_full.
Qed.

Theorem pq_answers a ops :
  match bad_capacity a with
  | Some e => pq_run a ops = inl e
  | None => exists c outs l, capacity_of a c /\ pq_run a ops = inr (Some outs) /\ within c (length l)
      /\ answered (fun l op r l' => pq_may c l op r l' \/ pq_deviates l op r l') [] ops outs l
  end.
Proof.
  destruct (bad_capacity a) as [e|] eqn:E; unfold pq_run.
  { unfold queue_new. by rewrite (init_cap_bad _ _ E). }
  destruct (init_cap_good a E) as (c & Ha & Hc & Hf & H0). exists c.
  destruct (queue_new_ok c a st0 Ha Hf H0) as (q & -> & [H1 H2 H3 H4 (g & Hr & Hg)] & _).
  assert (g = []) as -> by (by destruct g).
  assert (pq_ok c q []) as Hok by (split; try done; intros []; constructor).
  change (@nil (pyval * num)) with (pairs []). clear - Hok Hc. revert q Hok. generalize (@nil gn) as g.
  induction ops as [|op ops IH]; intros g q Hok.
  - exists [], (pairs g). split; [done|]. split; [done|]. split; [rewrite map_length; apply Hok|]. constructor.
  - destruct (pq_step c q g op Hok) as (r & q' & g' & Hret & [Hok' Hmay _]).
    destruct (IH g' q' Hok') as (outs & l & _ & Hrun & Hl & Hans).
    exists (r :: outs), l. split; [done|]. split; [|split; [done|by econstructor]].
    injection Hrun as Hrun. cbn [calls]. destruct Hret as [-> |(e & -> & ->)];
      (destruct (calls pq_call q' ops) as [[rs qq]|]; [|done]); cbn in *; injection Hrun as <-; done.
Qed.

Theorem pq_one_way a ops outs b :
  pq_run a ops = inr (Some outs) ->
  (forall b', PDequeue b' ∈ ops -> b' = b) ->
  (forall i v p w, ops !! i = Some (PEnqueue v p) -> outs !! i <> Some (BRet true w)) ->
  BExc UnboundLocalError ∉ outs.
Proof.
  intros Hrun Hdir Hwarn. destruct (bad_capacity a) as [e|] eqn:E; unfold pq_run in Hrun.
  { unfold queue_new in Hrun. by rewrite (init_cap_bad _ _ E) in Hrun. }
  destruct (init_cap_good a E) as (c & Ha & Hc & Hf & H0).
  destruct (queue_new_ok c a st0 Ha Hf H0) as (q & Hq & [H1 H2 H3 H4 (g & Hr & Hg)] & Hmin & Hmax).
  rewrite Hq in Hrun. assert (g = []) as -> by (by destruct g).
  assert (pq_ok c q []) as Hok by (split; try done; intros []; constructor).
  assert (exact_cache b q []) as Hex.
  { unfold exact_cache. replace (cache b q) with (worst b); [apply best_nil|]. by destruct b. }
  injection Hrun as Hrun. clear - Hok Hex Hrun Hdir Hwarn.
  revert q outs Hok Hex Hrun Hwarn. generalize (@nil gn) as g.
  induction ops as [|op ops IH]; intros g q outs Hok Hex Hrun Hwarn; cbn [calls] in Hrun.
  { injection Hrun as <-. set_solver. }
  destruct (pq_step c q g op Hok) as (r & q' & g' & Hret & [Hok' _ Hexn]).
  assert (exists rs, outs = r :: rs /\ option_map fst (calls pq_call q' ops) = Some rs) as (rs & -> & Hrs).
  { destruct Hret as [Hret|(e & -> & Hret)]; rewrite Hret in Hrun;
      (destruct (calls pq_call q' ops) as [[rs qq]|]; [|done]); cbn in *; injection Hrun as <-; by eexists. }
  destruct (Hexn b Hex) as [Hex' Hr].
  { destruct op as [v p|b'| | | | | ]; cbn; try done.
    - intros w ->. by apply (Hwarn 0 v p w).
    - apply Hdir. set_solver. }
  apply not_elem_of_cons. split; [done|].
  eapply (IH ltac:(set_solver) g' q' rs Hok' Hex' Hrs). intros i v p w Hi. apply (Hwarn (S i) v p w Hi).
Qed.

(** ** Capacity at most two *)
Lemma removelast_len_cons {A} (x : A) l : length (removelast (x :: l)) = length l.
Proof. pose proof (removelast_length_ne (x :: l) ltac:(done)) as H. change (length (x :: l)) with (S (length l)) in H. lia. Qed.
Lemma may_within c l op r l' : within c (length l) -> pq_may c l op r l' -> within c 0 -> within c (length l').
Proof.
  intros Hw Hm H0. inversion Hm; subst; try done.
  - unfold pq_push. destruct (is_full c (map fst l)) eqn:E.
    + destruct l as [|x l]; [done|]. cbn [length]. rewrite removelast_len_cons. done.
    + cbn [length]. rewrite <- (map_length fst). apply within_S; [by rewrite map_length|done].
  - eapply within_le; [exact Hw|]. rewrite !app_length. cbn. lia.
Qed.

Lemma capacity_of_int z c : capacity_of (CapRat (inject_Z z)) c -> c = Fin z.
Proof.
  intros (_ & z' & -> & _ & Hn & _). f_equal.
  apply Qabs_Qle_condition in Hn as [H1 H2]. unfold Qle, Qminus, Qplus, Qopp, inject_Z in *. cbn in *. lia.
Qed.

Theorem pq_small z ops outs b :
  (0 <= z <= 2)%Z -> pq_run (CapRat (inject_Z z)) ops = inr (Some outs) ->
  (forall b', PDequeue b' ∈ ops -> b' = b) ->
  (forall i v p w, ops !! i = Some (PEnqueue v p) -> outs !! i <> Some (BRet true w)) ->
  exists l, answered (pq_may (Fin z)) [] ops outs l.
Proof.
  intros Hz Hrun Hdir Hwarn. pose proof (pq_one_way _ _ _ _ Hrun Hdir Hwarn) as Hno.
  pose proof (pq_answers (CapRat (inject_Z z)) ops) as Hans.
  destruct (bad_capacity _) as [e|] eqn:E; [rewrite Hans in Hrun; done|].
  destruct Hans as (c & outs' & l & Hc & Hrun' & _ & Hans). rewrite Hrun in Hrun'. injection Hrun' as <-.
  apply capacity_of_int in Hc as ->. exists l. assert (within (Fin z) (length (@nil (pyval * num)))) as Hw by (cbn; lia).
  clear Hrun Hdir Hwarn E. revert Hw Hno. induction Hans as [|l0 op r l1 ops rs l2 Hstep Hans IH]; intros Hw Hno; [constructor|].
  apply not_elem_of_cons in Hno as [Hr Hno]. destruct Hstep as [Hm|Hd].
  - econstructor; [done|]. apply IH; [|done]. eapply may_within; [done..|]. cbn. lia.
  - exfalso. inversion Hd as [|? ? ? ? ? lr Hl Hne]; subst; [done|]. destruct lr as [|x lr]; [done|]. cbn in Hw. lia.
Qed.
