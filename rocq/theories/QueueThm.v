(** * Stack, Queue and Deque refine their specifications. *)
From Coq Require Import QArith Qabs.
From Verif Require Import Base ListModel ListSpec ListRep ListCore ListCore2 ListOps ListOps2 ListRun ListOps3 QueueModel QueueSpec.
Close Scope Q_scope.
Local Open Scope py_scope.

(** ** The constructor *)
Lemma py_round_nearest q : nearest q (py_round q).
Proof.
  unfold nearest, py_round. destruct q as [n d]. cbn [Qnum Qden].
  pose proof (Z.div_mod n (Z.pos d) ltac:(lia)) as Hdm.
  pose proof (Z.mod_pos_bound n (Z.pos d) ltac:(lia)) as Hb.
  set (f := (n / Z.pos d)%Z) in *. set (r := (n mod Z.pos d)%Z) in *.
  assert (forall z : Z, (- Z.pos d <= 2 * (z * Z.pos d - n) <= Z.pos d)%Z ->
    (Qabs (inject_Z z - (n # d)) <= 1 # 2)%Q) as Hk.
  { intros z Hz. apply Qabs_Qle_condition. unfold Qle, Qminus, Qplus, Qopp, inject_Z. cbn. lia. }
  assert (forall z : Z, (- Z.pos d < 2 * (z * Z.pos d - n) < Z.pos d)%Z ->
    ~ (Qabs (inject_Z z - (n # d)) == 1 # 2)%Q) as Hlt.
  { intros z Hz Heq. assert (Qabs (inject_Z z - (n # d)) < 1 # 2)%Q as Hl.
    { apply Qabs_Qlt_condition. unfold Qlt, Qminus, Qplus, Qopp, inject_Z. cbn. lia. }
    rewrite Heq in Hl. by apply Qlt_irrefl in Hl. }
  destruct (Z.ltb_spec (2 * r) (Z.pos d)).
  { split; [apply Hk; nia|]. intros []%Hlt. nia. }
  destruct (Z.ltb_spec (Z.pos d) (2 * r)).
  { split; [apply Hk; nia|]. intros []%Hlt. nia. }
  destruct (Z.even f) eqn:Ef; (split; [apply Hk; nia|]); intros _; apply Z.even_spec; [done|].
  rewrite Z.add_1_r, Z.even_succ, <- Z.negb_even, Ef. done.
Qed.
Lemma py_round_nonneg q : (0 <= Qnum q)%Z -> (0 <= py_round q)%Z.
Proof.
  intros H. unfold py_round. pose proof (Z.div_pos (Qnum q) (Z.pos (Qden q)) H ltac:(lia)).
  repeat case_match; lia.
Qed.
Lemma py_round_int z : py_round (inject_Z z) = z.
Proof.
  unfold py_round, inject_Z. cbn [Qnum Qden]. rewrite Z.div_1_r, Z.mod_1_r. reflexivity.
Qed.

Lemma init_cap_bad a e : bad_capacity a = Some e -> init_cap a = inl e.
Proof.
  destruct a as [q| | | |]; cbn; try congruence.
  destruct (Qlt_le_dec q 0) as [H|H]; [|done]. intros [= <-].
  unfold Qlt in H. cbn in H. destruct (Z.ltb_spec (Qnum q) 0); [done|lia].
Qed.
Lemma init_cap_good a : bad_capacity a = None -> exists c, init_cap a = inr c /\ capacity_of a c /\ c <> NegInf /\ within c 0.
Proof.
  destruct a as [q| | | |]; cbn; try done.
  - destruct (Qlt_le_dec q 0) as [H|H]; [done|]. intros _.
    unfold Qle in H. cbn in H. destruct (Z.ltb_spec (Qnum q) 0); [lia|].
    eexists. split; [done|]. split.
    + split; [unfold Qle; cbn; lia|]. eexists. split; [done|]. split; [apply py_round_nonneg; lia|apply py_round_nearest].
    + split; [done|]. cbn. apply py_round_nonneg. lia.
  - intros _. by exists PosInf.
Qed.
Lemma cap_back_ok c : c <> NegInf -> within c 0 -> init_cap (cap_back c) = inr c.
Proof.
  destruct c as [|z|]; cbn; [done| |done]. intros _ Hz. rewrite py_round_int.
  destruct (Z.ltb_spec z 0); [lia|done].
Qed.

Lemma is_full_ok c l : bool_decide (Fin (Z.of_nat (length l)) = c) = is_full c l.
Proof.
  destruct c as [|z|]; cbn; try done. case_bool_decide as H.
  - injection H as ->. by rewrite Z.eqb_refl.
  - symmetry. apply Z.eqb_neq. intros ->. done.
Qed.
Lemma rejected_ok v : rejected v = validate_item v.
Proof. by destruct v. Qed.

(** ** Generic simulation *)
Lemma calls_sim {S O} (call : O -> M S bout) (R : S -> list pyval -> Prop) step :
  (forall s l op, R s l -> exists s',
      (call op s = Ok (fst (step l op)) s' \/ exists e, fst (step l op) = BExc e /\ call op s = Exc e s')
      /\ R s' (snd (step l op))) ->
  forall ops s l, R s l ->
  exists s', calls call s ops = Some (fst (spec_calls step l ops), s') /\ R s' (snd (spec_calls step l ops)).
Proof.
  intros Hstep. induction ops as [|op ops IH]; intros s l HR; cbn [calls spec_calls].
  { by exists s. }
  destruct (Hstep s l op HR) as (s' & Hc & HR'). destruct (step l op) as [r l'].
  cbn [fst snd] in *. destruct (IH s' l' HR') as (s'' & Hcs & HR'').
  destruct (spec_calls step l' ops) as [rs l'']. cbn [fst snd] in *.
  exists s''. split; [|done]. destruct Hc as [Hc|(e & -> & Hc)]; by rewrite Hc, Hcs.
Qed.

(** ** Stack *)
Record stack_ok (c : num) (s : stack) (l : list pyval) : Prop := SOk {
  so_items : sk_items s = rev l; so_cap : sk_cap s = c; so_fin : c <> NegInf;
  so_zero : within c 0; so_len : within c (length l) }.

Lemma last_rev_cons {A} (v : A) l : last (rev l ++ [v]) = Some v.
Proof. apply last_snoc. Qed.

Lemma stack_sim c s l op : stack_ok c s l -> exists s',
  (stack_call op s = Ok (fst (stack_spec c l op)) s'
   \/ exists e, fst (stack_spec c l op) = BExc e /\ stack_call op s = Exc e s')
  /\ stack_ok c s' (snd (stack_spec c l op)).
Proof.
  intros Hs. pose proof Hs as [Hi Hc Hf H0 Hl]. destruct s as [it cp]. cbn [sk_items sk_cap] in *. subst cp it.
  assert (Nat.eqb (length (rev l)) 0 = bool_decide (l = [])) as Hemp.
  { rewrite rev_length. destruct l; [by rewrite bool_decide_eq_true_2|by rewrite bool_decide_eq_false_2]. }
  destruct op as [v| | | | | | ]; cbn [stack_spec stack_call].
  - unfold as_unit, stack_push, stack_is_full, bind, get_state, ret, raise. cbn [sk_items sk_cap].
    rewrite rev_length, is_full_ok.
    replace (rejected v) with (validate_item v) by (by destruct v).
    destruct (is_full c l) eqn:E; cbn; [eexists; split; [right; eauto|done]|].
    destruct (validate_item v) as [e|]; cbn; [eexists; split; [right; eauto|done]|].
    eexists; split; [by left|]. split; cbn; [done|done|done|done|].
    destruct c as [|z|]; cbn in *; try done. apply Z.eqb_neq in E. lia.
  - unfold as_pair, stack_pop, stack_is_empty, bind, get_state, ret, raise, put_state. cbn [sk_items sk_cap].
    rewrite Hemp. destruct l as [|v l]; [eexists; split; [by left|done]|].
    rewrite bool_decide_eq_false_2 by done. cbn [rev sk_items sk_cap]. rewrite last_snoc, removelast_last.
    eexists; split; [by left|]. split; cbn; try done. destruct c; cbn in *; try done. lia.
  - unfold as_val, stack_peek, stack_is_empty, bind, get_state, ret, raise, put_state. cbn [sk_items sk_cap].
    rewrite Hemp. destruct l as [|v l]; [eexists; split; [right; eauto|done]|].
    rewrite bool_decide_eq_false_2 by done. cbn [rev sk_items sk_cap]. rewrite last_snoc.
    eexists; split; [by left|]. done.
  - unfold as_unit, stack_clear, stack_new, bind, get_state, ret, raise, put_state. cbn [sk_items sk_cap].
    rewrite cap_back_ok by done. eexists; split; [by left|]. done.
  - unfold as_nat, stack_len, bind, get_state, ret. cbn [sk_items]. rewrite rev_length.
    eexists; split; [by left|]. done.
  - unfold as_bool, stack_is_empty, bind, get_state, ret. cbn [sk_items]. rewrite Hemp.
    eexists; split; [by left|]. done.
  - unfold as_bool, stack_is_full, bind, get_state, ret. cbn [sk_items sk_cap]. rewrite rev_length, is_full_ok.
    eexists; split; [by left|]. done.
Qed.

Theorem stack_refines a ops :
  match bad_capacity a with
  | Some e => stack_run a ops = inl e
  | None => exists c, capacity_of a c /\
      stack_run a ops = inr (Some (fst (spec_calls (stack_spec c) [] ops)))
      /\ within c (length (snd (spec_calls (stack_spec c) [] ops)))
  end.
Proof.
  destruct (bad_capacity a) as [e|] eqn:E; unfold stack_run, stack_new.
  { by rewrite (init_cap_bad _ _ E). }
  destruct (init_cap_good a E) as (c & -> & Hc & Hf & H0). exists c. split; [done|].
  destruct (calls_sim stack_call (stack_ok c) (stack_spec c) (stack_sim c) ops (Stack [] c) []) as (s' & -> & Hok); [done|].
  split; [done|]. apply Hok.
Qed.

(** ** Lifting list specs to queues *)
Definition with_mem (q : qst) (s : st) : qst := QSt (q_cap q) (q_box q) (q_min q) (q_max q) s.
Lemma wp_on_mem {A} (m : M st A) (Q : A -> qst -> Prop) q :
  wp m (fun a s => Q a (with_mem q s)) (q_mem q) -> wp (on_mem m) Q q.
Proof. unfold wp, on_mem. by destruct (m (q_mem q)). Qed.
Lemma wp_boxed {A} (f : nat -> M st A) (Q : A -> qst -> Prop) q :
  wp (f (q_box q)) (fun a s => Q a (with_mem q s)) (q_mem q) -> wp (boxed f) Q q.
Proof. intros H. unfold boxed. apply wp_bind, wp_get_state. by apply wp_on_mem. Qed.
Lemma with_mem_id q : with_mem q (q_mem q) = q.
Proof. by destruct q. Qed.
Lemma boxed_ok {A} (f : nat -> M st A) q a :
  f (q_box q) (q_mem q) = Ok a (q_mem q) -> boxed f q = Ok a q.
Proof. intros H. unfold boxed, on_mem, bind, get_state. rewrite H. by destruct q. Qed.

(** [l] is the deque's contents, leftmost first. *)
Record queue_ok (c : num) (q : qst) (l : list pyval) : Prop := QOk {
  qo_cap : q_cap q = c; qo_fin : c <> NegInf; qo_zero : within c 0; qo_len : within c (length l);
  qo_rep : exists g, rep CDLL (q_mem q) (q_box q) g /\ vals g = l }.

Lemma queue_len_ok c q l : queue_ok c q l -> queue_len q = Ok (length l) q.
Proof.
  intros [_ _ _ _ (g & Hr & <-)]. unfold queue_len. apply boxed_ok. rewrite map_length. by eapply ll_len_ok.
Qed.
Lemma queue_empty_ok c q l : queue_ok c q l -> queue_is_empty q = Ok (bool_decide (l = [])) q.
Proof.
  intros [_ _ _ _ (g & Hr & <-)]. unfold queue_is_empty. apply boxed_ok.
  rewrite (ll_is_empty_ok Hr). f_equal. destruct g; [by rewrite bool_decide_eq_true_2|by rewrite bool_decide_eq_false_2].
Qed.
Lemma queue_full_ok c q l : queue_ok c q l -> queue_is_full q = Ok (is_full c l) q.
Proof.
  intros H. unfold queue_is_full. erewrite bind_ok by (by eapply queue_len_ok).
  erewrite bind_ok by done. unfold ret. rewrite (qo_cap _ _ _ H), is_full_ok. done.
Qed.
Lemma cap_positive_ok c q l : queue_ok c q l -> is_full c l = false \/ l <> [] -> cap_positive q = Ok true q.
Proof.
  intros [<- Hf H0 Hl _] Hor. unfold cap_positive, bind, get_state, ret. f_equal.
  destruct (q_cap q) as [|z|]; cbn in *; [done| |done]. apply Z.ltb_lt.
  destruct Hor as [H|H]; [apply Z.eqb_neq in H; lia|]. destruct l; [done|cbn in *; lia].
Qed.
Lemma cap_zero_ok c q : queue_ok c q [] -> is_full c [] = true -> cap_positive q = Ok false q.
Proof.
  intros [<- Hf H0 Hl _] H. unfold cap_positive, bind, get_state, ret. f_equal.
  destruct (q_cap q) as [|z|]; cbn in *; [done| |done]. apply Z.eqb_eq in H. apply Z.ltb_ge. lia.
Qed.

Lemma within_le c n m : within c n -> m <= n -> within c m.
Proof. destruct c; cbn; try done. lia. Qed.
Lemma within_S c l : within c (length l) -> is_full c l = false -> within c (S (length l)).
Proof. destruct c; cbn; try done. intros ? ?%Z.eqb_neq. lia. Qed.

Lemma queue_upd c q l g s' l' :
  queue_ok c q l -> rep CDLL (q_mem q) (q_box q) g ->
  upd CDLL (q_mem q) (q_box q) g l' s' -> within c (length l') ->
  queue_ok c (with_mem q s') l'.
Proof.
  intros [H1 H2 H3 H4 _] _ (g' & Hr' & Hv & _) Hw. split; try done. by exists g'.
Qed.

Lemma removelast_length_le {A} (l : list A) : length (removelast l) <= length l.
Proof. induction l as [|x [|y l] IH]; cbn in *; lia. Qed.
Lemma removelast_length_ne {A} (l : list A) : l <> [] -> S (length (removelast l)) = length l.
Proof. induction l as [|x [|y l] IH]; cbn in *; try done. intros _. by rewrite IH. Qed.

Lemma box_remove_end c q l : queue_ok c q l ->
  wp (boxed remove_end) (fun _ q' => queue_ok c q' (removelast l)) q.
Proof.
  intros H. pose proof (qo_rep _ _ _ H) as (g & Hr & Hv). apply wp_boxed.
  eapply wp_mono; [by apply (remove_end_spec Doubly)|]. cbn. intros _ s' Hu. rewrite Hv in Hu.
  eapply queue_upd; try done. eapply within_le; [exact (qo_len _ _ _ H)|apply removelast_length_le].
Qed.
Lemma box_remove_front c q l : queue_ok c q l ->
  wp (boxed remove_front) (fun _ q' => queue_ok c q' (tail l)) q.
Proof.
  intros H. pose proof (qo_rep _ _ _ H) as (g & Hr & Hv). apply wp_boxed.
  eapply wp_mono; [by apply (remove_front_spec Doubly)|]. cbn. intros _ s' Hu. rewrite Hv in Hu.
  eapply queue_upd; try done. eapply within_le; [exact (qo_len _ _ _ H)|]. destruct l; cbn; lia.
Qed.
Lemma box_insert c q l i v : queue_ok c q l -> storable v -> i <= length l -> is_full c l = false ->
  wp (boxed (fun o => ListModel.insert_at o i v)) (fun _ q' => queue_ok c q' (ListSpec.insert_at l i (norm_item v))) q.
Proof.
  intros H Hv Hi Hf. pose proof (qo_rep _ _ _ H) as (g & Hr & Hg). apply wp_boxed.
  eapply wp_mono; [apply insert_at_spec; [done|done|]|].
  { rewrite <- Hg, map_length in Hi. done. }
  cbn. intros _ s' Hu. rewrite Hg in Hu. eapply queue_upd; try done.
  pose proof (within_S _ _ (qo_len _ _ _ H) Hf) as Hw.
  unfold ListSpec.insert_at. rewrite app_length. cbn. rewrite firstn_length, skipn_length.
  replace (_ + _) with (S (length l)) by lia. done.
Qed.

Lemma call_wp {S} (m : M S bout) s r (Q : S -> Prop) :
  wp m (fun a s' => a = r /\ Q s') s -> exists s', m s = Ok r s' /\ Q s'.
Proof. intros (a & s' & Hm & -> & HQ)%wp_elim. by exists s'. Qed.

Lemma full_lt c l : within c (length l) -> l <> [] -> is_full c (removelast l) = false.
Proof.
  intros Hw Hl. destruct c as [|z|]; cbn in *; try done. apply Z.eqb_neq.
  pose proof (removelast_length_ne l Hl). lia.
Qed.
Lemma full_lt_tail c l : within c (length l) -> l <> [] -> is_full c (tail l) = false.
Proof. intros Hw Hl. destruct c as [|z|]; cbn in *; try done. apply Z.eqb_neq. destruct l; [done|]. cbn in *. lia. Qed.
Lemma full_same c l : within c (length l) -> is_full c l = false -> forall z, c = Fin z -> (0 < z)%Z.
Proof. intros Hw Hf z ->. cbn in *. apply Z.eqb_neq in Hf. lia. Qed.

Lemma queue_ok_cap c q l : queue_ok c q l -> is_full c l = false -> cap_positive q = Ok true q.
Proof. intros H Hf. eapply cap_positive_ok; [done|by left]. Qed.

Lemma enqueue_item_ok c q l v : queue_ok c q l -> storable v ->
  wp (queue_enqueue_item v) (fun w q' => w = is_full c l /\ queue_ok c q' (push_left c v l)) q.
Proof.
  intros H Hv. unfold queue_enqueue_item. apply wp_bind, wp_assert; [by destruct v|].
  apply wp_bind. eapply wp_intro; [by eapply queue_full_ok|]. unfold push_left.
  destruct (is_full c l) eqn:E.
  - apply wp_bind. eapply wp_mono; [by eapply box_remove_end|]. cbn. intros _ q' H'.
    destruct l as [|x l].
    + apply wp_bind. eapply wp_intro; [by eapply cap_zero_ok|]. by apply wp_ret.
    + apply wp_bind. pose proof (full_lt c (x :: l) (qo_len _ _ _ H) ltac:(done)) as Hf'.
      eapply wp_intro; [by eapply queue_ok_cap|].
      apply wp_bind, wp_bind. eapply wp_mono; [eapply box_insert; [done|done|lia|done]|].
      cbn. intros _ q2 H2. apply wp_ret. by apply wp_ret.
  - apply wp_bind, wp_ret, wp_bind. eapply wp_intro; [by eapply queue_ok_cap|].
    apply wp_bind, wp_bind. eapply wp_mono; [eapply box_insert; [done|done|lia|done]|].
    cbn. intros _ q2 H2. apply wp_ret. by apply wp_ret.
Qed.
Lemma append_right_ok c q l v : queue_ok c q l -> storable v ->
  wp (deque_append_right v) (fun w q' => w = is_full c l /\ queue_ok c q' (push_right c v l)) q.
Proof.
  intros H Hv. unfold deque_append_right. apply wp_bind, wp_on_mem.
  eapply wp_intro; [by apply check_item_ok|]. rewrite with_mem_id.
  apply wp_bind. eapply wp_intro; [by eapply queue_full_ok|]. unfold push_right.
  assert (forall q' l', queue_ok c q' l' -> is_full c l' = false ->
    wp (let! n := queue_len in boxed (fun o => ListModel.insert_at o n v) ;; ret tt)
       (fun _ q2 => queue_ok c q2 (l' ++ [norm_item v])) q') as Hins.
  { intros q' l' H' Hf'. apply wp_bind. eapply wp_intro; [by eapply queue_len_ok|].
    apply wp_bind. eapply wp_mono; [eapply box_insert; [done|done|lia|done]|].
    cbn. intros _ q2. unfold ListSpec.insert_at. by rewrite firstn_all, skipn_all. }
  destruct (is_full c l) eqn:E.
  - apply wp_bind. eapply wp_mono; [by eapply box_remove_front|]. cbn. intros _ q' H'.
    destruct l as [|x l].
    + apply wp_bind. eapply wp_intro; [by eapply cap_zero_ok|]. by apply wp_ret.
    + apply wp_bind. pose proof (full_lt_tail c (x :: l) (qo_len _ _ _ H) ltac:(done)) as Hf'.
      eapply wp_intro; [by eapply queue_ok_cap|].
      apply wp_bind. eapply wp_mono; [by apply Hins|]. intros. by apply wp_ret.
  - apply wp_bind, wp_ret, wp_bind. eapply wp_intro; [by eapply queue_ok_cap|].
    apply wp_bind. eapply wp_mono; [by apply Hins|]. intros. by apply wp_ret.
Qed.

Lemma last_vals (g : list gn) v : last (vals g) = Some v -> exists g' n, g = g' ++ [n] /\ g_val n = v.
Proof.
  destruct g as [|n g' _] using rev_ind; [done|]. rewrite map_app. cbn. rewrite last_snoc. intros [= <-]. by exists g', n.
Qed.
Lemma tail_data_ok c q l v : queue_ok c q l -> last l = Some v -> boxed tail_data q = Ok v q.
Proof.
  intros [_ _ _ _ (g & Hr & <-)] Hl. apply boxed_ok. destruct (obj_eq Hr) as (ob & Hob & _ & _ & _ & Htl).
  apply last_vals in Hl as (g' & n & -> & <-).
  unfold tail_data. erewrite bind_ok by (by apply get_obj_ok).
  rewrite Htl by (done || by destruct g'). rewrite last_loc_snoc. erewrite bind_ok by done.
  destruct (lseg_last _ _ _ _ _ _ (rep_seg _ _ _ _ Hr)) as (cl & Hcl & _ & Hd & _).
  unfold get_data. erewrite bind_ok by (by apply get_cell_ok). by rewrite <- Hd.
Qed.
Lemma head_data_ok c q v l : queue_ok c q (v :: l) -> boxed head_data q = Ok v q.
Proof.
  intros [_ _ _ _ ([|n g] & Hr & [= Hn Hg])]. apply boxed_ok. destruct (obj_eq Hr) as (ob & Hob & _ & _ & Hhd & _).
  unfold head_data. erewrite bind_ok by (by apply get_obj_ok).
  rewrite Hhd by done. cbn [hd_loc]. erewrite bind_ok by done.
  destruct (lseg_hd _ _ _ _ _ _ (rep_seg _ _ _ _ Hr)) as (cl & Hcl & _ & Hd & _).
  unfold get_data. erewrite bind_ok by (by apply get_cell_ok). by rewrite <- Hn, <- Hd.
Qed.

Lemma queue_new_ok c a s : init_cap a = inr c -> c <> NegInf -> within c 0 ->
  exists q, queue_new a s = inr q /\ queue_ok c q [] /\ q_min q = PosInf /\ q_max q = NegInf.
Proof.
  intros Ha Hf H0. unfold queue_new. rewrite Ha. cbn. eexists. split; [done|]. split; [|done]. split; try done. cbn.
  exists []. split; [|done]. split; [|done|constructor|constructor].
  do 2 eexists. split; [|done]. cbn. rewrite lookup_app_r, Nat.sub_diag by lia. done.
Qed.

Lemma queue_clear_ok c q l : queue_ok c q l ->
  exists q', queue_clear q = Ok tt q' /\ queue_ok c q' [] /\ q_min q' = PosInf /\ q_max q' = NegInf.
Proof.
  intros [<- Hf H0 Hl _]. unfold queue_clear, bind, get_state, ret.
  destruct (queue_new_ok (q_cap q) (cap_back (q_cap q)) (q_mem q)) as (q' & -> & H); [by apply cap_back_ok|done|done|].
  by exists q'.
Qed.

Lemma last_none {A} (l : list A) : last l = None -> l = [].
Proof. apply last_None. Qed.
Lemma last_some_ne {A} (l : list A) v : last l = Some v -> l <> [].
Proof. by intros ? ->. Qed.

Lemma deque_sim c q l op : queue_ok c q l -> exists q',
  (deque_call op q = Ok (fst (deque_spec c l op)) q'
   \/ exists e, fst (deque_spec c l op) = BExc e /\ deque_call op q = Exc e q')
  /\ queue_ok c q' (snd (deque_spec c l op)).
Proof.
  intros H. assert (forall m r l', wp m (fun a q' => a = r /\ queue_ok c q' l') q ->
     exists q', (m q = Ok r q' \/ exists e, r = BExc e /\ m q = Exc e q') /\ queue_ok c q' l') as Hw.
  { intros m r l' (q' & ? & ?)%call_wp. exists q'. split; [by left|done]. }
  assert (forall (m : M qst bout) e, m q = Exc e q ->
     exists q', (m q = Ok (BExc e) q' \/ exists e', BExc e = BExc e' /\ m q = Exc e' q') /\ queue_ok c q' l) as He.
  { intros m e Hm. exists q. split; [right; by exists e|done]. }
  assert (forall v e, validate_item v = Some e -> on_mem (check_item v) q = Exc e q) as Hchk.
  { intros v e Hv. unfold on_mem. rewrite (check_item_exc _ _ _ Hv). by destruct q. }
  destruct op as [v|v| | | | | | | | ]; cbn [deque_spec deque_call].
  - rewrite rejected_ok. destruct (validate_item v) as [e|] eqn:E.
    + apply He. unfold as_warn, deque_append_left, queue_enqueue. apply bind_exc, bind_exc. by apply Hchk.
    + apply Hw. unfold as_warn, deque_append_left, queue_enqueue. apply wp_bind, wp_bind, wp_on_mem.
      eapply wp_intro; [by apply check_item_ok|]. rewrite with_mem_id.
      eapply wp_mono; [by apply enqueue_item_ok|]. cbn. intros w q' [-> Hq']. by apply wp_ret.
  - rewrite rejected_ok. destruct (validate_item v) as [e|] eqn:E.
    + apply He. unfold as_warn, deque_append_right. apply bind_exc, bind_exc. by apply Hchk.
    + apply Hw. unfold as_warn. apply wp_bind.
      eapply wp_mono; [by apply append_right_ok|]. cbn. intros w q' [-> Hq']. by apply wp_ret.
  - apply Hw. destruct l as [|v l]; unfold as_pair, deque_pop_left; apply wp_bind, wp_bind.
    + eapply wp_intro; [by eapply queue_empty_ok|]. by apply wp_ret, wp_ret.
    + eapply wp_intro; [by eapply queue_empty_ok|]. apply wp_bind.
      eapply wp_intro; [by eapply head_data_ok|]. apply wp_bind.
      eapply wp_mono; [by eapply box_remove_front|]. cbn. intros _ q' Hq'. by apply wp_ret, wp_ret.
  - destruct (last l) as [v|] eqn:E; apply Hw; unfold as_pair, deque_pop_right, queue_dequeue; apply wp_bind, wp_bind.
    + eapply wp_intro; [by eapply queue_empty_ok|]. rewrite bool_decide_eq_false_2 by (by eapply last_some_ne).
      apply wp_bind. eapply wp_intro; [by eapply tail_data_ok|]. apply wp_bind.
      eapply wp_mono; [by eapply box_remove_end|]. cbn. intros _ q' Hq'. by apply wp_ret, wp_ret.
    + apply last_none in E as ->. eapply wp_intro; [by eapply queue_empty_ok|]. by apply wp_ret, wp_ret.
  - destruct l as [|v l].
    + apply He. unfold as_val, deque_get_left. apply bind_exc. erewrite bind_ok by (by eapply queue_empty_ok). done.
    + apply Hw. unfold as_val, deque_get_left. apply wp_bind, wp_bind. eapply wp_intro; [by eapply queue_empty_ok|].
      eapply wp_intro; [by eapply head_data_ok|]. by apply wp_ret.
  - destruct (last l) as [v|] eqn:E.
    + apply Hw. unfold as_val, deque_get_right, queue_top. apply wp_bind, wp_bind. eapply wp_intro; [by eapply queue_empty_ok|].
      rewrite bool_decide_eq_false_2 by (by eapply last_some_ne).
      eapply wp_intro; [by eapply tail_data_ok|]. by apply wp_ret.
    + apply last_none in E as ->. apply He. unfold as_val, deque_get_right, queue_top. apply bind_exc.
      erewrite bind_ok by (by eapply queue_empty_ok). done.
  - destruct (queue_clear_ok c q l H) as (q' & Hq' & Hok & _). apply Hw. unfold as_unit. apply wp_bind.
    eapply wp_intro; [done|]. by apply wp_ret.
  - apply Hw. apply wp_bind. eapply wp_intro; [by eapply queue_len_ok|]. by apply wp_ret.
  - apply Hw. apply wp_bind. eapply wp_intro; [by eapply queue_empty_ok|]. by apply wp_ret.
  - apply Hw. apply wp_bind. eapply wp_intro; [by eapply queue_full_ok|]. by apply wp_ret.
Qed.

Theorem deque_refines a ops :
  match bad_capacity a with
  | Some e => deque_run a ops = inl e
  | None => exists c, capacity_of a c /\
      deque_run a ops = inr (Some (fst (spec_calls (deque_spec c) [] ops)))
      /\ within c (length (snd (spec_calls (deque_spec c) [] ops)))
  end.
Proof.
  destruct (bad_capacity a) as [e|] eqn:E; unfold deque_run.
  { unfold queue_new. by rewrite (init_cap_bad _ _ E). }
  destruct (init_cap_good a E) as (c & Ha & Hc & Hf & H0). exists c. split; [done|].
  destruct (queue_new_ok c a st0 Ha Hf H0) as (q & -> & Hq & _).
  destruct (calls_sim deque_call (queue_ok c) (deque_spec c) (deque_sim c) ops q []) as (s' & -> & Hok); [done|].
  split; [done|]. apply Hok.
Qed.

(** ** Queue: a deque filled at the left and emptied at the right. *)
Definition as_deque (op : qop) : dop :=
  match op with
  | QEnqueue v => DAppendLeft v | QDequeue => DPopRight | QTop => DGetRight | QClear => DClear
  | QLen => DLen | QIsEmpty => DIsEmpty | QIsFull => DIsFull
  end.
Lemma queue_call_deque op : queue_call op = deque_call (as_deque op).
Proof. by destruct op. Qed.
Lemma is_full_rev c l : is_full c (rev l) = is_full c l.
Proof. unfold is_full. by rewrite rev_length. Qed.
Lemma queue_spec_deque c l op :
  fst (deque_spec c (rev l) (as_deque op)) = fst (queue_spec c l op)
  /\ snd (deque_spec c (rev l) (as_deque op)) = rev (snd (queue_spec c l op)).
Proof.
  destruct op as [v| | | | | | ]; cbn [queue_spec deque_spec as_deque]; rewrite ?is_full_rev, ?rev_length; try done.
  - destruct (rejected v); [done|]. split; [done|]. cbn [snd]. unfold push_left, push_right. rewrite is_full_rev.
    destruct (is_full c l); [|by rewrite rev_app_distr].
    destruct l as [|x l]; [done|]. cbn [rev]. destruct (rev l ++ [x]) eqn:E; [by destruct (rev l)|].
    rewrite <- E, removelast_last, rev_app_distr. done.
  - destruct l as [|v l]; [done|]. cbn [rev]. by rewrite last_snoc, removelast_last.
  - destruct l as [|v l]; [done|]. cbn [rev]. by rewrite last_snoc.
  - split; [|done]. cbn. f_equal. destruct l; [done|]. apply bool_decide_ext. cbn. split; [by destruct (rev l)|done].
Qed.

Theorem queue_refines a ops :
  match bad_capacity a with
  | Some e => queue_run a ops = inl e
  | None => exists c, capacity_of a c /\
      queue_run a ops = inr (Some (fst (spec_calls (queue_spec c) [] ops)))
      /\ within c (length (snd (spec_calls (queue_spec c) [] ops)))
  end.
Proof.
  destruct (bad_capacity a) as [e|] eqn:E; unfold queue_run.
  { unfold queue_new. by rewrite (init_cap_bad _ _ E). }
  destruct (init_cap_good a E) as (c & Ha & Hc & Hf & H0). exists c. split; [done|].
  destruct (queue_new_ok c a st0 Ha Hf H0) as (q & -> & Hq & _).
  destruct (calls_sim queue_call (fun q l => queue_ok c q (rev l)) (queue_spec c)) with (ops := ops) (s := q) (l := @nil pyval)
    as (s' & -> & Hok); [|done|].
  { intros s l op Hs. destruct (queue_spec_deque c l op) as [Hr Hl]. rewrite <- Hr, <- Hl, queue_call_deque.
    by apply deque_sim. }
  split; [done|]. rewrite <- rev_length. apply Hok.
Qed.
