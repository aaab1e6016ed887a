(** * Proofs about the printed form of the linear containers *)
From Coq Require Import QArith.
From Verif Require Import Base ListModel ListRep ListCore ListSpec ListRun ListSim ListThm ListThm2
  QueueModel QueueSpec QueueThm PQThm DrawModel DrawSpec.
Close Scope Q_scope.
Local Open Scope py_scope.

Implicit Types (ts : list pystr) (text : pyval -> num -> pystr).

Definition txts text (g : list gn) : list pystr := map (fun n => text (g_val n) (g_pri n)) g.

Lemma add3_assoc a b c : add3 (add3 a b) c = add3 a (add3 b c).
Proof. destruct a as [[? ?] ?], b as [[? ?] ?], c as [[? ?] ?]. cbn. by rewrite !app_assoc. Qed.
Lemma add3_nil_l a : add3 ([], [], []) a = a.
Proof. by destruct a as [[? ?] ?]. Qed.
Lemma add3_nil_r a : add3 a ([], [], []) = a.
Proof. destruct a as [[? ?] ?]. cbn. by rewrite !app_nil_r. Qed.

(** ** The heap loops *)
Definition ll_lines ts : lines3 :=
  (border [c_tl] [c_tr; c_sp] ts, boxed_line [c_ver; c_sp] [c_sp; c_ver; c_right] ts, border [c_bl] [c_br; c_sp] ts).
Definition dll_lines ts : lines3 :=
  (border [c_sp; c_tl] [c_tr] ts, boxed_line [c_both; c_ver; c_sp] [c_sp; c_ver] ts, border [c_sp; c_bl] [c_br] ts).
Definition q_lines ts : lines3 :=
  (border [] [c_dn] ts, boxed_line [c_sp] [c_sp; c_ver] ts, border [] [c_up] ts).

Lemma ll_loop_ok k text s g : k <> CDLL -> forall pv q acc,
  lseg (s_nodes s) (is_dll k) pv g q ->
  print_loop k text (length g) (hd_loc g q) acc s = Ok (add3 acc (ll_lines (txts text g))) s.
Proof.
  intros Hk. induction g as [|n g IH]; intros pv q acc Hs.
  { cbn. unfold ret. f_equal. destruct acc as [[? ?] ?]. cbn. by rewrite !app_nil_r. }
  destruct Hs as [(c & Hc & _ & Hd & Hp & _ & Hnx & _) Hs].
  cbn [length print_loop hd_loc]. erewrite bind_ok by done.
  erewrite bind_ok; cycle 1.
  { unfold print_node. instantiate (2 := ll_lines [text (g_val n) (g_pri n)]). destruct k; try done.
    - unfold ll_print_node. erewrite bind_ok by (by apply get_cell_ok). rewrite Hd, Hp.
      unfold ll_lines, border, boxed_line, hors, ret. cbn [flat_map app]. by rewrite !app_nil_r.
    - unfold ll_print_node. erewrite bind_ok by (by apply get_cell_ok). rewrite Hd, Hp.
      unfold ll_lines, border, boxed_line, hors, ret. cbn [flat_map app]. by rewrite !app_nil_r. }
  erewrite bind_ok; cycle 1.
  { unfold get_next. erewrite bind_ok by (by apply get_cell_ok). done. }
  rewrite Hnx, (IH _ _ _ Hs), add3_assoc. do 2 f_equal.
  unfold ll_lines, border, boxed_line. cbn [txts map flat_map add3]. by rewrite !app_nil_r.
Qed.

Lemma dll_loop_ok text s g : forall pv acc,
  lseg (s_nodes s) true pv g None -> g <> [] ->
  print_loop CDLL text (length g) (hd_loc g None) acc s
  = Ok (add3 acc (add3 (dll_lines (txts text g)) ([c_sp], [c_both], [c_sp]))) s.
Proof.
  induction g as [|n g IH]; intros pv acc Hs Hg; [done|].
  destruct Hs as [(c & Hc & _ & Hd & Hp & _ & Hnx & _) Hs].
  cbn [length print_loop hd_loc]. erewrite bind_ok by done.
  erewrite bind_ok; cycle 1.
  { unfold print_node, dll_print_node. erewrite bind_ok by (by apply get_cell_ok). rewrite Hd, Hp.
    erewrite bind_ok; [|unfold get_next; erewrite bind_ok by (by apply get_cell_ok); done].
    rewrite Hnx. done. }
  erewrite bind_ok; cycle 1.
  { unfold get_next. erewrite bind_ok by (by apply get_cell_ok). done. }
  rewrite Hnx. destruct g as [|n' g].
  - cbn [hd_loc length print_loop]. unfold ret. do 2 f_equal.
    unfold dll_lines, border, boxed_line. cbn [txts map flat_map]. rewrite !app_nil_r. done.
  - rewrite (IH _ _ Hs) by done. cbn [hd_loc]. rewrite !add3_assoc. do 2 f_equal. rewrite <- add3_assoc. f_equal.
Qed.

Lemma q_loop_ok text s g : forall fuel pv acc, lseg (s_nodes s) true pv g None -> length g < fuel ->
  queue_print fuel text (hd_loc g None) acc s = Ok (add3 acc (q_lines (txts text g))) s.
Proof.
  induction g as [|n g IH]; intros fuel pv acc Hs Hf.
  { destruct fuel; cbn; unfold ret; f_equal; destruct acc as [[? ?] ?]; cbn; by rewrite !app_nil_r. }
  destruct fuel as [|fuel]; [cbn in Hf; lia|]. destruct Hs as [(c & Hc & _ & Hd & Hp & _ & Hnx & _) Hs].
  cbn [queue_print hd_loc]. erewrite bind_ok by (by apply get_cell_ok). rewrite Hnx, Hd, Hp.
  erewrite IH; [|done|cbn in Hf; lia]. rewrite add3_assoc. do 2 f_equal.
Qed.

Lemma list_repr_ok text k s o g : rep (mcls k) s o g ->
  list_repr text o s = Ok (joined (list_picture k (txts text g))) s.
Proof.
  intros Hr. destruct (obj_eq Hr) as (ob & Hob & Hk & Hlen & Hhd & _).
  pose proof (rep_seg _ _ _ _ Hr) as Hs.
  unfold list_repr, ll_is_empty. erewrite bind_ok; [|erewrite bind_ok by (by apply get_obj_ok); done].
  rewrite Hlen. destruct g as [|n g]; [by destruct k|]. cbn [length Nat.eqb].
  erewrite bind_ok by (by apply get_obj_ok).
  assert (forall l, print_loop (mcls k) text (length (n :: g)) (hd_loc (n :: g) (endp (mcls k) (n :: g))) ([], [], []) s = Ok l s ->
    print_linked_list text o s = Ok l s) as Hpl.
  { intros l Hl. unfold print_linked_list. erewrite bind_ok by (by apply get_obj_ok).
    rewrite Hhd by done. cbn [hd_loc]. rewrite Hk, Hlen. exact Hl. }
  rewrite Hk. destruct k.
  - erewrite bind_ok by (apply Hpl; by eapply ll_loop_ok). rewrite add3_nil_l. done.
  - erewrite bind_ok by (apply Hpl; by eapply dll_loop_ok). rewrite add3_nil_l. done.
  - erewrite bind_ok by (apply Hpl; by eapply ll_loop_ok). rewrite add3_nil_l. cbn [mcls].
    unfold ll_lines at 1. cbv beta iota zeta.
    rewrite Hhd by done. cbn [hd_loc]. erewrite bind_ok by done.
    destruct Hs as [(c & Hc & _ & Hd & Hp & _) _].
    erewrite bind_ok by (by apply get_cell_ok). rewrite Hd, Hp. unfold ret. f_equal.
    set (M := boxed_line _ _ _). rewrite (app_length M). cbn [length].
    replace (length M + 2 - 2) with (length M) by lia. subst M. done.
Qed.

Theorem lists_print show k ops outs w : spec_run k [] ops = Some (outs, w) ->
  exists s env, model_run k conf0 ops = Some (outs, (s, env)) /\
  forall x vs, w !! x = Some (Some vs) ->
  exists o, env !! x = Some o
    /\ list_repr (fun d _ => show d) o s = Ok (joined (list_picture k (map show vs))) s.
Proof.
  intros Hs. destruct (run_rel _ _ _ _ Hs) as ([s env] & Hrun & HR). exists s, env. split; [done|].
  intros x vs Hx. destruct (rel_var_rep _ _ _ _ _ _ HR Hx) as (o & g & Ho & Hr & <-). exists o. split; [done|].
  rewrite (list_repr_ok (fun d _ => show d) k s o g Hr). do 2 f_equal. unfold txts. by rewrite map_map.
Qed.

(** ** Stack *)
Lemma stack_print_ok show l acc : stack_print show l acc = add3 acc (q_lines (map show l)).
Proof.
  revert acc. induction l as [|v l IH]; intros acc; cbn [stack_print].
  { destruct acc as [[? ?] ?]. cbn. by rewrite !app_nil_r. }
  rewrite IH, add3_assoc. f_equal.
Qed.

Theorem stack_prints show a ops :
  bad_capacity a = None ->
  exists s0 c s, stack_new a = inr s0 /\ capacity_of a c
    /\ calls stack_call s0 ops = Some (fst (spec_calls (stack_spec c) [] ops), s)
    /\ stack_repr show s = Ok (joined (stack_picture (map show (rev (snd (spec_calls (stack_spec c) [] ops)))))) s.
Proof.
  intros E. destruct (init_cap_good a E) as (c & Ha & Hc & Hf & H0).
  destruct (calls_sim stack_call (stack_ok c) (stack_spec c) (stack_sim c) ops (Stack [] c) []) as (s' & Hr & Hok); [done|].
  exists (Stack [] c), c, s'. split; [unfold stack_new; by rewrite Ha|]. split; [done|]. split; [done|].
  unfold stack_repr, bind, get_state, ret. rewrite (so_items _ _ _ Hok), stack_print_ok. done.
Qed.

(** ** Queue, Deque, PriorityQueue *)
Lemma print_queue_ok d text q g : rep CDLL (q_mem q) (q_box q) g -> g <> [] ->
  print_queue d text q = Ok (joined (queue_picture d (txts text g))) q.
Proof.
  intros Hr Hg. destruct (obj_eq Hr) as (ob & Hob & Hk & Hlen & Hhd & _).
  unfold print_queue. erewrite bind_ok; cycle 1.
  { apply boxed_ok. erewrite bind_ok by (by apply get_obj_ok). erewrite bind_ok by done. rewrite Hhd by done.
    eapply q_loop_ok; [exact (rep_seg _ _ _ _ Hr)|].
    pose proof (lseg_length_le _ _ _ _ _ (rep_seg _ _ _ _ Hr) (rep_nodup _ _ _ _ Hr)). lia. }
  erewrite bind_ok; cycle 1.
  { unfold queue_is_empty. apply boxed_ok. unfold ll_is_empty. by erewrite bind_ok by (by apply get_obj_ok). }
  rewrite Hlen. destruct g as [|n g]; [done|]. done.
Qed.

Theorem deque_prints show a ops : bad_capacity a = None ->
  exists q0 c q, queue_new a st0 = inr q0 /\ capacity_of a c
    /\ calls deque_call q0 ops = Some (fst (spec_calls (deque_spec c) [] ops), q)
    /\ (snd (spec_calls (deque_spec c) [] ops) <> [] ->
        deque_repr (fun d _ => show d) q
        = Ok (joined (queue_picture c_both (map show (snd (spec_calls (deque_spec c) [] ops))))) q).
Proof.
  intros E. destruct (init_cap_good a E) as (c & Ha & Hc & Hf & H0).
  destruct (queue_new_ok c a st0 Ha Hf H0) as (q & Hq0 & Hq & _).
  destruct (calls_sim deque_call (queue_ok c) (deque_spec c) (deque_sim c) ops q []) as (q' & Hr & Hok); [done|].
  exists q, c, q'. split; [done|]. split; [done|]. split; [done|]. intros Hne.
  destruct (qo_rep _ _ _ Hok) as (g & Hg & Hv). unfold deque_repr.
  rewrite (print_queue_ok _ _ _ g Hg) by (intros ->; by rewrite <- Hv in Hne).
  do 2 f_equal. unfold txts. by rewrite <- Hv, map_map.
Qed.

Theorem queue_prints show a ops : bad_capacity a = None ->
  exists q0 c q, queue_new a st0 = inr q0 /\ capacity_of a c
    /\ calls queue_call q0 ops = Some (fst (spec_calls (queue_spec c) [] ops), q)
    /\ (snd (spec_calls (queue_spec c) [] ops) <> [] ->
        queue_repr (fun d _ => show d) q
        = Ok (joined (queue_picture c_right (map show (rev (snd (spec_calls (queue_spec c) [] ops)))))) q).
Proof.
  intros E. destruct (init_cap_good a E) as (c & Ha & Hc & Hf & H0).
  destruct (queue_new_ok c a st0 Ha Hf H0) as (q & Hq0 & Hq & _).
  destruct (calls_sim queue_call (fun q l => queue_ok c q (rev l)) (queue_spec c)) with (ops := ops) (s := q) (l := @nil pyval)
    as (q' & Hr & Hok); [|done|].
  { intros s l op Hs. destruct (queue_spec_deque c l op) as [Hr Hl]. rewrite <- Hr, <- Hl, queue_call_deque.
    by apply deque_sim. }
  exists q, c, q'. split; [done|]. split; [done|]. split; [done|]. intros Hne.
  destruct (qo_rep _ _ _ Hok) as (g & Hg & Hv). unfold queue_repr.
  rewrite (print_queue_ok _ _ _ g Hg); cycle 1.
  { intros ->. apply Hne. cbn in Hv. destruct (snd _) as [|y l]; [done|]. cbn in Hv. by destruct (rev l). }
  do 2 f_equal. unfold txts. by rewrite <- Hv, map_map.
Qed.

(** The contents of the priority queue are what C15 finds; what is printed is them. *)
Theorem pq_prints text a ops : bad_capacity a = None ->
  exists q0 c q outs l, queue_new a st0 = inr q0 /\ capacity_of a c
    /\ calls pq_call q0 ops = Some (outs, q)
    /\ answered (fun l op r l' => pq_may c l op r l' \/ pq_deviates l op r l') [] ops outs l
    /\ (l <> [] -> queue_repr text q
        = Ok (joined (queue_picture c_right (map (fun x => text (fst x) (snd x)) l))) q).
Proof.
  intros E. destruct (init_cap_good a E) as (c & Ha & Hc & Hf & H0).
  destruct (queue_new_ok c a st0 Ha Hf H0) as (q & Hq & [H1 H2 H3 H4 (g & Hr & Hg)] & _). exists q, c.
  assert (g = []) as -> by (by destruct g).
  assert (pq_ok c q []) as Hok by (split; try done; intros []; constructor).
  assert (forall g q, pq_ok c q g -> exists q' outs l, calls pq_call q ops = Some (outs, q')
    /\ answered (fun l op r l' => pq_may c l op r l' \/ pq_deviates l op r l') (pairs g) ops outs l
    /\ (l <> [] -> queue_repr text q' = Ok (joined (queue_picture c_right (map (fun x => text (fst x) (snd x)) l))) q'))
    as Hgen; [|destruct (Hgen _ _ Hok) as (q' & outs & l & Hx); by exists q', outs, l; split; [done|split; [done|]]].
  clear.
  induction ops as [|op ops IH]; intros g q Hok.
  - exists q, [], (pairs g). split; [done|]. split; [constructor|]. intros Hne. unfold queue_repr.
    destruct Hok as [? ? ? ? Hrep ?]. rewrite (print_queue_ok _ _ _ g Hrep) by (by intros ->). do 2 f_equal. unfold txts. by rewrite map_map.
  - destruct (pq_step c q g op Hok) as (r & q' & g' & Hret & [Hok' Hmay _]).
    destruct (IH g' q' Hok') as (qq & outs & l & Hrun & Hans & Hpr).
    exists qq, (r :: outs), l. split; [|split; [by econstructor|done]].
    cbn [calls]. destruct Hret as [-> |(e & -> & ->)]; by rewrite Hrun.
Qed.

(** ** What a picture tells *)
Lemma border_length b a ts : length (border b a ts) = length (boxed_line (b ++ [c_sp]) (c_sp :: a) ts).
Proof.
  unfold border, boxed_line. induction ts as [|t ts IH]; [done|]. cbn [flat_map].
  rewrite !app_length, repeat_length. cbn [length]. rewrite IH. lia.
Qed.
Lemma border_length2 b a b' a' ts : length b = length b' -> length a = length a' ->
  length (border b a ts) = length (border b' a' ts).
Proof.
  intros Hb Ha. unfold border. induction ts as [|t ts IH]; [done|]. cbn [flat_map].
  rewrite !app_length, IH. lia.
Qed.
Lemma boxed_length2 b a b' a' ts : length b = length b' -> length a = length a' ->
  length (boxed_line b a ts) = length (boxed_line b' a' ts).
Proof.
  intros Hb Ha. unfold boxed_line. induction ts as [|t ts IH]; [done|]. cbn [flat_map].
  rewrite !app_length, IH. lia.
Qed.

Lemma hors_split n m x y r r' : x <> c_hor -> y <> c_hor ->
  repeat c_hor n ++ x :: r = repeat c_hor m ++ y :: r' -> n = m /\ x :: r = y :: r'.
Proof.
  intros Hx Hy. revert m. induction n as [|n IH]; intros [|m] E; cbn in E.
  - done.
  - injection E as E1 E. done.
  - injection E as E1 E. by subst.
  - injection E as E. destruct (IH m E) as [-> ?]. done.
Qed.

(** The border determines the widths. *)
Lemma border_inj b x a e ts1 ts2 : x <> c_hor -> length e < 3 ->
  border b (x :: a) ts1 ++ e = border b (x :: a) ts2 ++ e -> map length ts1 = map length ts2.
Proof.
  intros Hx He. revert ts2. induction ts1 as [|t ts1 IH]; intros [|u ts2] E; cbn [border flat_map app] in E.
  - done.
  - exfalso. apply (f_equal length) in E. rewrite !app_length, repeat_length in E. cbn in E. lia.
  - exfalso. apply (f_equal length) in E. rewrite !app_length, repeat_length in E. cbn in E. lia.
  - rewrite <- !app_assoc in E. apply app_inv_head in E. cbn [app] in E.
    apply hors_split in E as [En E]; [|done..]. injection E as E. apply app_inv_head in E.
    cbn [map]. f_equal; [lia|]. by apply IH.
Qed.
Lemma boxed_inj b a e ts1 ts2 : map length ts1 = map length ts2 ->
  boxed_line b a ts1 ++ e = boxed_line b a ts2 ++ e -> ts1 = ts2.
Proof.
  revert ts2. induction ts1 as [|t ts1 IH]; intros [|u ts2] Hl E; try done.
  cbn [boxed_line flat_map map] in *. injection Hl as Ht Hl. rewrite <- !app_assoc in E.
  apply app_inv_head in E. apply app_inj_1 in E as [-> E]; [|done]. apply app_inv_head in E. f_equal. by apply IH.
Qed.
Lemma boxed_length_eq b a ts1 ts2 : map length ts1 = map length ts2 ->
  length (boxed_line b a ts1) = length (boxed_line b a ts2).
Proof.
  revert ts2. induction ts1 as [|t ts1 IH]; intros [|u ts2] Hl; try done.
  cbn [boxed_line flat_map map] in *. injection Hl as Ht Hl. rewrite !app_length, Ht. f_equal. exact (IH ts2 Hl).
Qed.

Lemma repeat_no_nl c n : c <> c_nl -> c_nl ∉ repeat c n.
Proof. intros Hc Hin. apply elem_of_list_In, repeat_spec in Hin. congruence. Qed.
Lemma border_no_nl b a ts : c_nl ∉ b -> c_nl ∉ a -> c_nl ∉ border b a ts.
Proof.
  intros Hb Ha. induction ts as [|t ts IH]; cbn; [set_solver|]. rewrite !not_elem_of_app. split_and!; try done.
  by apply repeat_no_nl.
Qed.
Lemma first_line_inj (t1 t2 r1 r2 : pystr) : c_nl ∉ t1 -> c_nl ∉ t2 ->
  t1 ++ c_nl :: r1 = t2 ++ c_nl :: r2 -> t1 = t2 /\ r1 = r2.
Proof.
  revert t2. induction t1 as [|c t1 IH]; intros [|d t2] H1 H2 E; cbn in E.
  - by injection E.
  - injection E as E0 E. exfalso. apply H2. rewrite <- E0. by left.
  - injection E as E0 E. exfalso. apply H1. rewrite E0. by left.
  - injection E as -> E. apply not_elem_of_cons in H1 as [_ H1], H2 as [_ H2].
    destruct (IH t2 H1 H2 E) as [-> ->]. done.
Qed.

(** Two pictures of which the first lines are borders without newlines that fix the
    widths, and the second lines are the texts. *)
Lemma pic_inj b x a e pre b' a' e' pre' ts1 ts2 r1 r2 : x <> c_hor -> length e < 3 ->
  c_nl ∉ pre -> c_nl ∉ b -> c_nl ∉ x :: a -> c_nl ∉ e ->
  (pre ++ border b (x :: a) ts1 ++ e) ++ c_nl :: (pre' ++ boxed_line b' a' ts1 ++ e') ++ r1
  = (pre ++ border b (x :: a) ts2 ++ e) ++ c_nl :: (pre' ++ boxed_line b' a' ts2 ++ e') ++ r2 ->
  ts1 = ts2.
Proof.
  intros Hx He Hpre Hb Ha Hne E.
  apply first_line_inj in E as [E1 E2];
    [|rewrite !not_elem_of_app; split_and!; try done; by apply border_no_nl..].
  apply app_inv_head in E1. apply border_inj in E1; [|done..].
  rewrite <- !app_assoc in E2. apply app_inv_head in E2.
  apply app_inj_1 in E2 as [E2 _]; [|by apply boxed_length_eq].
  apply (boxed_inj b' a' [] ts1 ts2 E1). by rewrite E2.
Qed.

Ltac no_nl := repeat (apply not_elem_of_cons; split; [done|]); apply not_elem_of_nil.

Lemma app_snoc_cons {A} (x : list A) y z : (x ++ [y]) ++ z = x ++ y :: z.
Proof. by rewrite <- app_assoc. Qed.

Theorem list_picture_inj k ts1 ts2 : joined (list_picture k ts1) = joined (list_picture k ts2) -> ts1 = ts2.
Proof.
  assert (forall t ts, joined (list_picture k []) <> joined (list_picture k (t :: ts))) as Hempty.
  { intros t ts. destruct k; cbn; replace (length t + 2) with (S (S (length t))) by lia; cbn; intros E; discriminate E. }
  destruct ts1 as [|t1 ts1], ts2 as [|t2 ts2];
    [done|intros E; by destruct (Hempty _ _ E)|intros E; symmetry in E; by destruct (Hempty _ _ E)|].
  intros E. destruct k; cbn [list_picture joined] in E.
  - eapply (pic_inj [c_tl] c_tr [c_sp] [] [] _ _ [] []); [done|cbn; lia|no_nl..|].
    rewrite !(app_nil_r (border _ _ _)), !(app_nil_r (boxed_line _ _ _)). exact E.
  - eapply (pic_inj [c_sp; c_tl] c_tr [] [c_sp] [] _ _ [c_both] []); [done|cbn; lia|no_nl..|].
    exact E.
  - eapply (pic_inj [c_tl] c_tr [c_sp] [] [] _ _ [c_sp; c_tr] []); [done|cbn; lia|no_nl..|].
    rewrite !(app_nil_r (border _ _ _)). exact E.
Qed.
Theorem stack_picture_inj ts1 ts2 : joined (stack_picture ts1) = joined (stack_picture ts2) -> ts1 = ts2.
Proof.
  intros E. eapply (pic_inj [] c_dn [] [c_hor] [c_tl] _ _ [c_sp] [c_ver]); [done|cbn; lia|no_nl..|]. exact E.
Qed.
Theorem queue_picture_inj d ts1 ts2 : joined (queue_picture d ts1) = joined (queue_picture d ts2) -> ts1 = ts2.
Proof.
  assert (forall t ts, joined (queue_picture d []) <> joined (queue_picture d (t :: ts))) as Hempty.
  { intros t ts. cbn; replace (length t + 2) with (S (S (length t))) by lia; cbn; intros E; discriminate E. }
  destruct ts1 as [|t1 ts1], ts2 as [|t2 ts2];
    [done|intros E; by destruct (Hempty _ _ E)|intros E; symmetry in E; by destruct (Hempty _ _ E)|].
  intros E. eapply (pic_inj [] c_dn [] [c_hor] [c_hor; c_dn] _ _ [d] [d; c_ver]); [done|cbn; lia|no_nl..|]. exact E.
Qed.

(** ** Alignment *)
Definition aligned (ls : list pystr) : Prop := forall l1 l2, l1 ∈ ls -> l2 ∈ ls -> length l1 = length l2.
Lemma aligned_all n ls : Forall (fun l => length l = n) ls -> aligned ls.
Proof. rewrite Forall_forall. intros H l1 l2 H1 H2. by rewrite (H _ H1), (H _ H2). Qed.

Lemma first_box t ts b a : length b + length t + length a <= length (boxed_line b a (t :: ts)).
Proof. unfold boxed_line. cbn [flat_map]. rewrite !app_length. lia. Qed.

Theorem list_picture_aligned k ts : k <> Circular -> ts <> [] -> aligned (list_picture k ts).
Proof.
  intros Hk Hts. destruct ts as [|t ts]; [done|]. destruct k; [| |done].
  - apply (aligned_all (length (boxed_line [c_ver; c_sp] [c_sp; c_ver; c_right] (t :: ts)))). repeat (apply Forall_cons; split); [..|apply Forall_nil; done].
    + rewrite (border_length _ _ _). first [by apply boxed_length2|rewrite app_length; f_equal; by apply boxed_length2|f_equal; by apply boxed_length2|do 2 f_equal; by apply boxed_length2].
    + reflexivity.
    + rewrite (border_length _ _ _). first [by apply boxed_length2|rewrite app_length; f_equal; by apply boxed_length2|f_equal; by apply boxed_length2|do 2 f_equal; by apply boxed_length2].
  - apply (aligned_all (length (boxed_line [c_both; c_ver; c_sp] [c_sp; c_ver] (t :: ts) ++ [c_both]))). repeat (apply Forall_cons; split); [..|apply Forall_nil; done]; rewrite app_length.
    + rewrite (border_length _ _ _). first [by apply boxed_length2|rewrite app_length; f_equal; by apply boxed_length2|f_equal; by apply boxed_length2|do 2 f_equal; by apply boxed_length2].
    + reflexivity.
    + rewrite (border_length _ _ _). first [by apply boxed_length2|rewrite app_length; f_equal; by apply boxed_length2|f_equal; by apply boxed_length2|do 2 f_equal; by apply boxed_length2].
Qed.
(** The first line of a circular list ends where its frame begins: two characters less. *)
Theorem circular_picture_aligned t ts : exists top rest,
  list_picture Circular (t :: ts) = top :: rest /\ aligned ((top ++ [c_sp; c_sp]) :: rest) /\ length rest = 4.
Proof.
  do 2 eexists. split; [reflexivity|]. split; [|done].
  apply (aligned_all (length (boxed_line [c_ver; c_sp] [c_sp; c_ver; c_right] (t :: ts)) + 2)).
  pose proof (first_box t ts [c_ver; c_sp] [c_sp; c_ver; c_right]) as Hb. cbn [length] in Hb.
  pose proof (Nat.div_mod (length t + 4) 2 ltac:(done)) as Hdm.
  repeat (apply Forall_cons; split); [..|apply Forall_nil; done]; rewrite ?app_length, ?repeat_length.
  - rewrite (border_length _ _ _). first [by apply boxed_length2|rewrite app_length; f_equal; by apply boxed_length2|f_equal; by apply boxed_length2|do 2 f_equal; by apply boxed_length2].
  - reflexivity.
  - rewrite (border_length _ _ _). first [by apply boxed_length2|rewrite app_length; f_equal; by apply boxed_length2|f_equal; by apply boxed_length2|do 2 f_equal; by apply boxed_length2].
  - cbn [length]. lia.
  - cbn [length]. lia.
Qed.
Theorem stack_picture_aligned ts : aligned (stack_picture ts).
Proof.
  apply (aligned_all (length ([c_ver] ++ boxed_line [c_sp] [c_sp; c_ver] ts ++ [c_sp]))). repeat (apply Forall_cons; split); [..|apply Forall_nil; done]; rewrite !app_length.
  - rewrite (border_length _ _ _). first [by apply boxed_length2|rewrite app_length; f_equal; by apply boxed_length2|f_equal; by apply boxed_length2|do 2 f_equal; by apply boxed_length2].
  - reflexivity.
  - rewrite (border_length _ _ _). first [by apply boxed_length2|rewrite app_length; f_equal; by apply boxed_length2|f_equal; by apply boxed_length2|do 2 f_equal; by apply boxed_length2].
Qed.
Theorem queue_picture_aligned d ts : aligned (queue_picture d ts).
Proof.
  apply (aligned_all (length ([d; c_ver] ++ boxed_line [c_sp] [c_sp; c_ver] ts ++ (if ts then [] else [d])))). repeat (apply Forall_cons; split); [..|apply Forall_nil; done]; rewrite !app_length.
  - rewrite (border_length _ _ _). f_equal. f_equal; [by apply boxed_length2|by destruct ts].
  - reflexivity.
  - rewrite (border_length _ _ _). f_equal. f_equal; [by apply boxed_length2|by destruct ts].
Qed.

(** ** Rows *)
From Verif Require Import PrintModel PrintSpec PrintThm.
Lemma split_joined ls : ls <> [] -> Forall one_line ls -> split_lines (joined ls) = ls.
Proof.
  induction ls as [|l ls IH]; intros Hne HF; [done|]. apply Forall_cons in HF as [Hl HF].
  destruct ls as [|l' ls]; [by apply split_one|].
  change (joined (l :: l' :: ls)) with (l ++ c_nl :: joined (l' :: ls)). unfold c_nl. rewrite split_app by done.
  by rewrite IH.
Qed.
Lemma one_line_app a b : one_line a -> one_line b -> one_line (a ++ b).
Proof. unfold one_line. rewrite not_elem_of_app. done. Qed.
Lemma one_line_border b a ts : one_line b -> one_line a -> one_line (border b a ts).
Proof. apply border_no_nl. Qed.
Lemma one_line_boxed b a ts : one_line b -> one_line a -> Forall one_line ts -> one_line (boxed_line b a ts).
Proof.
  intros Hb Ha. induction 1 as [|t ts Ht _ IH]; [apply not_elem_of_nil|]. cbn.
  repeat apply one_line_app; done.
Qed.
Lemma one_line_repeat c n : c <> 10%N -> one_line (repeat c n).
Proof. apply repeat_no_nl. Qed.

Ltac ol := repeat first [done | apply one_line_border | apply one_line_boxed | apply one_line_app | by apply one_line_repeat | solve [unfold one_line; no_nl]].
Lemma list_picture_one_line k ts : Forall one_line ts -> Forall one_line (list_picture k ts).
Proof.
  intros HF. destruct ts as [|t ts]; [|destruct k]; cbn [list_picture];
    repeat (apply Forall_cons; split); try apply Forall_nil; try done; ol.
Qed.
Lemma stack_picture_one_line ts : Forall one_line ts -> Forall one_line (stack_picture ts).
Proof. intros HF. repeat (apply Forall_cons; split); try apply Forall_nil; try done; ol. Qed.
Lemma queue_picture_one_line d ts : d <> 10%N -> Forall one_line ts -> Forall one_line (queue_picture d ts).
Proof.
  intros Hd HF. repeat (apply Forall_cons; split); try apply Forall_nil; try done; ol;
    destruct ts; ol; apply not_elem_of_cons; (split; [congruence|]); ol.
Qed.
Lemma nl_replace_one_line s : one_line (nl_replace s).
Proof.
  unfold one_line, nl_replace. induction s as [|c s IH]; [apply not_elem_of_nil|]. cbn.
  rewrite not_elem_of_app. split; [|done]. destruct (N.eqb_spec c 10); [no_nl|].
  apply not_elem_of_cons. split; [congruence|apply not_elem_of_nil].
Qed.
Lemma stored_one_line v s : stored v -> v = PStr s -> one_line s.
Proof. intros [_ H] ->. cbn in H. injection H as H. rewrite <- H. apply nl_replace_one_line. Qed.

Lemma spec_calls_Forall {O} (P : pyval -> Prop) (step : list pyval -> O -> bout * list pyval) :
  (forall l op, Forall P l -> Forall P (snd (step l op))) -> forall ops l, Forall P l -> Forall P (snd (spec_calls step l ops)).
Proof.
  intros H. induction ops as [|op ops IH]; intros l Hl; [done|]. cbn [spec_calls].
  specialize (H l op Hl). destruct (step l op) as [r l']. specialize (IH l' H). by destruct (spec_calls step l' ops).
Qed.

Theorem lists_print_rows (show : pyval -> pystr) k ops outs w :
  (forall s, show (PStr s) = s) -> (forall v, (forall s, v <> PStr s) -> one_line (show v)) ->
  spec_run k [] ops = Some (outs, w) ->
  exists s env, model_run k conf0 ops = Some (outs, (s, env)) /\
  forall x vs, w !! x = Some (Some vs) ->
  exists o t, env !! x = Some o /\ list_repr (fun d _ => show d) o s = Ok t s
    /\ split_lines t = list_picture k (map show vs).
Proof.
  intros Hstr Hoth Hs. destruct (run_rel _ _ _ _ Hs) as ([s env] & Hrun & HR). exists s, env. split; [done|].
  intros x vs Hx. destruct (rel_var_rep _ _ _ _ _ _ HR Hx) as (o & g & Ho & Hr & <-).
  exists o. eexists. split; [done|]. split; [apply (list_repr_ok (fun d _ => show d) k s o g Hr)|].
  replace (txts _ g) with (map show (vals g)) by (unfold txts; by rewrite map_map).
  apply split_joined; [by destruct g, k|]. apply list_picture_one_line.
  pose proof (rep_stored _ _ _ _ Hr) as HF. clear -HF Hstr Hoth. induction HF as [|n g Hn _ IH]; [constructor|].
  cbn. constructor; [|done]. destruct (g_val n) as [| |t| | |] eqn:E; try (apply Hoth; by intros ? [=]).
  rewrite Hstr. eapply stored_one_line; done.
Qed.

Lemma rejected_stored v : rejected v = None -> stored (norm_item v).
Proof. intros H. apply stored_norm. by destruct v. Qed.
Lemma Forall_tail' {A} (P : A -> Prop) x l : Forall P (x :: l) -> Forall P l.
Proof. by inversion 1. Qed.
Lemma stack_stored c ops : Forall stored (snd (spec_calls (stack_spec c) [] ops)).
Proof.
  apply spec_calls_Forall; [|constructor]. intros l op Hl. destruct op as [v| | | | | | ]; cbn; try done.
  - destruct (is_full c l); [done|]. destruct (rejected v) eqn:E; [done|]. constructor; [by apply rejected_stored|done].
  - destruct l; [done|]. by eapply Forall_tail'.
  - by destruct l.
Qed.
Lemma push_right_stored c v l : stored v -> norm_item v = v -> Forall stored l -> Forall stored (push_right c v l).
Proof.
  intros Hv E Hl. unfold push_right. rewrite E. destruct (is_full c l).
  - destruct l; [done|]. apply Forall_app. split; [by eapply Forall_tail'|by constructor].
  - apply Forall_app. split; [done|by constructor].
Qed.
Lemma push_right_norm c v l : push_right c (norm_item v) l = push_right c v l.
Proof. unfold push_right. by rewrite norm_item_idem. Qed.
Lemma push_left_norm c v l : push_left c (norm_item v) l = push_left c v l.
Proof. unfold push_left. by rewrite norm_item_idem. Qed.
Lemma push_left_stored c v l : stored v -> norm_item v = v -> Forall stored l -> Forall stored (push_left c v l).
Proof.
  intros Hv E Hl. unfold push_left. rewrite E. destruct (is_full c l).
  - destruct l; [done|]. constructor; [done|]. by apply Forall_removelast.
  - by constructor.
Qed.
Lemma queue_stored c ops : Forall stored (snd (spec_calls (queue_spec c) [] ops)).
Proof.
  apply spec_calls_Forall; [|constructor]. intros l op Hl. destruct op as [v| | | | | | ]; cbn; try done.
  - destruct (rejected v) eqn:E; [done|]. cbn [snd]. rewrite <- push_right_norm.
    apply push_right_stored; [by apply rejected_stored|apply norm_item_idem|done].
  - destruct l; [done|]. by eapply Forall_tail'.
  - by destruct l.
Qed.
Lemma deque_stored c ops : Forall stored (snd (spec_calls (deque_spec c) [] ops)).
Proof.
  apply spec_calls_Forall; [|constructor]. intros l op Hl. destruct op as [v|v| | | | | | | | ]; cbn; try done.
  - destruct (rejected v) eqn:E; [done|]. cbn [snd]. rewrite <- push_left_norm.
    apply push_left_stored; [by apply rejected_stored|apply norm_item_idem|done].
  - destruct (rejected v) eqn:E; [done|]. cbn [snd]. rewrite <- push_right_norm.
    apply push_right_stored; [by apply rejected_stored|apply norm_item_idem|done].
  - destruct l; [done|]. by eapply Forall_tail'.
  - destruct (last l); [|done]. cbn. by apply Forall_removelast.
  - by destruct l.
  - by destruct (last l).
Qed.
Lemma shown_one_line (show : pyval -> pystr) l :
  (forall s, show (PStr s) = s) -> (forall v, (forall s, v <> PStr s) -> one_line (show v)) ->
  Forall stored l -> Forall one_line (map show l).
Proof.
  intros Hstr Hoth. induction 1 as [|v l Hv _ IH]; [constructor|].
  cbn. constructor; [|done]. destruct v as [| |t| | |] eqn:E; try (apply Hoth; by intros ? [=]).
  rewrite Hstr. eapply stored_one_line; done.
Qed.
Lemma Forall_rev' {A} (P : A -> Prop) l : Forall P l -> Forall P (rev l).
Proof. rewrite !Forall_forall. intros H x Hx. apply H. by apply elem_of_list_In, in_rev, elem_of_list_In. Qed.

Theorem rows_of_containers (show : pyval -> pystr) c :
  (forall s, show (PStr s) = s) -> (forall v, (forall s, v <> PStr s) -> one_line (show v)) ->
  (forall ops ts, ts = map show (rev (snd (spec_calls (stack_spec c) [] ops))) ->
     split_lines (joined (stack_picture ts)) = stack_picture ts)
  /\ (forall ops ts, ts = map show (rev (snd (spec_calls (queue_spec c) [] ops))) ->
     split_lines (joined (queue_picture c_right ts)) = queue_picture c_right ts)
  /\ (forall ops ts, ts = map show (snd (spec_calls (deque_spec c) [] ops)) ->
     split_lines (joined (queue_picture c_both ts)) = queue_picture c_both ts).
Proof.
  intros Hstr Hoth. split_and!; intros ops ts ->.
  - apply split_joined; [done|]. apply stack_picture_one_line. apply shown_one_line; [done..|]. apply Forall_rev', stack_stored.
  - apply split_joined; [done|]. apply queue_picture_one_line; [done|]. apply shown_one_line; [done..|]. apply Forall_rev', queue_stored.
  - apply split_joined; [done|]. apply queue_picture_one_line; [done|]. apply shown_one_line; [done..|]. apply deque_stored.
Qed.
