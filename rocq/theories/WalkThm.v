(** * How far the calls on linked lists walk: proofs *)
From Verif Require Import Base ListSpec ListRep ListCore ListModel QueueModel WalkModel WalkSpec.
Local Open Scope py_scope.

(** ** The counter changes nothing *)
Section counts.
  Context {S : Type}.
  Lemma co_lf {A} (m : M S A) : counts (lf m) m.
  Proof. intros s k. unfold lf. cbn. by destruct (m s). Qed.
  Lemma co_ret {A} (a : A) : counts (S := S) (ret a) (ret a).
  Proof. done. Qed.
  Lemma co_raise {A} e : counts (S := S) (A := A) (raise e) (raise e).
  Proof. done. Qed.
  Lemma co_diverge {A} : counts (S := S) (A := A) diverge diverge.
  Proof. done. Qed.
  Lemma co_bind {A B} (c : M (S * nat) A) m (f : A -> M (S * nat) B) g :
    counts c m -> (forall a, counts (f a) (g a)) -> counts (bind c f) (bind m g).
  Proof.
    intros Hc Hf s k. unfold bind. pose proof (Hc s k) as H. destruct (c (s, k)) as [a [s' k']|e [s' k']|]; cbn in H; rewrite H.
    - apply Hf.
    - done.
    - done.
  Qed.
  Lemma co_tick {A} (c : M (S * nat) A) m : counts c m -> counts (tick ;; c) m.
  Proof. intros Hc s k. apply (Hc s (Datatypes.S k)). Qed.
End counts.
Create HintDb co discriminated.
Ltac co := repeat first
  [ apply co_tick | apply co_ret | apply co_raise | apply co_diverge | apply co_lf
  | solve [auto 2 with co] | apply co_bind; [|intros ?] | assumption ].
Ltac coc := co; try (match goal with |- counts (if ?b then _ else _) _ => destruct b
  | |- counts (match ?b with _ => _ end) _ => destruct b end; coc).
Ltac cog := coc; auto with co.

Lemma co_get_node_loop : forall i p c, counts (get_node_loop_c i p c) (get_node_loop i p c).
Proof. induction i; intros; cbn [get_node_loop_c get_node_loop]; cog. Qed.
#[local] Hint Resolve co_get_node_loop : co.
Lemma co_ll_get_node o i : counts (ll_get_node_c o i) (ll_get_node o i).
Proof. unfold ll_get_node_c, ll_get_node. cog. Qed.
#[local] Hint Resolve co_ll_get_node : co.
Lemma co_back_loop : forall i c, counts (back_loop_c i c) (back_loop i c).
Proof. induction i; intros; cbn [back_loop_c back_loop]; cog. Qed.
#[local] Hint Resolve co_back_loop : co.
Lemma co_get_node o i : counts (get_node_c o i) (get_node o i).
Proof. unfold get_node_c, get_node, dll_get_node_c, dll_get_node. cog. Qed.
#[local] Hint Resolve co_get_node : co.
Lemma co_insert_at o i v : counts (insert_at_c o i v) (insert_at o i v).
Proof. unfold insert_at_c, insert_at. cog. Qed.
#[local] Hint Resolve co_insert_at : co.
Lemma co_insert_node_at o i v : counts (insert_node_at_c o i v) (insert_node_at o i v).
Proof. unfold insert_node_at_c, insert_node_at. cog. Qed.
#[local] Hint Resolve co_insert_node_at : co.
Lemma co_add_front o v : counts (add_front_c o v) (add_front o v).
Proof. unfold add_front_c, add_front. cog. Qed.
#[local] Hint Resolve co_add_front : co.
Lemma co_add_end o v : counts (add_end_c o v) (add_end o v).
Proof. unfold add_end_c, add_end. cog. Qed.
#[local] Hint Resolve co_add_end : co.
Lemma co_insert o i v : counts (insert_c o i v) (insert o i v).
Proof. unfold insert_c, insert. cog. Qed.
#[local] Hint Resolve co_insert : co.
Lemma co_replace_value o i v : counts (replace_value_c o i v) (replace_value o i v).
Proof. unfold replace_value_c, replace_value. cog. Qed.
#[local] Hint Resolve co_replace_value : co.
Lemma co_setitem o i v : counts (setitem_c o i v) (setitem o i v).
Proof. unfold setitem_c, setitem. cog. Qed.
#[local] Hint Resolve co_setitem : co.
Lemma co_remove_idx o i : counts (remove_idx_c o i) (remove_idx o i).
Proof. unfold remove_idx_c, remove_idx. cog. Qed.
#[local] Hint Resolve co_remove_idx : co.
Lemma co_delitem o i : counts (delitem_c o i) (delitem o i).
Proof. unfold delitem_c, delitem. cog. Qed.
#[local] Hint Resolve co_delitem : co.
Lemma co_remove_front o : counts (remove_front_c o) (remove_front o).
Proof. unfold remove_front_c, remove_front. cog. Qed.
#[local] Hint Resolve co_remove_front : co.
Lemma co_remove_end o : counts (remove_end_c o) (remove_end o).
Proof. unfold remove_end_c, remove_end. cog. Qed.
#[local] Hint Resolve co_remove_end : co.
Lemma co_slice_loop out ind : forall n z p c, counts (slice_loop_c out ind n z p c) (slice_loop out ind n z p c).
Proof. induction n; intros; cbn [slice_loop_c slice_loop]; cog. Qed.
#[local] Hint Resolve co_slice_loop : co.
Lemma co_ll_getitem o i : counts (ll_getitem_c o i) (ll_getitem o i).
Proof. unfold ll_getitem_c, ll_getitem. cog. Qed.
#[local] Hint Resolve co_ll_getitem : co.
Lemma co_getitem o i : counts (getitem_c o i) (getitem o i).
Proof. unfold getitem_c, getitem, cll_getitem_c, cll_getitem. cog. Qed.
#[local] Hint Resolve co_getitem : co.
Lemma co_split_loop d : forall n p c, counts (split_loop_c d n p c) (split_loop d n p c).
Proof. induction n; intros; cbn [split_loop_c split_loop]; cog. Qed.
#[local] Hint Resolve co_split_loop : co.
Lemma co_split_at o i : counts (split_at_c o i) (split_at o i).
Proof. unfold split_at_c, split_at. cog. Qed.
#[local] Hint Resolve co_split_at : co.
Lemma co_split o i : counts (split_c o i) (split o i).
Proof. unfold split_c, split. cog. Qed.
#[local] Hint Resolve co_split : co.
Lemma co_cll_extend_loop o p : forall f n c q, counts (cll_extend_loop_c f o p n c q) (cll_extend_loop f o p n c q).
Proof. induction f; intros; cbn [cll_extend_loop_c cll_extend_loop]; cog. Qed.
#[local] Hint Resolve co_cll_extend_loop : co.
Lemma co_extend o p : counts (extend_c o p) (extend o p).
Proof. unfold extend_c, extend, ll_extend_c, ll_extend, cll_extend_c, cll_extend. cog. Qed.
#[local] Hint Resolve co_extend : co.
Lemma co_rotate o d r : counts (rotate_c o d r) (rotate o d r).
Proof. unfold rotate_c, rotate. cog. Qed.
#[local] Hint Resolve co_rotate : co.
Lemma co_rotate_new o d r : counts (rotate_new_c o d r) (rotate_new o d r).
Proof. unfold rotate_new_c, rotate_new. cog. Qed.
#[local] Hint Resolve co_rotate_new : co.
Lemma co_rotate_inplace o d r : counts (rotate_inplace_c o d r) (rotate_inplace o d r).
Proof. unfold rotate_inplace_c, rotate_inplace. cog. Qed.
#[local] Hint Resolve co_rotate_inplace : co.

Lemma co_on_mem {A} (c : M cst A) m : counts c m -> counts (on_mem_c c) (on_mem m).
Proof.
  intros Hc q k. unfold on_mem_c, on_mem. cbn. pose proof (Hc (q_mem q) k) as H.
  destruct (c (q_mem q, k)); cbn in H; by rewrite H.
Qed.
Lemma co_boxed {A} (c : nat -> M cst A) m : (forall o, counts (c o) (m o)) -> counts (boxed_c c) (boxed m).
Proof. intros Hc. unfold boxed_c, boxed. co. by apply co_on_mem. Qed.
#[local] Hint Resolve co_boxed : co.
Lemma co_prio_fold f : forall n a c, counts (prio_fold_c n f a c) (prio_fold n f a c).
Proof. induction n; intros a [l|]; cbn [prio_fold_c prio_fold]; cog. Qed.
#[local] Hint Resolve co_prio_fold : co.
Lemma co_prio_scan f a o : counts (prio_scan_c f a o) (prio_scan f a o).
Proof. unfold prio_scan_c, prio_scan. cog. Qed.
#[local] Hint Resolve co_prio_scan : co.
Lemma co_prio_find p : forall n c, counts (prio_find_c n p c) (prio_find n p c).
Proof. induction n; intros [l|]; cbn [prio_find_c prio_find]; cog. Qed.
#[local] Hint Resolve co_prio_find : co.
Lemma co_find_box p : counts
  (boxed_c (fun o => let! b := lf (get_obj o) in let! s := lf get_state in prio_find_c (S (length (s_nodes s))) p (o_head b)))
  (boxed (fun o => let! b := get_obj o in let! s := get_state in prio_find (S (length (s_nodes s))) p (o_head b))).
Proof. apply co_boxed. intros. cog. Qed.
#[local] Hint Resolve co_find_box : co.
Lemma co_queue_call op : counts (queue_call_c op) (queue_call op).
Proof.
  destruct op; cbn [queue_call_c]; try apply co_lf; cbn [queue_call]; unfold as_warn, as_pair, queue_enqueue_c, queue_enqueue,
    queue_enqueue_item_c, queue_enqueue_item, queue_dequeue_c, queue_dequeue; cog.
Qed.
Lemma co_deque_call op : counts (deque_call_c op) (deque_call op).
Proof.
  destruct op; cbn [deque_call_c]; try apply co_lf; cbn [deque_call]; unfold as_warn, as_pair, deque_append_left, queue_enqueue_c, queue_enqueue,
    queue_enqueue_item_c, queue_enqueue_item, deque_pop_right, queue_dequeue_c, queue_dequeue, deque_append_right_c, deque_append_right,
    deque_pop_left_c, deque_pop_left; cog.
Qed.
Lemma co_pq_call op : counts (pq_call_c op) (pq_call op).
Proof.
  destruct op; cbn [pq_call_c]; try apply co_lf; cbn [pq_call]; unfold as_warn, as_pair, pq_enqueue_c, pq_enqueue,
    queue_enqueue_node_c, queue_enqueue_node, pq_dequeue_c, pq_dequeue, update_min_c, update_min, update_max_c, update_max; cog.
Qed.
