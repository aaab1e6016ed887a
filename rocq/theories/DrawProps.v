(** * Properties C57, C58: how the linear containers print.

    Vocabulary: DrawSpec.v ([list_picture], [stack_picture], [queue_picture]: the lines
    drawn from the texts of the elements; [joined]: with newlines between them), PrintSpec.v
    ([split_lines], [one_line]), ListSpec.v/ListRun.v (histories of calls on lists),
    QueueSpec.v (histories of calls on stacks and queues).  [list_repr], [stack_repr],
    [queue_repr], [deque_repr] are the modelled [__repr__]s; [show] is [str]. *)
From Coq Require Import QArith.
From Verif Require Import Base ListModel ListSpec ListRun QueueModel QueueSpec PrintSpec DrawModel DrawSpec DrawThm.
Close Scope Q_scope.

(** ** C57 *)

(** Whatever was done before, the printout of a list is the picture of the texts of its
    elements in order, and printing changes nothing. *)
Theorem C57_lists_print : forall show k ops outs w,
  spec_run k [] ops = Some (outs, w) ->
  exists s env, model_run k conf0 ops = Some (outs, (s, env)) /\
  forall x vs, w !! x = Some (Some vs) ->
  exists o, env !! x = Some o
    /\ list_repr (fun d _ => show d) o s = Ok (joined (list_picture k (map show vs))) s.
Proof. exact lists_print. Qed.
Print Assumptions C57_lists_print.

(** The printout tells the number of elements and the text of each, whatever characters
    the texts contain: newlines and characters of the frames included. *)
Theorem C57_print_determines : forall k ts ts',
  joined (list_picture k ts) = joined (list_picture k ts') -> ts = ts'.
Proof. exact list_picture_inj. Qed.
Print Assumptions C57_print_determines.

(** When the texts of stored numbers and other objects have no newline (strings are stored
    without, see C10) there are exactly the lines of the picture... *)
Theorem C57_rows : forall (show : pyval -> pystr) k ops outs w,
  (forall s, show (PStr s) = s) -> (forall v, (forall s, v <> PStr s) -> one_line (show v)) ->
  spec_run k [] ops = Some (outs, w) ->
  exists s env, model_run k conf0 ops = Some (outs, (s, env)) /\
  forall x vs, w !! x = Some (Some vs) ->
  exists o t, env !! x = Some o /\ list_repr (fun d _ => show d) o s = Ok t s
    /\ split_lines t = list_picture k (map show vs).
Proof. exact lists_print_rows. Qed.
Print Assumptions C57_rows.

(** ... and these are equally long, so that the frames fit (the frame of a circular list
    goes on for two columns after its first line). *)
Theorem C57_aligned : forall k ts, k <> Circular -> ts <> [] ->
  forall l l', l ∈ list_picture k ts -> l' ∈ list_picture k ts -> length l = length l'.
Proof. exact list_picture_aligned. Qed.
Print Assumptions C57_aligned.
Theorem C57_aligned_circular : forall t ts, exists top rest,
  list_picture Circular (t :: ts) = top :: rest /\ length rest = 4
  /\ forall l l', l ∈ (top ++ [c_sp; c_sp]) :: rest -> l' ∈ (top ++ [c_sp; c_sp]) :: rest -> length l = length l'.
Proof.
  intros t ts. destruct (circular_picture_aligned t ts) as (top & rest & E & Ha & Hl). exists top, rest. done.
Qed.
Print Assumptions C57_aligned_circular.

(** "7", "ab" and a text with a frame character, in a circular list after a removal. *)
Example C57_example : exists s env o,
  let show v := match v with PStr s => s | _ => [55%N] end in
  let ops := [LNew [PStr [97%N; 98%N]; PInt 1]; LAddFront 0 (PInt 7); LDel 0 (AInt 2); LAddEnd 0 (PStr [9474%N])] in
  spec_run Circular [] ops = Some ([RNew 1; RUnit; RUnit; RUnit], [Some [PInt 7; PStr [97%N; 98%N]; PStr [9474%N]]])
  /\ model_run Circular conf0 ops = Some ([RNew 1; RUnit; RUnit; RUnit], (s, env)) /\ env !! 0 = Some o
  /\ match list_repr (fun d _ => show d) o s with
     | Ok t _ => split_lines t = list_picture Circular [[55%N]; [97%N; 98%N]; [9474%N]]
                 /\ map length (split_lines t) = [19; 21; 21; 21; 21]
     | _ => False
     end.
Proof.
  do 3 eexists. cbv zeta. split; [vm_compute; reflexivity|]. split; [vm_compute; reflexivity|].
  split; [vm_compute; reflexivity|]. vm_compute. split; reflexivity.
Qed.

(** ** C58.  Full property: after every history the printout of a stack, queue, deque or
    priority queue is the picture of what it holds. *)
Theorem C58_stack : forall show a ops, bad_capacity a = None ->
  exists s0 c s, stack_new a = inr s0 /\ capacity_of a c
    /\ calls stack_call s0 ops = Some (fst (spec_calls (stack_spec c) [] ops), s)
    /\ stack_repr show s = Ok (joined (stack_picture (map show (rev (snd (spec_calls (stack_spec c) [] ops)))))) s.
Proof. exact stack_prints. Qed.
Print Assumptions C58_stack.

(** Queues of all kinds: as long as they hold something.  Missing: the empty queue, where
    the property is false (below). *)
Theorem C58_queue_partial : forall show a ops, bad_capacity a = None ->
  exists q0 c q, queue_new a st0 = inr q0 /\ capacity_of a c
    /\ calls queue_call q0 ops = Some (fst (spec_calls (queue_spec c) [] ops), q)
    /\ (snd (spec_calls (queue_spec c) [] ops) <> [] ->
        queue_repr (fun d _ => show d) q
        = Ok (joined (queue_picture c_right (map show (rev (snd (spec_calls (queue_spec c) [] ops)))))) q).
Proof. exact queue_prints. Qed.
Print Assumptions C58_queue_partial.
Theorem C58_deque_partial : forall show a ops, bad_capacity a = None ->
  exists q0 c q, queue_new a st0 = inr q0 /\ capacity_of a c
    /\ calls deque_call q0 ops = Some (fst (spec_calls (deque_spec c) [] ops), q)
    /\ (snd (spec_calls (deque_spec c) [] ops) <> [] ->
        deque_repr (fun d _ => show d) q
        = Ok (joined (queue_picture c_both (map show (snd (spec_calls (deque_spec c) [] ops))))) q).
Proof. exact deque_prints. Qed.
Print Assumptions C58_deque_partial.
(** [text] is the data, or the data and the priority, as SHOW_PRIORITY says; the contents
    [l] are those of C15. *)
Theorem C58_priority_queue_partial : forall text a ops, bad_capacity a = None ->
  exists q0 c q outs l, queue_new a st0 = inr q0 /\ capacity_of a c
    /\ calls pq_call q0 ops = Some (outs, q)
    /\ answered (fun l op r l' => pq_may c l op r l' \/ pq_deviates l op r l') [] ops outs l
    /\ (l <> [] -> queue_repr text q
        = Ok (joined (queue_picture c_right (map (fun x => text (fst x) (snd x)) l))) q).
Proof. exact pq_prints. Qed.
Print Assumptions C58_priority_queue_partial.

(** An emptied queue goes on printing the item that was taken out last. *)
Theorem C58_emptied_queue_refuted : exists ops show q0 q outs t,
  queue_new CapPosInf st0 = inr q0 /\ calls queue_call q0 ops = Some (outs, q)
  /\ spec_calls (queue_spec PosInf) [] ops = (outs, [])
  /\ queue_repr (fun d _ => show d) q = Ok t q /\ t <> joined (queue_picture c_right [])
  /\ split_lines t = [[c_hor; c_dn; c_hor; c_hor; c_hor; c_dn]; [c_right; c_ver; c_sp; 49%N; c_sp; c_ver];
                      [c_hor; c_up; c_hor; c_hor; c_hor; c_up]].
Proof.
  exists [QEnqueue (PInt 1); QDequeue; QIsEmpty], (fun _ => [49%N]). do 4 eexists.
  split; [vm_compute; reflexivity|]. split; [vm_compute; reflexivity|]. split; [vm_compute; reflexivity|].
  split; [vm_compute; reflexivity|]. split; [vm_compute; discriminate|]. vm_compute. reflexivity.
Qed.
Print Assumptions C58_emptied_queue_refuted.

(** The pictures tell the texts, are aligned, and have three lines. *)
Theorem C58_print_determines : forall ts ts',
  (joined (stack_picture ts) = joined (stack_picture ts') -> ts = ts')
  /\ forall d, joined (queue_picture d ts) = joined (queue_picture d ts') -> ts = ts'.
Proof. intros ts ts'. split; [apply stack_picture_inj|]. intros d. apply queue_picture_inj. Qed.
Print Assumptions C58_print_determines.
Theorem C58_aligned : forall ts,
  (forall l l', l ∈ stack_picture ts -> l' ∈ stack_picture ts -> length l = length l')
  /\ forall d l l', l ∈ queue_picture d ts -> l' ∈ queue_picture d ts -> length l = length l'.
Proof. intros ts. split; [apply stack_picture_aligned|]. intros d. apply queue_picture_aligned. Qed.
Print Assumptions C58_aligned.
Theorem C58_rows : forall (show : pyval -> pystr) c,
  (forall s, show (PStr s) = s) -> (forall v, (forall s, v <> PStr s) -> one_line (show v)) ->
  (forall ops ts, ts = map show (rev (snd (spec_calls (stack_spec c) [] ops))) ->
     split_lines (joined (stack_picture ts)) = stack_picture ts)
  /\ (forall ops ts, ts = map show (rev (snd (spec_calls (queue_spec c) [] ops))) ->
     split_lines (joined (queue_picture c_right ts)) = queue_picture c_right ts)
  /\ (forall ops ts, ts = map show (snd (spec_calls (deque_spec c) [] ops)) ->
     split_lines (joined (queue_picture c_both ts)) = queue_picture c_both ts).
Proof. exact rows_of_containers. Qed.
Print Assumptions C58_rows.

Example C58_example : exists q0 q outs,
  let show v := match v with PStr s => s | _ => [55%N] end in
  let ops := [DAppendLeft (PInt 7); DAppendRight (PStr [97%N; 98%N]); DAppendRight (PInt 8); DPopLeft] in
  bad_capacity (CapRat 2) = None /\ queue_new (CapRat 2) st0 = inr q0 /\ calls deque_call q0 ops = Some (outs, q)
  /\ snd (spec_calls (deque_spec (Fin 2)) [] ops) = [PInt 8]
  /\ deque_repr (fun d _ => show d) q = Ok (joined (queue_picture c_both [[55%N]])) q.
Proof.
  do 3 eexists. cbv zeta. split; [vm_compute; reflexivity|]. split; [vm_compute; reflexivity|].
  split; [vm_compute; reflexivity|]. split; vm_compute; reflexivity.
Qed.
