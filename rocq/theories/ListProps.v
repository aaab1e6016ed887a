(** * Properties C01-C11: the linked-list classes.

    Vocabulary: ListSpec.v (what a list does, on plain Coq lists) and ListRun.v
    (running a history of calls on the model of the code in ListModel.v).
    [spec_run k [] h = Some (outs, w)] describes which histories [h] the statement
    covers and what they must return; [model_run] runs the modelled code. *)
From Verif Require Import Base ListModel ListSpec ListRun ListThm ListThm2.
Local Open Scope py_scope.

Notation one := (PInt 1). Notation two := (PInt 2). Notation three := (PInt 3).

(** ** C01 *)
Theorem C01_linked_list_is_python_list : forall items ops,
  Forall storable items -> Forall single_list_call ops ->
  exists outs w c, spec_run Singly [] (LNew items :: ops) = Some (outs, w)
    /\ model_run Singly conf0 (LNew items :: ops) = Some (outs, c).
Proof. intros items ops Hi Ho. exact (single_list_history Singly items ops Hi Ho (fun H => ltac:(discriminate H))). Qed.
Print Assumptions C01_linked_list_is_python_list.

(** The same for programs with any number of lists and all other list calls. *)
Theorem C01_many_lists : forall ops outs w,
  spec_run Singly [] ops = Some (outs, w) -> exists c, model_run Singly conf0 ops = Some (outs, c).
Proof. exact (run_refines Singly). Qed.
Print Assumptions C01_many_lists.

Theorem C01_rejected_call_changes_nothing : forall k h outs w op e w',
  spec_run k [] h = Some (outs, w) -> spec_step k w op = Some (RExc e, w') ->
  forall x vs, w !! x = Some (Some vs) ->
  exists c, model_run k conf0 (h ++ [op; LToList x]) = Some (outs ++ [RExc e; RVals vs], c).
Proof. exact rejected_unchanged. Qed.
Print Assumptions C01_rejected_call_changes_nothing.

Example C01_example : exists w c,
  let ops := [LNew [one; two]; LAddFront 0 three; LInsert 0 (AInt 1) (PStr [10%N]); LSet 0 (AInt 7) one;
              LRemove 0 one (Some true); LGet 0 (AInt (-1)); LDel 0 (AInt 0); LToList 0; LContains 0 two; LAddEnd 0 PNone] in
  let outs := [RNew 1; RUnit; RUnit; RExc IndexError; RUnit; RVal two; RUnit;
               RVals [PStr [92%N; 110%N]; two]; RBool true; RExc ValueError] in
  spec_run Singly [] ops = Some (outs, w) /\ model_run Singly conf0 ops = Some (outs, c).
Proof. do 2 eexists. split; vm_compute; reflexivity. Qed.

(** ** C02 *)
Theorem C02_doubly_linked_list_is_python_list : forall items ops,
  Forall storable items -> Forall single_list_call ops ->
  exists outs w c, spec_run Doubly [] (LNew items :: ops) = Some (outs, w)
    /\ model_run Doubly conf0 (LNew items :: ops) = Some (outs, c).
Proof. intros items ops Hi Ho. exact (single_list_history Doubly items ops Hi Ho (fun H => ltac:(discriminate H))). Qed.
Print Assumptions C02_doubly_linked_list_is_python_list.

Theorem C02_many_lists : forall ops outs w,
  spec_run Doubly [] ops = Some (outs, w) -> exists c, model_run Doubly conf0 ops = Some (outs, c).
Proof. exact (run_refines Doubly). Qed.
Print Assumptions C02_many_lists.

(** Walking [next] from the head gives the nodes [fwd] with the elements in order and
    ends there (one step more than the length finds nothing); walking [prev] from the
    tail gives the same nodes backwards and ends there too. *)
Theorem C02_backward_links_mirror : forall ops outs w, spec_run Doubly [] ops = Some (outs, w) ->
  exists s env, model_run Doubly conf0 ops = Some (outs, (s, env)) /\
  forall x vs, w !! x = Some (Some vs) -> vs <> [] ->
    exists o obj fwd, env !! x = Some o /\ s_objs s !! o = Some obj
      /\ follow c_next (s_nodes s) (S (length vs)) (o_head obj) = fwd
      /\ map (data_at (s_nodes s)) fwd = vs
      /\ follow c_prev (s_nodes s) (S (length vs)) (o_tail obj) = rev fwd.
Proof. exact doubly_mirror. Qed.
Print Assumptions C02_backward_links_mirror.

Example C02_example : exists w c,
  let ops := [LNew [one; two; three]; LRemove 0 two (Some false); LRotate 0 (Some 1%Z) true; LToList 0] in
  let outs := [RNew 1; RUnit; RUnit; RVals [three; one]] in
  spec_run Doubly [] ops = Some (outs, w) /\ w !! 0 = Some (Some [three; one])
  /\ model_run Doubly conf0 ops = Some (outs, c).
Proof. do 2 eexists. split; [|split]; vm_compute; reflexivity. Qed.

(** ** C03.  Full property: as C01, with modular indices.  Missing in the partial
    theorem: [cll[i] = x] on an empty list and [cll[i] = None] (refuted below). *)
Theorem C03_circular_list_is_python_list_partial : forall items ops,
  Forall storable items -> Forall single_list_call ops -> Forall not_setitem ops ->
  exists outs w c, spec_run Circular [] (LNew items :: ops) = Some (outs, w)
    /\ model_run Circular conf0 (LNew items :: ops) = Some (outs, c).
Proof. intros items ops Hi Ho Hs. exact (single_list_history Circular items ops Hi Ho (fun _ => Hs)). Qed.
Print Assumptions C03_circular_list_is_python_list_partial.

Theorem C03_many_lists_partial : forall ops outs w,
  spec_run Circular [] ops = Some (outs, w) -> exists c, model_run Circular conf0 ops = Some (outs, c).
Proof. exact (run_refines Circular). Qed.
Print Assumptions C03_many_lists_partial.

Theorem C03_last_is_followed_by_first : forall ops outs w, spec_run Circular [] ops = Some (outs, w) ->
  exists s env, model_run Circular conf0 ops = Some (outs, (s, env)) /\
  forall x vs, w !! x = Some (Some vs) -> vs <> [] ->
    exists o obj first nodes, env !! x = Some o /\ s_objs s !! o = Some obj /\ o_head obj = Some first
      /\ follow c_next (s_nodes s) (S (length vs)) (Some first) = nodes ++ [first]
      /\ map (data_at (s_nodes s)) nodes = vs /\ NoDup nodes.
Proof. exact circular_closed. Qed.
Print Assumptions C03_last_is_followed_by_first.

(** Assigning to an index of an empty list: AttributeError when it was never filled,
    silently accepted when it has been emptied; None: AssertionError, not ValueError. *)
Theorem C03_setitem_refuted : exists c1 c2 c3,
  model_run Circular conf0 [LNew []; LSet 0 (AInt 0) one] = Some ([RNew 1; RExc AttributeError], c1)
  /\ model_run Circular conf0 [LNew [two]; LRemoveFront 0; LSet 0 (AInt 0) one; LLen 0]
     = Some ([RNew 1; RUnit; RUnit; RNat 0], c2)
  /\ model_run Circular conf0 [LNew [two]; LSet 0 (AInt 0) PNone] = Some ([RNew 1; RExc AssertionError], c3).
Proof. do 3 eexists. split; [|split]; vm_compute; reflexivity. Qed.
Print Assumptions C03_setitem_refuted.

Example C03_example : exists w c,
  let ops := [LNew [one; two; three]; LGet 0 (AInt 7); LSet 0 (AInt 31) one; LDel 0 (AInt 5); LInsert 0 (AInt 5) three; LToList 0] in
  let outs := [RNew 1; RVal two; RUnit; RUnit; RUnit; RVals [one; one; three]] in
  spec_run Circular [] ops = Some (outs, w) /\ w !! 0 = Some (Some [one; one; three])
  /\ model_run Circular conf0 ops = Some (outs, c).
Proof. do 2 eexists. split; [|split]; vm_compute; reflexivity. Qed.

(** ** C04.  Full property: every non-zero step.  Missing: negative steps (refuted). *)
Theorem C04_slicing_partial : forall k h outs w x vs start stop step,
  k <> Circular -> spec_run k [] h = Some (outs, w) -> w !! x = Some (Some vs) ->
  (0 < default 1 step)%Z ->
  exists c, model_run k conf0 (h ++ [LGet x (ASlice start stop step); LToList (length w); LToList x])
    = Some (outs ++ [RNew 1; RVals (py_slice vs start stop (default 1%Z step)); RVals vs], c).
Proof. exact slice_positive. Qed.
Print Assumptions C04_slicing_partial.

Theorem C04_slicing_refuted : forall k, k <> Circular -> exists vs out c,
  model_run k conf0 [LNew vs; LGet 0 (ASlice None None (Some (-1)%Z)); LToList 1]
   = Some ([RNew 1; RNew 1; RVals out], c)
  /\ out <> py_slice vs None None (-1).
Proof.
  intros [] Hk; [..|done]; exists [one; two; three], [one]; eexists;
    (split; [vm_compute; reflexivity|vm_compute; discriminate]).
Qed.
Print Assumptions C04_slicing_refuted.

Example C04_example : exists w,
  spec_run Doubly [] [LNew [one; two; three]] = Some ([RNew 1], w) /\ w !! 0 = Some (Some [one; two; three])
  /\ py_slice [one; two; three] None (Some (-1)%Z) 1 = [one; two]
  /\ py_slice [one; two; three] (Some 5%Z) (Some (-9)%Z) (-2) = [three; one].
Proof. eexists. split; [|split; [|split]]; vm_compute; reflexivity. Qed.

(** ** C05, C06 *)
Theorem C05_rotation : forall k h outs w x vs d right,
  spec_run k [] h = Some (outs, w) -> w !! x = Some (Some vs) -> (0 <= d)%Z ->
  exists ws, is_rotation right vs ws d
   /\ (exists c, model_run k conf0 (h ++ [LRotate x (Some d) right; LToList x])
                 = Some (outs ++ [RUnit; RVals ws], c))
   /\ (exists c, model_run k conf0 (h ++ [LRotated x (Some d) right; LToList x; LToList (length w)])
                 = Some (outs ++ [RNew 1; RVals vs; RVals ws], c))
   /\ (exists c, model_run k conf0 (h ++ [LRotate x (Some d) right; LRotate x (Some d) (negb right); LToList x])
                 = Some (outs ++ [RUnit; RUnit; RVals vs], c)).
Proof. exact rotation_shifts. Qed.
Print Assumptions C05_rotation.

(** split: see also C06. *)
Theorem C05_split : forall k h outs w x vs i,
  spec_run k [] h = Some (outs, w) -> w !! x = Some (Some vs) ->
  i <= length vs -> (k = Circular -> i = 0 \/ i < length vs) ->
  exists c, model_run k conf0 (h ++ [LSplit x (AInt (Z.of_nat i)); LToList x; LToList (length w); LToList (S (length w))])
    = Some (outs ++ [RNew 2; RVals vs; RVals (firstn i vs); RVals (skipn i vs)], c).
Proof. exact split_parts. Qed.
Print Assumptions C05_split.

(** copy / reverse / split: [derives] says which lists are returned; afterwards any
    history that does not mutate list [y] leaves [y] as it was, whether [y] is the
    original or one of the results. *)
Theorem C06_copy_reverse_split_independent : forall k h outs w x vs op new,
  spec_run k [] h = Some (outs, w) -> w !! x = Some (Some vs) -> derives k op x vs new ->
  spec_run k [] (h ++ [op]) = Some (outs ++ [RNew (length new)], w ++ map Some new) /\
  (exists c, model_run k conf0 (h ++ [op]) = Some (outs ++ [RNew (length new)], c)) /\
  forall more outs' w' y ys, spec_run k (w ++ map Some new) more = Some (outs', w') ->
    Forall (fun m => ~ mutates m y) more -> (w ++ map Some new) !! y = Some (Some ys) ->
    exists c, model_run k conf0 ((h ++ [op]) ++ more ++ [LToList y])
            = Some ((outs ++ [RNew (length new)]) ++ outs' ++ [RVals ys], c).
Proof. exact derived_independent. Qed.
Print Assumptions C06_copy_reverse_split_independent.

Example C05_C06_example : exists w c,
  let ops := [LNew [one; two; three]; LSplit 0 (AInt 1); LReverse 0; LCopy 0; LRotate 0 (Some 4%Z) false; LSet 3 (AInt 0) one;
              LToList 0; LToList 1; LToList 2; LToList 3; LToList 4] in
  let outs := [RNew 1; RNew 2; RNew 1; RNew 1; RUnit; RUnit; RVals [two; three; one]; RVals [one]; RVals [two; three];
               RVals [one; two; one]; RVals [one; two; three]] in
  spec_run Circular [] ops = Some (outs, w) /\ model_run Circular conf0 ops = Some (outs, c)
  /\ derives Circular (LSplit 0 (AInt 1)) 0 [one; two; three] [[one]; [two; three]].
Proof.
  do 2 eexists. split; [|split]; [vm_compute; reflexivity|vm_compute; reflexivity|].
  cbn. repeat split; try lia.
Qed.

(** ** C07.  Full property: also independence for LinkedList / DoublyLinkedList (refuted). *)
Theorem C07_extend_concatenates : forall k h outs w x y xs ys,
  spec_run k [] h = Some (outs, w) -> x <> y -> w !! x = Some (Some xs) -> w !! y = Some (Some ys) ->
  exists c, model_run k conf0 (h ++ [LExtend x y; LToList x; LToList y])
            = Some (outs ++ [RUnit; RVals (xs ++ ys); RVals ys], c).
Proof. exact extend_concat. Qed.
Print Assumptions C07_extend_concatenates.

(** CircularLinkedList.extend copies: both lists stay independent. *)
Theorem C07_independence_partial : forall h outs w x y xs ys more outs' w' z zs w1,
  spec_run Circular [] h = Some (outs, w) -> x <> y -> w !! x = Some (Some xs) -> w !! y = Some (Some ys) ->
  w1 = <[x := Some (xs ++ ys)]> w ->
  spec_run Circular w1 more = Some (outs', w') -> Forall (fun m => ~ mutates m z) more -> w1 !! z = Some (Some zs) ->
  exists c, model_run Circular conf0 ((h ++ [LExtend x y]) ++ more ++ [LToList z])
            = Some ((outs ++ [RUnit]) ++ outs' ++ [RVals zs], c).
Proof. exact extend_circular_independent. Qed.
Print Assumptions C07_independence_partial.

(** For the other classes the receiver stays an ordinary list as long as the argument
    is not used any more. *)
Theorem C07_receiver_partial : forall k h outs w x y xs ys,
  spec_run k [] h = Some (outs, w) -> x <> y -> w !! x = Some (Some xs) -> w !! y = Some (Some ys) ->
  exists w', spec_run k [] (h ++ [LExtend x y]) = Some (outs ++ [RUnit], w')
    /\ w' !! x = Some (Some (xs ++ ys))
    /\ (k = Circular -> w' !! y = Some (Some ys)).
Proof. exact extend_receiver. Qed.
Print Assumptions C07_receiver_partial.

Theorem C07_independence_refuted : forall k, k <> Circular -> exists c,
  model_run k conf0 [LNew [one]; LNew [two]; LExtend 0 1; LSet 0 (AInt 1) three; LToList 1]
  = Some ([RNew 1; RNew 1; RUnit; RUnit; RVals [three]], c).
Proof. intros [] Hk; [eexists; vm_compute; reflexivity..|done]. Qed.
Print Assumptions C07_independence_refuted.

Example C07_example : exists w,
  spec_run Singly [] [LNew [one]; LNew [two; three]] = Some ([RNew 1; RNew 1], w)
  /\ w !! 0 = Some (Some [one]) /\ w !! 1 = Some (Some [two; three]).
Proof. eexists. split; [|split]; vm_compute; reflexivity. Qed.

(** ** C08.  Full property: independence for every pair of classes.  The partial theorem
    covers the pairs where [other] is not an instance of X. *)
Theorem C08_same_elements : forall k k' h outs w x vs,
  spec_run k [] h = Some (outs, w) -> w !! x = Some (Some vs) ->
  exists s env o n s', model_run k conf0 h = Some (outs, (s, env)) /\ env !! x = Some o
   /\ construct_from (mcls k') o s = Ok n s' /\ to_list n s' = Ok vs s' /\ to_list o s' = Ok vs s'.
Proof. exact from_same_elements. Qed.
Print Assumptions C08_same_elements.

Theorem C08_independent_copy_partial : forall k k' h outs w x vs,
  is_instance (mcls k) (mcls k') = false ->
  spec_run k [] h = Some (outs, w) -> w !! x = Some (Some vs) ->
  exists s env o n s', model_run k conf0 h = Some (outs, (s, env)) /\ env !! x = Some o
   /\ construct_from (mcls k') o s = Ok n s' /\ to_list n s' = Ok vs s'
   (* the new list is not affected by what happens to the old ones *)
   /\ (forall more outs' w', spec_run k w more = Some (outs', w') ->
         exists s2 env2, model_run k (s', env) more = Some (outs', (s2, env2)) /\ to_list n s2 = Ok vs s2)
   (* the new list is an ordinary k' list and the old ones are not affected by it *)
   /\ (forall more outs' w', spec_run k' [Some vs] more = Some (outs', w') ->
         exists s2 env2, model_run k' (s', [n]) more = Some (outs', (s2, env2))
           /\ forall y oy ys, env !! y = Some oy -> w !! y = Some (Some ys) -> to_list oy s2 = Ok ys s2).
Proof. exact from_independent. Qed.
Print Assumptions C08_independent_copy_partial.

(** a = X([1, 2]); b = X(a); a[0] = 3; b.to_list() *)
Theorem C08_aliasing_refuted : forall k, exists s,
  (let! a := construct (mcls k) [one; two] in
   let! b := construct_from (mcls k) a in
   setitem a (IInt 0) three ;;
   to_list b) st0 = Ok [three; two] s.
Proof. intros []; eexists; vm_compute; reflexivity. Qed.
Print Assumptions C08_aliasing_refuted.

(** LinkedList(DoublyLinkedList([1])).add_end(2) raises TypeError; removing from the
    source makes the copy unreadable; a search in LinkedList(CircularLinkedList([1]))
    for a missing value never ends. *)
Theorem C08_not_an_ordinary_list_refuted : exists s s' s1 hd,
  (let! a := construct CDLL [one] in let! b := construct_from CLL a in add_end b two) st0 = Exc TypeError s
  /\ (let! a := construct CLL [one; two] in let! b := construct_from CLL a in remove_front a ;; to_list b) st0
     = Exc AttributeError s'
  /\ (let! a := construct CCLL [one] in let! b := construct_from CLL a in
      let! o := get_obj b in ret (o_head o)) st0 = Ok (Some hd) s1
  /\ forall fuel, search_loop fuel two hd s1 = Diverge.
Proof.
  do 4 eexists. split; [vm_compute; reflexivity|]. split; [vm_compute; reflexivity|].
  split; [vm_compute; reflexivity|]. induction fuel as [|fuel IH]; [reflexivity|]. exact IH.
Qed.
Print Assumptions C08_not_an_ordinary_list_refuted.

Example C08_example : exists w,
  spec_run Circular [] [LNew [one; two]] = Some ([RNew 1], w) /\ w !! 0 = Some (Some [one; two])
  /\ is_instance (mcls Circular) (mcls Doubly) = false.
Proof. eexists. split; [|split]; vm_compute; reflexivity. Qed.

(** ** C09 *)
Theorem C09_equality : forall k h outs w x y xs ys,
  spec_run k [] h = Some (outs, w) -> w !! x = Some (Some xs) -> w !! y = Some (Some ys) ->
  exists c b, model_run k conf0 (h ++ [LEq x y; LNe x y]) = Some (outs ++ [RBool b; RBool (negb b)], c)
    /\ (b = true <-> xs = ys).
Proof. exact equality_exact. Qed.
Print Assumptions C09_equality.

Example C09_example : exists w c,
  let ops := [LNew [one; two]; LNew [one]; LAddEnd 1 two; LEq 0 1; LNe 0 1; LEq 0 0] in
  let outs := [RNew 1; RNew 1; RUnit; RBool true; RBool false; RBool true] in
  spec_run Doubly [] ops = Some (outs, w) /\ model_run Doubly conf0 ops = Some (outs, c).
Proof. do 2 eexists. split; vm_compute; reflexivity. Qed.

(** ** C10.  Full property: a < b iff b > a for all lists (refuted when the lengths differ). *)
Theorem C10_order_partial : forall k h outs w x y xs ys,
  spec_run k [] h = Some (outs, w) -> w !! x = Some (Some xs) -> w !! y = Some (Some ys) ->
  comparable xs ys ->
  exists s env o o', model_run k conf0 h = Some (outs, (s, env)) /\ env !! x = Some o /\ env !! y = Some o'
    /\ list_le o o' s = list_ge o' o s
    /\ (list_lt o o' s = Ok true s -> list_le o' o s = Ok false s /\ list_le o o' s = Ok true s)
    /\ (length xs = length ys -> list_lt o o' s = list_gt o' o s)
    /\ (list_le o o' s = Ok true s -> list_le o' o s = Ok true s -> xs = ys).
Proof. exact order_consistent. Qed.
Print Assumptions C10_order_partial.

(** The exact meaning of each operator. *)
Theorem C10_order_meaning_partial : forall k h outs w x y xs ys,
  spec_run k [] h = Some (outs, w) -> w !! x = Some (Some xs) -> w !! y = Some (Some ys) ->
  comparable xs ys ->
  exists s env o o' lt le gt ge, model_run k conf0 h = Some (outs, (s, env))
    /\ env !! x = Some o /\ env !! y = Some o'
    /\ list_lt o o' s = Ok lt s /\ (lt = true <-> below xs ys /\ xs <> ys)
    /\ list_le o o' s = Ok le s /\ (le = true <-> below xs ys)
    /\ list_ge o o' s = Ok ge s /\ (ge = true <-> below ys xs)
    /\ list_gt o o' s = Ok gt s /\ (gt = true <->
         (exists r, r <> [] /\ xs = ys ++ r)
         \/ (length xs <= length ys /\ (forall i u v, xs !! i = Some u -> ys !! i = Some v -> py_lt u v = Some false)
             /\ ~ exists r, ys = xs ++ r)).
Proof. exact order_exact. Qed.
Print Assumptions C10_order_meaning_partial.

(** [1, 1] < [2, 2, 2] but not [2, 2, 2] > [1, 1]. *)
Theorem C10_order_refuted : forall k, exists s,
  (let! a := construct (mcls k) [one; one] in
   let! b := construct (mcls k) [two; two; two] in
   let! l := list_lt a b in let! g := list_gt b a in ret (l, g)) st0 = Ok (true, false) s.
Proof. intros []; eexists; vm_compute; reflexivity. Qed.
Print Assumptions C10_order_refuted.

Example C10_example : exists w,
  spec_run Singly [] [LNew [one; two]; LNew [one; three; one]] = Some ([RNew 1; RNew 1], w)
  /\ w !! 0 = Some (Some [one; two]) /\ w !! 1 = Some (Some [one; three; one])
  /\ comparable [one; two] [one; three; one] /\ below [one; two] [one; three; one].
Proof.
  eexists. split; [vm_compute; reflexivity|]. split; [done|]. split; [done|].
  split; [|split; [cbn; lia|]]; intros [|[|[|i]]] x y Hx Hy; try done;
    injection Hx as <-; injection Hy as <-; vm_compute; done.
Qed.

(** ** C11.  Full property: no sequence of calls loops.  Proved for every history covered
    by the specification; refuted for a list extended with itself. *)
Theorem C11_terminates_partial : forall k ops outs w,
  spec_run k [] ops = Some (outs, w) -> model_run k conf0 ops <> None.
Proof. exact run_terminates. Qed.
Print Assumptions C11_terminates_partial.

(** a.extend(a) on any non-empty CircularLinkedList runs out of every number of steps. *)
Theorem C11_circular_self_extend_refuted : forall h outs w x vs,
  spec_run Circular [] h = Some (outs, w) -> w !! x = Some (Some vs) -> vs <> [] ->
  exists s env o, model_run Circular conf0 h = Some (outs, (s, env)) /\ env !! x = Some o
    /\ (forall fuel, cll_extend fuel o o s = Diverge)
    /\ model_run Circular conf0 (h ++ [LExtend x x]) = None.
Proof. exact circular_self_extend_loops. Qed.
Print Assumptions C11_circular_self_extend_refuted.

(** After a.extend(a) on the other classes, searching any missing value never ends. *)
Theorem C11_search_after_self_extend_refuted : forall k h outs w x vs v,
  k <> Circular -> spec_run k [] h = Some (outs, w) -> w !! x = Some (Some vs) -> vs <> [] ->
  is_val v = true -> v <> PNone -> v ∉ vs ->
  exists s env o obj hd, model_run k conf0 (h ++ [LExtend x x]) = Some (outs ++ [RUnit], (s, env))
    /\ env !! x = Some o /\ s_objs s !! o = Some obj /\ o_head obj = Some hd
    /\ (forall fuel, search_loop fuel v hd s = Diverge)
    /\ model_run k conf0 (h ++ [LExtend x x; LContains x v]) = None.
Proof. exact self_extend_search_loops. Qed.
Print Assumptions C11_search_after_self_extend_refuted.

Example C11_example : exists w,
  spec_run Circular [] [LNew [one; two]; LRemoveEnd 0] = Some ([RNew 1; RUnit], w)
  /\ w !! 0 = Some (Some [one]).
Proof. eexists. split; vm_compute; reflexivity. Qed.
