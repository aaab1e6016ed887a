(** * C07 between different classes, and nodes as arguments (C01, C02, C03)

    Specification: ListSpec.v.  Proofs: ListMixThm.v. *)
From Verif Require Import Base ListModel ListSpec ListRun ListMixThm.
Local Open Scope py_scope.

(** [x.extend(K(ys))] for a class K other than that of [x]: a LinkedList takes it (every list
    of the package is a LinkedList), the other classes raise TypeError and nothing changes. *)
Theorem C07_other_classes k k' h outs w x xs ys :
  spec_run k [] h = Some (outs, w) -> w !! x = Some (Some xs) -> Forall storable ys -> k' <> k ->
  exists s env o n s1, model_run k conf0 h = Some (outs, (s, env)) /\ env !! x = Some o
   /\ construct (mcls k') ys s = Ok n s1
   /\ (k <> Singly -> extend o n s1 = Exc TypeError s1)
   /\ (k = Singly -> exists s2, extend o n s1 = Ok tt s2
        /\ to_list o s2 = Ok (xs ++ map norm_item ys) s2 /\ to_list n s2 = Ok (map norm_item ys) s2).
Proof. exact (extend_classes k k' h outs w x xs ys). Qed.
Print Assumptions C07_other_classes.

(** [x.count(n)] and [n in x] for a node [n] holding [v] ([d]: a doubly linked one): count looks
    for [v], except that a DoublyLinkedList does not take a plain node for one of its own; the
    search of a LinkedList or DoublyLinkedList refuses nodes unless the list is empty. *)
Theorem C01_node_arguments k h outs w x vs d v :
  spec_run k [] h = Some (outs, w) -> w !! x = Some (Some vs) ->
  exists s env o, model_run k conf0 h = Some (outs, (s, env)) /\ env !! x = Some o
   /\ count o (PNodeObj d v) s = Ok (match k, d with Doubly, false => 0 | _, _ => occurrences v vs end) s
   /\ contains o (PNodeObj d v) s = match k, vs with Circular, _ | _, [] => Ok false s | _, _ => Exc AssertionError s end.
Proof. exact (node_arguments k h outs w x vs d v). Qed.
Print Assumptions C01_node_arguments.

(** The hypotheses are met: LinkedList([1]).extend(CircularLinkedList([2, 2])). *)
Example C07_other_classes_example : exists outs w,
  spec_run Singly [] [LNew [PNum (Fin 1)]] = Some (outs, w) /\ w !! 0 = Some (Some [PNum (Fin 1)])
  /\ Forall storable [PNum (Fin 2); PNum (Fin 2)] /\ Circular <> Singly.
Proof. do 2 eexists. split; [vm_compute; reflexivity|]. split; [reflexivity|]. split; [by repeat constructor|done]. Qed.
