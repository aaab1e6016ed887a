(** * C82: how many elements the calls that scan a linked list look at *)
From Verif Require Import Base ListSpec ListRep ListCore ListCore2 ListOps ListOps2 ListRun ListModel
  WalkModel WalkSpec WalkThm WalkThm2 WalkProps ScanModel ScanSpec ScanThm.
Local Open Scope py_scope.

(** With the counter the calls do what they do without it; [contains] in any list reached by
    calls, the others in any state. *)
Theorem C82_same :
  (forall o, counts (to_list_c o) (to_list o)) /\ (forall o v, counts (count_c o v) (count o v))
  /\ (forall o, counts (copy_c o) (copy o)) /\ (forall o, counts (reverse_c o) (reverse o))
  /\ (forall o v all, counts (remove_c o v all) (remove o v all))
  /\ (forall o p, counts (list_eq_c o p) (list_eq o p) /\ counts (list_ne_c o p) (list_ne o p)
        /\ counts (list_lt_c o p) (list_lt o p) /\ counts (list_le_c o p) (list_le o p)
        /\ counts (list_gt_c o p) (list_gt o p) /\ counts (list_ge_c o p) (list_ge o p))
  /\ (forall k s o g v n, rep (mcls k) s o g -> is_val v = true ->
        match contains_c o v (s, n) with Ok a p => contains o v s = Ok a p.1 | _ => False end).
Proof.
  split_and!; intros; [apply co_to_list|apply co_count|apply co_copy|apply co_reverse|apply co_remove|apply co_relations|by eapply same_contains].
Qed.
Print Assumptions C82_same.

(** Reading, counting, copying, reversing and removing all occurrences look at each of the
    [n] elements once. *)
Theorem C82_whole s o k n v : a_list s o k n ->
  takes s (to_list_c o) n /\ takes s (count_c o v) n /\ takes s (copy_c o) n /\ takes s (reverse_c o) n
  /\ takes s (remove_c o v (Some true)) n.
Proof. intros H. split_and!; [by eapply tk_to_list|by eapply tk_count|by eapply tk_copy|by eapply tk_reverse|by eapply tk_remove]. Qed.
Print Assumptions C82_whole.

(** Asking for a value and removing its first occurrence end at that occurrence; asking for
    None looks at nothing, except in a circular list. *)
Theorem C82_search k s o g v : rep (mcls k) s o g ->
  takes s (remove_c o v (Some false)) (looked_at v (vals g))
  /\ (is_val v = true -> takes s (contains_c o v)
        (if bool_decide (v = PNone) && negb (is_cll (mcls k)) then 0 else looked_at v (vals g))).
Proof. intros H. split; [by eapply tk_remove1|]. intros. by eapply tk_contains. Qed.
Print Assumptions C82_search.
(** That is: up to the first occurrence, or the whole list. *)
Theorem C82_looked_at v :
  (forall a b, v ∉ a -> looked_at v (a ++ v :: b) = length a + 1) /\ (forall vs, v ∉ vs -> looked_at v vs = length vs).
Proof.
  split; [|apply looked_at_absent]. induction a as [|x a IH]; intros b H; cbn.
  - by rewrite bool_decide_eq_true_2.
  - rewrite bool_decide_eq_false_2 by set_solver. rewrite IH by set_solver. done.
Qed.
Print Assumptions C82_looked_at.

(** The comparisons end at the first two elements that decide, or that cannot be compared;
    [==] and [!=] look at nothing if the lengths differ. *)
Theorem C82_compare k s o o' g1 g2 : rep (mcls k) s o g1 -> rep (mcls k) s o' g2 ->
  let eq := if Nat.eqb (length g1) (length g2) then compared OpEq (vals g1) (vals g2) else 0 in
  takes s (list_eq_c o o') eq /\ takes s (list_ne_c o o') eq
  /\ takes s (list_lt_c o o') (compared OpLt (vals g1) (vals g2))
  /\ takes s (list_le_c o o') (compared OpLe (vals g1) (vals g2))
  /\ takes s (list_gt_c o o') (compared OpGt (vals g1) (vals g2))
  /\ takes s (list_ge_c o o') (compared OpGe (vals g1) (vals g2)).
Proof. intros. by eapply tk_relations. Qed.
Print Assumptions C82_compare.
(** The documented O(min(n, m)), which is reached by equal lists; [==] ends at the first
    difference. *)
Theorem C82_compared :
  (forall op vs ws, compared op vs ws <= Nat.min (length vs) (length ws))
  /\ (forall op vs, compared op vs vs = length vs)
  /\ (forall a x y vs ws, py_eq x y = false -> x <> y -> compared OpEq (a ++ x :: vs) (a ++ y :: ws) = length a + 1).
Proof.
  split_and!; [apply compared_le|apply compared_same|]. intros a x y vs ws He Hn. induction a as [|z a IH]; cbn [app compared length Nat.add].
  - rewrite bool_decide_eq_false_2 by done. cbn [py_op]. by rewrite He.
  - rewrite bool_decide_eq_true_2 by done. by rewrite IH.
Qed.
Print Assumptions C82_compared.

(** The hypotheses are met: the lists [3; 1; 2; 1], its copy and [3; 2]. *)
Definition three (k : lcls) : st :=
  let nums := map (fun z => PNum (Fin z)) in
  match (let! o := construct k (nums [3; 1; 2; 1]%Z) in copy o ;; construct k (nums [3; 2]%Z)) st0 with Ok _ s => s | _ => st0 end.
Definition ghosts (from : nat) (l : list Z) : list gn := imap (fun i z => GN (from + i) (PNum (Fin z)) (Fin 0) None) l.
Example C82_example k : let s := three (mcls k) in
  rep (mcls k) s 0 (ghosts 0 [3; 1; 2; 1]%Z) /\ rep (mcls k) s 1 (ghosts 4 [3; 1; 2; 1]%Z) /\ rep (mcls k) s 2 (ghosts 8 [3; 2]%Z)
  /\ a_list s 0 (mcls k) 4
  /\ steps_of (contains_c 0 (PNum (Fin 1))) s = Some 2 /\ steps_of (contains_c 0 (PNum (Fin 7))) s = Some 4
  /\ steps_of (remove_c 0 (PNum (Fin 1)) (Some false)) s = Some 2 /\ steps_of (remove_c 0 (PNum (Fin 1)) (Some true)) s = Some 4
  /\ steps_of (reverse_c 0) s = Some 4 /\ steps_of (copy_c 0) s = Some 4
  /\ steps_of (list_eq_c 0 1) s = Some 4 /\ steps_of (list_eq_c 0 2) s = Some 0
  /\ steps_of (list_lt_c 0 2) s = Some 2 /\ steps_of (list_gt_c 0 2) s = Some 2.
Proof.
  intros s. assert (rep (mcls k) s 0 (ghosts 0 [3; 1; 2; 1]%Z) /\ rep (mcls k) s 1 (ghosts 4 [3; 1; 2; 1]%Z) /\ rep (mcls k) s 2 (ghosts 8 [3; 2]%Z)) as (H1 & H2 & H3).
  { unfold s. clear s. destruct k; split_and!.
    all: split; [eexists _, _; split_and!; by vm_compute| |apply (bool_decide_unpack _); by vm_compute|by repeat constructor].
    all: repeat split; eexists; (split; [by vm_compute|by vm_compute]). }
  split_and!; try done. 1: exact (rep_a_list _ _ _ _ H1).
  all: by destruct k; vm_compute.
Qed.
