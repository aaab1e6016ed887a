(** * C03, C04: item assignment in circular lists and slices of any step, exactly *)
From Verif Require Import Base ListModel ListSpec ListRun ListSim ListExactSpec ListExact.
Notation one := (PInt 1).
Notation two := (PInt 2).
Notation three := (PInt 3).

(** Every history of a circular list, item assignments included: [None] is refused with an
    AssertionError; an empty list refuses with an AttributeError, unless elements have left it
    since it was created, cleared or rotated - then the assignment is accepted and lost. *)
Theorem C03_exact : forall items ops, Forall storable items -> Forall single_list_call ops ->
  exists outs r c, ring_run (Ring (map norm_item items) false) ops = Some (outs, r)
    /\ model_run Circular conf0 (LNew items :: ops) = Some (RNew 1 :: outs, c).
Proof. exact ring_exact. Qed.
Print Assumptions C03_exact.

Example C03_exact_example : exists c,
  let ops := [LSet 0 (AInt 5) one; LAddEnd 0 two; LSet 0 (AInt 5) one; LSet 0 (AInt 0) PNone; LRemoveFront 0; LSet 0 (AInt 5) three; LLen 0;
              LRotate 0 (Some 3%Z) true; LSet 0 (AInt 5) three] in
  let outs := [RExc AttributeError; RUnit; RUnit; RExc AssertionError; RUnit; RUnit; RNat 0; RUnit; RExc AttributeError] in
  Forall single_list_call ops /\ ring_run (Ring [] false) ops = Some (outs, Ring [] false)
  /\ model_run Circular conf0 (LNew [] :: ops) = Some (RNew 1 :: outs, c).
Proof. eexists. cbv zeta. split; [repeat constructor|]. split; vm_compute; reflexivity. Qed.

(** Every history of several lists, slices with negative steps included. *)
Theorem C04_exact : forall k ops outs w,
  slicing_run k [] ops = Some (outs, w) -> exists c, model_run k conf0 ops = Some (outs, c).
Proof. intros k ops outs w H. destruct (slicing_refines k ops conf0 [] outs w (rel0 _) H) as (c & Hc & _). by exists c. Qed.
Print Assumptions C04_exact.
(** A slice is right exactly if the step is positive or it should have at most one element. *)
Theorem C04_right_iff : forall vs start stop step,
  taken_slice vs start stop step = py_slice vs start stop step <-> (0 <= step)%Z \/ length (py_slice vs start stop step) <= 1.
Proof.
  intros vs start stop step. unfold taken_slice. case_bool_decide as H; [|split; [intros _; lia|done]].
  destruct (py_slice vs start stop step) as [|v [|w l]] eqn:E; cbn.
  - split; [intros _; lia|done].
  - split; [intros _; lia|done].
  - split; [|lia]. intros Hl%(f_equal length). exfalso. revert Hl. destruct (list.last _); done.
Qed.
Print Assumptions C04_right_iff.

Example C04_exact_example : exists w c,
  let ops := [LNew [one; two; three]; LGet 0 (ASlice None None (Some (-2)%Z)); LToList 1; LGet 1 (ASlice (Some (-1)%Z) None (Some (-1)%Z)); LToList 2] in
  let outs := [RNew 1; RNew 1; RVals [one]; RNew 1; RVals [one]] in
  slicing_run Doubly [] ops = Some (outs, w) /\ py_slice [one; two; three] None None (-2) = [three; one]
  /\ model_run Doubly conf0 ops = Some (outs, c).
Proof. do 2 eexists. cbv zeta. split; [|split]; vm_compute; reflexivity. Qed.
