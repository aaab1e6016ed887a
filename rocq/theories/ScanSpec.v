(** * How many elements a search looks at: specification (C82) *)
From Verif Require Import Base ListModel.

(** A search from the front for [v] in a list holding [vs] ends at the first element equal to
    [v]; if there is none it looks at all of them. *)
Fixpoint looked_at (v : pyval) (vs : list pyval) : nat :=
  match vs with
  | [] => 0
  | x :: vs' => if bool_decide (x = v) then 1 else 1 + looked_at v vs'
  end.
(** The comparison for the operator [op] ends at the first pair that differs and for which
    the operator does not hold. *)
Fixpoint compared (op : cmpop) (vs ws : list pyval) : nat :=
  match vs, ws with
  | x :: vs', y :: ws' =>
      if bool_decide (x = y) then 1 + compared op vs' ws'
      else match py_op op x y with Some true => 1 + compared op vs' ws' | _ => 1 end
  | _, _ => 0
  end.
Lemma looked_at_le v vs : looked_at v vs <= length vs.
Proof. induction vs; cbn; [lia|]. case_bool_decide; lia. Qed.
Lemma looked_at_absent v vs : v ∉ vs -> looked_at v vs = length vs.
Proof. induction vs; cbn; [done|]. intros H. rewrite bool_decide_eq_false_2 by set_solver. rewrite IHvs by set_solver. done. Qed.
Lemma compared_le op : forall vs ws, compared op vs ws <= Nat.min (length vs) (length ws).
Proof. induction vs as [|x vs IH]; intros [|y ws]; cbn; try lia. specialize (IH ws). case_bool_decide; [lia|]. destruct (py_op op x y) as [[]|]; lia. Qed.
Lemma compared_same op vs : compared op vs vs = length vs.
Proof. induction vs; cbn; [done|]. rewrite bool_decide_eq_true_2 by done. by f_equal. Qed.
