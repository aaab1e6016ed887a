(** * The search of SkipList with its steps counted (C72)

    The functions of SkipModel.v again, which return in addition how many nodes the search
    went to the right and how many levels it went down.  C72_same_search says that nothing
    else differs. *)
From Verif Require Import Base ListModel SkipModel.
Local Open Scope py_scope.

(** skip_list.py:74-106 search_sorted; [k] counts the rounds of the loop (lines 102-105). *)
Fixpoint search_sorted_c (fuel : nat) (prev : option loc) (curr : loc) (v : pyval) (k : nat) : M st (option loc * loc * nat) :=
  match fuel with
  | 0 => diverge
  | S f =>
      let! nx := get_next curr in
      match nx with
      | None => ret (prev, curr, k)
      | Some n =>
          let! d := get_data n in
          let! le := py_leb d v in
          if le then search_sorted_c f (Some curr) n v (S k) else ret (prev, curr, k)
      end
  end.
(** skip_list.py:702-712; [k] counts the steps to the right, [d] the rounds of the loop, which
    go down one level each. *)
Fixpoint search_loop_c (fuel : nat) (n : nat) (prev : option loc) (start : loc) (v : pyval) (acc : list loc) (k d : nat) :
    M st (option loc * loc * list loc * (nat * nat)) :=
  match fuel with
  | 0 => diverge
  | S f =>
      let! fu := get_fuel in
      let! down := get_down start in
      match down with
      | None =>
          let! r := search_sorted_c fu prev start v k in
          py_assert (Nat.eqb (length acc) (n - 1)) ;;
          ret (r.1.1, r.1.2, rev acc, (r.2, d))
      | Some _ =>
          let! r := search_sorted_c fu prev start v k in
          let! x := get_data r.1.2 in
          if py_eq x v then ret (r.1.1, r.1.2, acc, (r.2, d))
          else
            let! start' := get_down r.1.2 in
            let! prev' := (match r.1.1 with Some p => get_down p | None => ret None end) in
            let! start'' := deref start' in
            search_loop_c f n prev' start'' v (acc ++ [r.1.2]) r.2 (S d)
      end
  end.
(** skip_list.py:645-712 _search. *)
Definition search_c (self : nat) (v : pyval) : M kst (option loc * loc * list loc * (nat * nat)) :=
  let! n := num_levels self in
  let! top := level_list self (n - 1) in
  lift (let! o := get_obj top in
        let! start := deref (o_head o) in
        let! fu := get_fuel in
        search_loop_c fu n None start v [] 0 0).
