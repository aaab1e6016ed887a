(** * Properties of the printed form of SkipList (C62)

    Specification: SkipDrawSpec.v.  Model: SkipDrawModel.v.  Proofs: SkipDrawThm.v. *)
From Coq Require Import Sorted.
From Verif Require Import Base NumOrd ListModel SkipModel SkipSpec SkipThm SkipThm2 SkipThm3 DrawModel DrawSpec DrawThm SkipDrawModel SkipDrawSpec SkipDrawThm.

(** After any history that does not mention -inf (C18), printing draws exactly the picture of
    the elements and of their towers, and changes nothing. *)
Theorem C62_drawing text os : Forall avoids_neg_inf os ->
  exists rs s, khistory os = Some (rs, s) /\ sl_repr text 0 s = Ok (joined (skip_picture text (tafter os []))) s.
Proof. apply history_repr. Qed.
Print Assumptions C62_drawing.
(** All the lines of the picture are equally long, so that the boxes of a tower are above
    each other. *)
Theorem C62_aligned text A : aligned (skip_picture text A).
Proof. apply skip_aligned. Qed.
Print Assumptions C62_aligned.
(** The picture has two lines per level and one on top. *)
Theorem C62_height text A : length (skip_picture text A) = 1 + 2 * theight A.
Proof. unfold skip_picture. cbn [length]. by rewrite level_lines_len. Qed.
Print Assumptions C62_height.
(** Two histories that leave the same printout leave the same elements in the same towers. *)
Theorem C62_print_determines text os os' s s' rs rs' : good_text text -> Forall avoids_neg_inf os -> Forall avoids_neg_inf os' ->
  khistory os = Some (rs, s) -> khistory os' = Some (rs', s') -> forall a b,
  sl_repr text 0 s = Ok a s -> sl_repr text 0 s' = Ok b s' -> (a = b <-> tafter os [] = tafter os' []).
Proof.
  intros Hg H H' E E' a b Ea Eb. destruct (history_repr text os H) as (r1 & s1 & E1 & P1). destruct (history_repr text os' H') as (r2 & s2 & E2 & P2).
  rewrite E in E1. injection E1 as <- <-. rewrite E' in E2. injection E2 as <- <-. rewrite Ea in P1. rewrite Eb in P2. injection P1 as ->. injection P2 as ->.
  split; [|by intros ->]. apply skip_picture_inj; [done|..].
  - destruct (history_ok os H) as (? & _ & HG). intros Hin. by apply (good_neg _ _ _ _ HG Hin).
  - destruct (history_ok os' H') as (? & _ & HG). intros Hin. by apply (good_neg _ _ _ _ HG Hin).
Qed.
Print Assumptions C62_print_determines.
(** Decimal notation is such a text. *)
Theorem C62_str_int_good : good_text str_int.
Proof. apply str_int_good. Qed.
Print Assumptions C62_str_int_good.

(** The docstring's list, with the coins that give its towers. *)
Definition C62_ops : list skop := [KInsert (PInt 20) 2; KInsert (PInt 77) 1; KInsert (PInt 10) 0; KInsert (PInt 6) 0; KInsert (PInt 2) 0].
(** The pieces of its picture. *)
Definition bx (t : pystr) : pystr := [c_bar; c_sp] ++ t ++ [c_sp; c_ver; c_right].
Definition tx (l r : N) (n : nat) : pystr := [l] ++ repeat c_hor n ++ [r; c_sp].
Example C62_example : good_text str_int /\ Forall avoids_neg_inf C62_ops /\ exists rs s, khistory C62_ops = Some (rs, s) /\
  sl_repr str_int 0 s = Ok (
     tx c_tl c_tr 4 ++ repeat c_sp 19 ++ tx c_tl c_tr 4 ++ repeat c_sp 7 ++ c_nl ::
     bx [c_minus; c_inf] ++ repeat c_right 19 ++ bx [50; 48]%N ++ repeat c_right 7 ++ c_nl ::
     tx c_lt c_rt 4 ++ repeat c_sp 19 ++ tx c_lt c_rt 4 ++ tx c_tl c_tr 4 ++ c_nl ::
     bx [c_minus; c_inf] ++ repeat c_right 19 ++ bx [50; 48]%N ++ bx [55; 55]%N ++ c_nl ::
     tx c_lt c_rt 4 ++ tx c_tl c_tr 3 ++ tx c_tl c_tr 3 ++ tx c_tl c_tr 4 ++ tx c_lt c_rt 4 ++ tx c_lt c_rt 4 ++ c_nl ::
     bx [c_minus; c_inf] ++ bx [50]%N ++ bx [54]%N ++ bx [49; 48]%N ++ bx [50; 48]%N ++ bx [55; 55]%N ++ c_nl ::
     tx c_bl c_br 4 ++ tx c_bl c_br 3 ++ tx c_bl c_br 3 ++ tx c_bl c_br 4 ++ tx c_bl c_br 4 ++ tx c_bl c_br 4) s.
Proof. split; [apply str_int_good|]. split; [by repeat constructor|]. do 2 eexists. split; [by vm_compute|]. by vm_compute. Qed.
(** An empty list is drawn as its start, a box with -inf. *)
Example C62_empty_example : exists rs s, khistory [KInsert (PInt 20) 2; KRemove (PInt 20)] = Some (rs, s) /\
  sl_repr str_int 0 s = Ok (tx c_tl c_tr 4 ++ c_nl :: bx [c_minus; c_inf] ++ c_nl :: tx c_bl c_br 4) s.
Proof. do 2 eexists. split; by vm_compute. Qed.

(** ** C18: after remove(-inf) the printout contradicts the list *)
(** 5 is drawn, in the place of -inf, though to_list() is empty and the length is 0. *)
Theorem C18_print_disagrees : exists s, khistory [KInsert (PInt 5) 0; KRemove (PNum NegInf); KLen; KToList] = Some ([KUnit; KUnit; KNat 0; KVals []], s) /\
  exists s', sl_repr str_int 0 s = Ok (tx c_tl c_tr 3 ++ c_nl :: bx [53]%N ++ c_nl :: tx c_bl c_br 3) s'.
Proof. eexists. split; [by vm_compute|]. eexists. by vm_compute. Qed.
Print Assumptions C18_print_disagrees.
