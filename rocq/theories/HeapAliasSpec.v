(** * What a program that keeps the lists of a heap may expect *)
From Verif Require Import Base HeapModel HeapAliasModel.

(** The program itself changes a list it was given. *)
Definition changes_list (op : aop) : Prop := match op with AAppend _ _ | AAssign _ _ _ => True | _ => False end.
(** The program asks the heap for its list, or empties it. *)
Definition takes (op : aop) : bool := match op with ACall HToList => true | _ => false end.
Definition clears (op : aop) : Prop := op = ACall HClear.
(** How many lists the program was given so far. *)
Definition given (p : list aop) : nat := length (filter (fun op => takes op = true) p).
(** The calls made on the heap, and their answers. *)
Definition calls_made (p : list aop) : list hop := omap (fun op => match op with ACall c => Some c | _ => None end) p.
Definition answers_of_calls (p : list aop) (rs : list hout) : list hout :=
  omap (fun x => match fst x with ACall _ => Some (snd x) | _ => None end) (zip p rs).
(** The last answer of a program started with a new heap. *)
Definition final_answer (b : bool) (p : list aop) : option hout :=
  match heap_program b mem0 p with Some (rs, _) => list.last rs | None => None end.
