(** * C66: looping over a heap while the program goes on.

    A program is any sequence of calls on one MinHeap ([b] = true) or MaxHeap,
    [iter(h)] and [next(it)] on any number of iterators over it, interleaved in any
    way; [model_hrun] runs it. *)
From Verif Require Import Base HeapModel HeapSpec HeapThm HeapIterModel HeapIterSpec HeapIterThm.

(** Every program runs to its end, and its calls give what they give without its
    iterators. *)
Theorem C66_iterators_only_read : forall b ts, hmade 0 ts ->
  exists outs h gs, model_hrun b hconf0 ts = Some (outs, (h, gs)) /\
    heap_calls b [] (hcalls_of ts) = Some (hresults_of outs, h).
Proof.
  intros b ts Hm. destruct (calls_weak b (hcalls_of ts) []) as (rs & h & Hc & _).
  destruct (hrun_total b ts [] [] rs h Hc Hm) as (outs & gs & H & <- & _). by exists outs, h, gs.
Qed.
Print Assumptions C66_iterators_only_read.

(** A loop gives exactly what [to_list()] would have given at its first step, and then
    stops, whatever the program does to the heap between two steps: insertions,
    removals and [clear()] included.  (On a heap that was empty at that step the loop
    raises AssertionError and is then over.)  Iterator [i] is first asked between
    [pre] and [ts], where the array is [vs]. *)
Theorem C66_snapshot : forall b pre ts i,
  let p := pre ++ YNext i :: ts in
  hmade 0 p -> hasks i pre = 0 ->
  exists rs vs outs e,
    heap_calls b [] (hcalls_of pre ++ [HToList]) = Some (rs ++ [HVals vs], vs) /\
    model_hrun b hconf0 p = Some (outs, e) /\
    hseen i p outs = heap_loop vs (hasks i p).
Proof.
  intros b pre ts i p Hm Ha.
  destruct (calls_weak b (hcalls_of pre) []) as (rs & vs & Hc & _).
  destruct (calls_weak b (hcalls_of p) []) as (rs' & h' & Hc' & _).
  destruct (hrun_total b p [] [] rs' h' Hc' Hm) as (outs & gs' & Hrun & _ & _).
  exists rs, vs, outs, (h', gs'). split_and!; [|done|].
  { rewrite (calls_snoc b (hcalls_of pre) [] rs vs Hc). done. }
  unfold p in *. rewrite hrun_app in Hrun.
  destruct (hmade_app pre (YNext i :: ts) 0 Hm) as [Hm1 [Hi Hm2]].
  destruct (hrun_total b pre [] [] rs vs Hc Hm1) as (o1 & gs & H1 & _ & Hl). unfold hconf0 in Hrun. rewrite H1 in Hrun.
  destruct (model_hrun b (vs, gs) (YNext i :: ts)) as [[o2 q2]|] eqn:H2; [|done]. injection Hrun as <- Eq.
  pose proof (hrun_iters b pre [] [] _ _ H1) as Hgl. cbn [snd length plus] in Hgl.
  destruct (hrun_fresh b i pre [] [] o1 (vs, gs) ltac:(right; cbn; lia) Ha H1 ltac:(cbn [snd]; lia)) as [Hg Hs].
  rewrite hseen_app by done. rewrite Hs. rewrite hasks_app, Ha. cbn [app plus hasks]. rewrite Nat.eqb_refl. cbn [snd] in Hg.
  cbn [model_hrun model_hstep fst snd] in H2. rewrite Hg in H2. cbn [mbind option_bind] in H2.
  destruct vs as [|x vs].
  - cbn [hg_next transform] in H2. unfold transform, py_assert, bind, raise in H2. cbn [length Nat.eqb negb mbind option_bind] in H2.
    destruct (model_hrun b ([], <[i:=HGDone]> gs) ts) as [[os q3]|] eqn:H3; [|done]. injection H2 as <- <-.
    cbn [hseen]. rewrite Nat.eqb_refl.
    rewrite (hrun_loop b [] i ts [] _ HGDone [] os q3 (list_lookup_insert gs i HGDone (lookup_lt_Some _ _ _ Hg)) eq_refl H3).
    unfold heap_loop. cbn [app plus take map]. f_equal. exact (take_more [] HStop (hasks i ts)).
  - destruct (hg_first (x :: vs) _ eq_refl ltac:(done)) as (y & g & fut & Hn & Hf & Hinv). rewrite Hn in H2. cbn [mbind option_bind] in H2.
    destruct (model_hrun b (x :: vs, <[i:=g]> gs) ts) as [[os q3]|] eqn:H3; [|done]. injection H2 as <- <-. injection Hf as <- <-.
    cbn [hseen]. rewrite Nat.eqb_refl.
    rewrite (hrun_loop b (x :: vs) i ts _ _ g vs os q3 (list_lookup_insert gs i g (lookup_lt_Some _ _ _ Hg)) Hinv H3).
    unfold heap_loop. cbn [app plus take map]. f_equal. apply take_more.
Qed.
Print Assumptions C66_snapshot.

(** The hypotheses are met: the first loop sees the heap of its first step although
    it is emptied and refilled during the loop; the second one sees the new heap. *)
Definition heap_program : list hstmt :=
  [YCall (HInsert (PInt 5)); YIter; YCall (HInsert (PInt 3)); YCall (HInsert (PInt 8)); YNext 0; YCall HRemoveMin; YCall HClear;
   YCall (HInsert (PInt 7)); YNext 0; YIter; YNext 1; YNext 0; YNext 0; YNext 1].
Example C66_example : hmade 0 heap_program /\ hasks 0 (take 4 heap_program) = 0 /\
  exists outs e, model_hrun true hconf0 heap_program = Some (outs, e) /\
    hseen 0 heap_program outs = [HGot (Fin 3); HGot (Fin 5); HGot (Fin 8); HStop] /\
    hseen 1 heap_program outs = [HGot (Fin 7); HStop].
Proof. split; [cbn; repeat split; lia|]. split; [done|]. eexists _, _. split_and!; by vm_compute. Qed.
