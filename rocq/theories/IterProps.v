(** * C64: iterating over a list while the program goes on.

    A program is any sequence of calls on any number of lists, [iter(x)] and
    [next(it)] on any number of iterators, interleaved in any way.  [model_irun] runs
    it on the model of the code, [spec_irun] says what Python's own list iterators
    would give (IterSpec.v); [None] in the latter: a call outside the properties of
    the lists themselves (ListSpec.v). *)
From Verif Require Import Base ListModel ListRep ListCore ListCore2 ListSpec ListPure ListOps ListOps2 ListRun ListOps3 ListSim ListThm.
From Verif Require Import IterModel IterSpec IterThm IterThm2 IterThm3.

(** A loop over a list that is not changed meanwhile gives exactly its elements, in
    order, each once, and then stops, whatever else the program does between two
    steps: other loops over the same list (nested loops), reads of it, copies of it,
    any change to other lists.  The program before the loop is arbitrary. *)
Theorem C64_plain_loop : forall k pre w its po x vs ts outs e,
  spec_irun k [] [] pre = Some (po, (w, its)) -> content w x = Some vs ->
  spec_irun k [] [] (pre ++ SIter x :: ts) = Some (outs, e) ->
  only_reads x ts ->
  let i := length its in
  exists outs' c, model_irun k iconf0 (pre ++ SIter x :: ts) = Some (outs', c)
    /\ seen i (pre ++ SIter x :: ts) outs' = plain_loop vs (asks i ts).
Proof.
  intros k pre w its po x vs ts outs e Hpre Hx Hrun Hro i.
  pose proof Hrun as Hrun'. rewrite spec_irun_app, Hpre in Hrun'. cbn [mbind option_bind spec_irun spec_istep] in Hrun'.
  rewrite Hx in Hrun'. cbn [mbind option_bind] in Hrun'.
  destruct (spec_irun k w (its ++ [PAt x 0]) ts) as [[o2 e2]|] eqn:H2; cbn [mbind option_bind] in Hrun'; [|done].
  injection Hrun' as <- <-.
  destruct (not_asked k i pre _ _ _ _ _ Hpre ltac:(done)) as (Hs1 & _ & Hu1).
  destruct (loop_spec k i x vs ts 0 w (its ++ [PAt x 0]) o2 e2 H2 Hx Hro) as [Hs2 Hu2].
  { left. split; [|lia]. rewrite lookup_app_r by done. by rewrite Nat.sub_diag. }
  assert (undisturbed (fun j => j = i) k [] [] (pre ++ SIter x :: ts)) as Hu.
  { apply undisturbed_app. split; [done|]. rewrite Hpre. cbn [undisturbed spec_istep]. rewrite Hx. done. }
  destruct e2 as [w2 its2].
  destruct (isim_run (fun j => j = i) k _ _ _ _ _ _ _ _ (irel0 _ k) Hrun Hu) as (outs' & c & Hm & Ha & _).
  exists outs', c. split; [done|]. rewrite (agree_seen _ _ _ _ i Ha eq_refl).
  rewrite seen_app by (by eapply srun_length). rewrite Hs1. cbn [app seen]. exact Hs2.
Qed.
Print Assumptions C64_plain_loop.

(** Every program: an iterator gives what Python's list iterator gives, and the calls
    on the lists give what they always give, as long as no call restructures the part
    of the list that this iterator has already passed.  Appending, assigning to any
    item, inserting, deleting and removing at or behind the position of the iterator
    are allowed, and so is anything on the lists that it does not run over; other
    iterators may be disturbed. *)
Theorem C64_list_iterator_partial : forall k ts outs e i,
  spec_irun k [] [] ts = Some (outs, e) -> undisturbed (fun j => j = i) k [] [] ts ->
  exists outs' c, model_irun k iconf0 ts = Some (outs', c)
    /\ seen i ts outs' = seen i ts outs /\ call_results outs' = call_results outs.
Proof.
  intros k ts outs [w its] i Hs Hu.
  destruct (isim_run (fun j => j = i) k _ _ _ _ _ _ _ _ (irel0 _ k) Hs Hu) as (outs' & c & Hm & Ha & _).
  exists outs', c. split_and!; [done|by apply (agree_seen _ _ _ _ i Ha)|by eapply agree_calls].
Qed.
Print Assumptions C64_list_iterator_partial.

(** If this holds of all iterators of the program, everything it sees is the same. *)
Theorem C64_list_iterators_partial : forall k ts outs e,
  spec_irun k [] [] ts = Some (outs, e) -> undisturbed (fun _ => True) k [] [] ts ->
  exists c, model_irun k iconf0 ts = Some (outs, c).
Proof.
  intros k ts outs [w its] Hs Hu.
  destruct (isim_run (fun _ => True) k _ _ _ _ _ _ _ _ (irel0 _ k) Hs Hu) as (outs' & c & Hm & Ha & _).
  apply agree_eq in Ha as ->. by exists c.
Qed.
Print Assumptions C64_list_iterators_partial.

(** The missing part is false of the code.  Let a loop over a LinkedList or
    DoublyLinkedList have given [p] of the items, and let the program then add an item
    at the front and finish the loop.  A Python list would give the last item again and
    go on to the end.  The loop of this package gives the remaining items and then
    raises AttributeError instead of stopping: always, for every list and position. *)
Theorem C64_add_front_refuted : forall k pre w its po x vs v p,
  k <> Circular -> spec_irun k [] [] pre = Some (po, (w, its)) -> content w x = Some vs ->
  1 <= p <= length vs -> validate_item v = None ->
  let i := length its in
  let ts := pre ++ SIter x :: replicate p (SNext i) ++
            SCall (LAddFront x v) :: replicate (S (length vs - p)) (SNext i) in
  (exists outs e, spec_irun k [] [] ts = Some (outs, e)
     /\ seen i ts outs = map IVal (take p vs) ++ map IVal (drop (p - 1) vs))
  /\ (exists outs' c, model_irun k iconf0 ts = Some (outs', c)
     /\ seen i ts outs' = map IVal vs ++ [IExc AttributeError]).
Proof.
  intros k pre w its po x vs v p Hk Hpre Hx Hp Hv i ts.
  set (first := pre ++ SIter x :: replicate p (SNext i)).
  set (last := SCall (LAddFront x v) :: replicate (S (length vs - p)) (SNext i)).
  assert (ts = first ++ last) as Hts by (unfold ts, first, last; by rewrite <- app_assoc).
  destruct (not_asked k i pre _ _ _ _ _ Hpre ltac:(done)) as (Hs1 & _ & Hu1).
  assert ((its ++ [PAt x 0]) !! i = Some (PAt x 0)) as Hi.
  { rewrite lookup_app_r by done. by rewrite Nat.sub_diag. }
  pose proof (spec_nexts k i x vs w Hx p 0 _ Hi ltac:(lia)) as Hfirst. rewrite drop_0 in Hfirst. cbn [Nat.add] in Hfirst.
  assert (spec_irun k [] [] first = Some (po ++ OIter :: map (fun v => ONext (IVal v)) (take p vs),
     (w, <[i := PAt x p]> (its ++ [PAt x 0])))) as Hsf.
  { unfold first. rewrite spec_irun_app, Hpre. cbn [mbind option_bind spec_irun spec_istep]. rewrite Hx.
    cbn [mbind option_bind]. rewrite Hfirst. done. }
  assert (seen i first (po ++ OIter :: map (fun v => ONext (IVal v)) (take p vs)) = map IVal (take p vs)) as Hseenf.
  { unfold first. rewrite seen_app by (by eapply srun_length). rewrite Hs1. cbn [app seen].
    assert (p = length (map IVal (take p vs))) as Hpl by (rewrite map_length, take_length; lia).
    rewrite Hpl at 1. rewrite <- (seen_nexts i (map IVal (take p vs))) at 2. by rewrite map_map. }
  assert (undisturbed (fun j => j = i) k [] [] first) as Hu.
  { apply undisturbed_app. split; [done|]. rewrite Hpre. cbn [undisturbed spec_istep]. rewrite Hx. cbn [mbind option_bind].
    split; [done|]. destruct (loop_spec k i x vs (replicate p (SNext i)) 0 _ _ _ _ Hfirst Hx) as [_ Hu2]; [|left; split; [done|lia]|done].
    intros op Hop. apply elem_of_replicate in Hop as [Hop _]. done. }
  assert (x < length w) as Hlt. { apply content_some in Hx. by eapply lookup_lt_Some. }
  split.
  - assert (content (store w x (norm_item v :: vs)) x = Some (norm_item v :: vs)) as Hx2.
    { apply content_some. unfold store. by apply list_lookup_insert. }
    pose proof (spec_nexts k i x _ _ Hx2 (S (length vs - p)) p (<[i := PAt x p]> (its ++ [PAt x 0]))
       ltac:(apply list_lookup_insert; rewrite app_length; cbn; unfold i; lia) ltac:(cbn; lia)) as Hlast.
    eexists _, _. split.
    { rewrite Hts, spec_irun_app, Hsf. cbn [mbind option_bind]. unfold last. cbn [spec_irun spec_istep spec_step].
      rewrite Hx. cbn [mbind option_bind]. rewrite Hv. cbn [mbind option_bind].
      rewrite Hlast. cbn [mbind option_bind]. reflexivity. }
    rewrite Hts, seen_app by (by eapply srun_length). rewrite Hseenf. f_equal. unfold last. cbn [seen].
    rewrite take_ge by (rewrite drop_length; cbn; lia).
    assert (drop p (norm_item v :: vs) = drop (p - 1) vs) as -> by (destruct p; [lia|]; cbn; by rewrite Nat.sub_0_r).
    assert (S (length vs - p) = length (map IVal (drop (p - 1) vs))) as -> by (rewrite map_length, drop_length; lia).
    rewrite <- (seen_nexts i (map IVal (drop (p - 1) vs))) at 2. by rewrite map_map.
  - destruct (isim_run (fun j => j = i) k _ _ _ _ _ _ _ _ (irel0 _ k) Hsf Hu) as (of & [c gs] & Hmf & Haf & HR & Hl & HI).
    cbn [fst snd] in *. rewrite insert_length, app_length in Hl. cbn [length] in Hl.
    destruct (lookup_lt_is_Some_2 gs i) as [g Hg]; [unfold i; lia|].
    pose proof (HI i g (PAt x p) eq_refl Hg ltac:(apply list_lookup_insert; rewrite app_length; cbn; unfold i; lia)) as Hok.
    destruct p as [|q]; [lia|]. cbn [it_ok] in Hok. destruct Hok as (o & l & Ho & -> & Hch).
    destruct (Hch ltac:(by eexists)) as (ch & Hr & Hq).
    destruct (rel_var _ _ _ _ _ _ HR Hx) as (o1 & ch1 & Ho1 & Hr1 & Hv1 & _). rewrite Ho in Ho1. injection Ho1 as <-.
    rewrite (rep_fun _ _ _ _ _ Hr1 Hr) in Hv1.
    assert (is_cll (kc k) = false) as Hcll by (by destruct k).
    destruct (wp_elim _ _ _ (add_front_chain _ _ _ _ v Hr Hv Hcll)) as (a & s' & Ha & n & Hr').
    destruct (lag_run k s' (snd c) o (n :: ch) i Hr' Hcll (length vs - S q) q l gs) as [gs' Hlag].
    { done. } { done. } { rewrite <- Hv1, map_length. cbn. lia. }
    eexists _, _. split.
    { rewrite Hts, irun_app, Hmf. cbn [mbind option_bind]. unfold last.
      cbn [model_irun model_istep model_step fst snd]. rewrite Ho. cbn [mbind option_bind].
      erewrite call_ok by exact Ha. cbn [obs_unit fst snd mbind option_bind]. rewrite app_nil_r.
      match goal with |- context [model_irun ?k0 ?a ?b] => rewrite (Hlag : model_irun k0 a b = _) end.
      cbn [mbind option_bind]. reflexivity. }
    rewrite Hts, seen_app by (by eapply irun_length). rewrite (agree_seen _ _ _ _ i Haf eq_refl), Hseenf.
    unfold last. cbn [seen drop].
    assert (map (fun v => ONext (IVal v)) (vals (drop (S q) ch)) ++ [ONext (IExc AttributeError)]
      = map ONext (map IVal (drop (S q) vs) ++ [IExc AttributeError])) as Hl2.
    { assert (vals (drop (S q) ch) = drop (S q) vs) as -> by (rewrite <- Hv1; apply (fmap_drop g_val)).
      by rewrite map_app, map_map. }
    rewrite Hl2.
    assert (S (length vs - S q) = length (map IVal (drop (S q) vs) ++ [IExc AttributeError])) as ->.
    { rewrite app_length, map_length, drop_length. cbn. lia. }
    rewrite seen_nexts, app_assoc, <- map_app, take_drop. done.
Qed.
Print Assumptions C64_add_front_refuted.

(** A CircularLinkedList starts again at its front instead of failing. *)
Theorem C64_add_front_circular_refuted : exists ts outs outs' e c,
  spec_irun Circular [] [] ts = Some (outs, e) /\ model_irun Circular iconf0 ts = Some (outs', c)
  /\ seen 0 ts outs = [IVal (PInt 1); IVal (PInt 2); IVal (PInt 2); IVal (PInt 3); IStop]
  /\ seen 0 ts outs' = [IVal (PInt 1); IVal (PInt 2); IVal (PInt 3); IVal (PInt 0); IStop].
Proof.
  exists [SCall (LNew [PInt 1; PInt 2; PInt 3]); SIter 0; SNext 0; SNext 0; SCall (LAddFront 0 (PInt 0));
          SNext 0; SNext 0; SNext 0].
  eexists _, _, _, _. split; [vm_compute; reflexivity|]. split; [vm_compute; reflexivity|].
  split; vm_compute; reflexivity.
Qed.
Print Assumptions C64_add_front_circular_refuted.

(** ** Non-trivial cases *)

(** Two nested loops, a growing list, a change of another list. *)
Example C64_example : forall k, exists outs e,
  let ts := [SCall (LNew [PInt 1; PInt 2]); SCall (LNew [PInt 7]); SIter 0; SNext 0; SIter 0; SNext 1; SNext 1; SNext 1;
             SCall (LAddEnd 0 (PInt 3)); SCall (LAddFront 1 (PInt 6)); SNext 0; SCall (LSet 0 (AInt 2) (PInt 4));
             SNext 0; SNext 0; SNext 1] in
  spec_irun k [] [] ts = Some (outs, e) /\ undisturbed (fun _ => True) k [] [] ts
  /\ seen 0 ts outs = [IVal (PInt 1); IVal (PInt 2); IVal (PInt 4); IStop]
  /\ seen 1 ts outs = [IVal (PInt 1); IVal (PInt 2); IStop; IStop].
Proof.
  intros k. destruct k; (eexists _, _; cbv zeta; split; [vm_compute; reflexivity|]; split;
    [|split; vm_compute; reflexivity]).
  all: vm_compute; repeat split; intros i x p vs _ Hi Hc Hm;
    repeat (destruct i as [|i]; [try done|]); try done; cbn in Hi; try (injection Hi as <- <-); try done;
    try (injection Hc as <-; cbn; lia).
Qed.
Example C64_plain_example : exists outs e,
  spec_irun Doubly [] [] [SCall (LNew [PInt 5; PInt 6])] = Some ([OCall (RNew 1)], ([Some [PInt 5; PInt 6]], []))
  /\ spec_irun Doubly [] [] ([SCall (LNew [PInt 5; PInt 6])] ++ SIter 0 ::
       [SNext 0; SCall (LCopy 0); SCall (LClear 1); SNext 0; SNext 0]) = Some (outs, e)
  /\ only_reads 0 [SNext 0; SCall (LCopy 0); SCall (LClear 1); SNext 0; SNext 0]
  /\ plain_loop [PInt 5; PInt 6] 3 = [IVal (PInt 5); IVal (PInt 6); IStop].
Proof.
  eexists _, _. split; [vm_compute; reflexivity|]. split; [vm_compute; reflexivity|]. split; [|done].
  intros op Hop. repeat (apply elem_of_cons in Hop as [Hop|Hop]; [try done; injection Hop as ->; cbn; lia|]).
  by apply elem_of_nil in Hop.
Qed.
