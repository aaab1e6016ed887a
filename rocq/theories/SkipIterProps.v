(** * C69: several SkipLists, and loops over them, in one program

    A program is any sequence of [SkipList()], calls on any of the SkipLists made so far,
    [iter(x)] and [next(it)], interleaved in any way, with any coins.  Model:
    SkipIterModel.v.  Specification: SkipIterSpec.v. *)
From Coq Require Import Sorted.
From Verif Require Import Base NumOrd ListModel SkipModel SkipSpec SkipThm SkipThm2 SkipThm3.
From Verif Require Import IterModel IterSpec SkipIterModel SkipIterSpec SkipIterThm SkipIterThm2.

(** Every program that names only SkipLists and iterators that it has made sees exactly what
    the specification says: the sets are independent, and a loop gives the elements that its
    set had at the first [next].  No statement raises anything it should not. *)
Theorem C69_programs ts : well_named 0 0 ts -> Forall stmt_avoids_neg_inf ts ->
  exists outs W its c, spec_krun [] [] ts = Some (outs, (W, its)) /\ model_krun kconf0 ts = Some (outs, c).
Proof.
  intros Hw Ha. destruct (well_named_runs ts [] [] Hw ltac:(constructor)) as (outs & W & its & E & _).
  destruct (run_rel ts _ _ _ _ _ _ relc0 Ha E) as (c & Ec & _). by exists outs, W, its, c.
Qed.
Print Assumptions C69_programs.

(** Every SkipList answers as if it were the only one and nobody looped over it: what the
    program gets from SkipList [x] is what the same calls give on a single SkipList. *)
Theorem C69_each_list_alone ts : well_named 0 0 ts -> Forall stmt_avoids_neg_inf ts ->
  exists outs c, model_krun kconf0 ts = Some (outs, c) /\ forall x, exists s, khistory (on_list x ts) = Some (gave x ts outs, s).
Proof.
  intros Hw Ha. destruct (C69_programs ts Hw Ha) as (outs & W & its & c & E & Ec). exists outs, c. split; [done|]. intros x.
  destruct (alone_new x ts _ _ _ _ _ E ltac:(cbn; lia)) as [-> _].
  destruct (history_ok (on_list x ts)) as (s & Eh & _); [|by exists s].
  clear -Ha. induction Ha as [|t ts Ht _ IH]; cbn; [constructor|]. destruct t; try done. destruct (Nat.eqb x x0); [|done]. by constructor.
Qed.
Print Assumptions C69_each_list_alone.

(** A loop over SkipList [x] that starts after [pre ++ mid] gives exactly what to_list()
    would have given there, in increasing order, each element once, and then stops; whatever
    [rest] does to [x], to other SkipLists and to other loops between two steps. *)
Theorem C69_loop_is_a_snapshot pre x mid rest :
  let i := iters_made pre in
  let before := pre ++ KsIter x :: mid in
  let ts := before ++ KsNext i :: rest in
  well_named 0 0 ts -> Forall stmt_avoids_neg_inf ts -> kasks i mid = 0 ->
  exists xs outs0 c0 outs c,
    model_krun kconf0 (before ++ [KsCall x KToList]) = Some (outs0 ++ [KoCall (KVals (map PNum xs))], c0) /\
    StronglySorted (fun a b => num_ltb a b = true) xs /\
    model_krun kconf0 ts = Some (outs, c) /\
    kseen i ts outs = plain_loop (map PNum xs) (1 + kasks i rest).
Proof.
  intros i before ts Hw Ha Hm.
  destruct (C69_programs ts Hw Ha) as (outs & W & its & c & E & Ec). pose proof E as E'. unfold ts in E'. rewrite spec_krun_app in E'.
  destruct (spec_krun [] [] before) as [[o1 [W1 its1]]|] eqn:E1; [|done]. cbn [mbind option_bind] in E'.
  destruct (spec_krun W1 its1 (KsNext i :: rest)) as [[o2 e2]|] eqn:E2; [|done]. cbn [mbind option_bind] in E'. injection E' as <- _.
  pose proof E1 as E1'. unfold before in E1'. rewrite spec_krun_app in E1'.
  destruct (spec_krun [] [] pre) as [[op [Wp itsp]]|] eqn:Ep; [|done]. cbn [mbind option_bind spec_krun spec_kstep] in E1'.
  destruct (Wp !! x) as [A0|] eqn:HA0; [|done]. cbn [mbind option_bind] in E1'.
  destruct (spec_krun Wp (itsp ++ [KtNew x]) mid) as [[om [Wm itsm]]|] eqn:Em; [|done]. cbn [mbind option_bind] in E1'. injection E1' as <- -> ->.
  assert (well_named 0 0 pre) as Hwp.
  { unfold ts, before in Hw. rewrite <- app_assoc in Hw. by eapply well_named_app. }
  assert (length itsp = i) as Hi.
  { destruct (well_named_runs pre [] [] Hwp ltac:(constructor)) as (op' & Wp' & itsp' & Ep' & _ & H2 & _). rewrite Ep in Ep'. by injection Ep' as <- <- <-. }
  destruct (unasked i mid _ _ _ _ _ (KtNew x) Em) as [Him Hsm]; [by rewrite lookup_app_r, Hi, Nat.sub_diag by lia|done|].
  destruct (alone_spec x mid _ _ _ _ _ _ Em HA0) as [_ HA]. set (A := tafter (on_list x mid) A0) in *.
  assert (StronglySorted nlt (elems A)) as Hsort.
  { destruct (alone_new x pre _ _ _ _ _ Ep ltac:(cbn; lia)) as [_ Hp]. rewrite HA0 in Hp. specialize (Hp (lookup_lt_Some _ _ _ HA0)). injection Hp as ->.
    assert (forall l, Forall stmt_avoids_neg_inf l -> Forall avoids_neg_inf (on_list x l)) as Hav.
    { clear. intros l Hl. induction Hl as [|t l Ht _ IH]; cbn; [constructor|]. destruct t; try done. destruct (Nat.eqb x x0); [|done]. by constructor. }
    unfold ts, before in Ha. rewrite !Forall_app, Forall_cons in Ha. destruct Ha as [[Hap [_ Ham]] _].
    destruct (history_ok (on_list x pre ++ on_list x mid)) as (s & _ & HG); [apply Forall_app; auto|]. apply good_sorted in HG.
    assert (forall l l' B, tafter (l ++ l') B = tafter l' (tafter l B)) as Happ. { clear. induction l as [|o l IH]; intros l' B; [done|]. apply IH. }
    by rewrite Happ in HG. }
  destruct (run_rel (before ++ [KsCall x KToList]) kconf0 [] [] ((op ++ KoIter :: om) ++ [KoCall (KVals (map PNum (elems A)))]) (<[x := A]> W1) its1 relc0) as (c0 & Ec0 & _).
  { unfold ts in Ha. apply Forall_app in Ha as [Ha _]. apply Forall_app. split; [done|]. by repeat constructor. }
  { rewrite spec_krun_app, E1. cbn [mbind option_bind spec_krun spec_kstep]. rewrite HA. done. }
  exists (elems A), (op ++ KoIter :: om), c0, ((op ++ KoIter :: om) ++ o2), c. split_and!; [done|done|done|].
  unfold ts. rewrite kseen_app by (by eapply krun_len). unfold before. rewrite kseen_app by (by eapply krun_len).
  destruct (not_made i pre _ _ _ _ Ep) as [_ ->]; [cbn; lia|]. change (kseen i (KsIter x :: mid) (KoIter :: om)) with (kseen i mid om). rewrite Hsm. cbn [app].
  rewrite (loop_first i x _ _ _ _ _ _ E2 Him HA rest eq_refl). cbn [kasks]. by rewrite Nat.eqb_refl.
Qed.
Print Assumptions C69_loop_is_a_snapshot.

(** ** Non-trivial cases *)
(** Two lists, nested loops over the first; removing all that is still to come, inserting in
    front and behind, and clearing do not disturb a loop that has begun; the one that has
    not begun sees the list at its first step. *)
Definition C69_ts : list kstmt :=
  [KsNew; KsNew; KsCall 0 (KInsert (PInt 5) 1); KsCall 0 (KInsert (PInt 2) 0); KsCall 1 (KInsert (PInt 7) 2); KsCall 0 (KInsert (PInt 9) 0);
   KsIter 0; KsIter 0; KsNext 0; KsCall 0 (KRemove (PInt 5)); KsCall 0 (KInsert (PInt 1) 3); KsNext 0; KsCall 1 (KInsert (PInt 5) 0); KsNext 1;
   KsCall 0 KClear; KsNext 0; KsCall 0 (KInsert (PInt 4) 1); KsNext 1; KsNext 0; KsCall 1 KToList; KsNext 1; KsNext 0; KsNext 1; KsCall 0 KToList].
Example C69_example : well_named 0 0 C69_ts /\ Forall stmt_avoids_neg_inf C69_ts /\ exists outs c,
  model_krun kconf0 C69_ts = Some (outs, c) /\
  kseen 0 C69_ts outs = [IVal (PInt 2); IVal (PInt 5); IVal (PInt 9); IStop; IStop] /\
  kseen 1 C69_ts outs = [IVal (PInt 1); IVal (PInt 2); IVal (PInt 9); IStop] /\
  gave 1 C69_ts outs = [KUnit; KUnit; KVals [PInt 5; PInt 7]].
Proof.
  split; [cbn; lia|]. split; [repeat constructor; done|]. eexists _, _. split; [vm_compute; reflexivity|]. split; [vm_compute; reflexivity|]. split; vm_compute; reflexivity.
Qed.
Example C69_snapshot_example :
  let pre := take 6 C69_ts in let rest := drop 9 C69_ts in
  let ts := (pre ++ KsIter 0 :: [KsIter 0]) ++ KsNext 0 :: rest in
  ts = C69_ts /\ iters_made pre = 0 /\ kasks 0 [KsIter 0] = 0 /\ kasks 0 rest = 4.
Proof. repeat split. Qed.
