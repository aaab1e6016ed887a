(** * Loops over heaps *)
From Verif Require Import Base HeapModel HeapSpec HeapThm HeapIterModel HeapIterSpec.

Definition hg_inv (h : list num) (g : hgen) (fut : list num) : Prop :=
  match g with
  | HGNew => False
  | HGDone => fut = []
  | HGAt m cur rest next => m = tree_upto h (length h) /\ cur < length h /\ fut = drop (S cur) h /\
      rest ++ next = seq (S cur) (Nat.min (2 * cur + 1) (length h) - S cur)
  end.
Lemma transform_ok h : h <> [] -> transform h [] = Ok 0 (tree_upto h (length h)).
Proof.
  destruct h as [|x h']; [done|]. intros _. set (h := x :: h') in *.
  unfold transform. rewrite (bind_ok _ _ _ tt []) by done. rewrite (bind_ok _ _ _ x []) by done.
  rewrite (bind_ok _ _ _ 0 [HNode x None None]) by done.
  rewrite (bind_ok _ _ _ tt (tree_upto h (length h))); [done|].
  exact (transform_loop_spec h (S (length h)) 0 ltac:(cbn; lia) ltac:(lia)).
Qed.
Lemma hg_yield_ok h i rest next : i < length h ->
  rest ++ next = seq (S i) (Nat.min (2 * i + 1) (length h) - S i) ->
  exists x g, hg_yield (tree_upto h (length h)) i rest next = (HGot x, g) /\ drop i h = x :: drop (S i) h /\ hg_inv h g (drop (S i) h).
Proof.
  intros Hi Hq. unfold hg_yield. rewrite tree_upto_lookup by done. destruct (lookup_lt_is_Some_2 h i Hi) as [x Hx].
  exists x, (HGAt (tree_upto h (length h)) i rest next). split_and!; [|by apply drop_S|by split_and!].
  unfold tnode. cbn [hn_data]. by rewrite Hx.
Qed.
Lemma hg_first h h0 : h0 = h -> h <> [] -> exists x g fut, hg_next HGNew h0 = Some (HGot x, g) /\ h = x :: fut /\ hg_inv h g fut.
Proof.
  intros -> Hne. cbn [hg_next]. rewrite (transform_ok h Hne).
  destruct (hg_yield_ok h 0 [] []) as (x & g & E & Hd & Hg).
  - destruct h; [done|cbn; lia].
  - replace (_ - 1) with 0 by lia. done.
  - exists x, g, (drop 1 h). by rewrite E.
Qed.
Lemma hg_step h g fut h' : hg_inv h g fut -> exists r g', hg_next g h' = Some (r, g') /\
  match fut with x :: fut' => r = HGot x /\ hg_inv h g' fut' | [] => r = HStop /\ g' = HGDone end.
Proof.
  destruct g as [|m cur rest next|]; [done| |intros ->; by exists HStop, HGDone]. intros (-> & Hc & -> & Hq).
  cbn [hg_next]. rewrite tree_upto_lookup by done.
  set (cs := hchildren _).
  assert (rest ++ next ++ cs = seq (S cur) (Nat.min (2 * cur + 3) (length h) - S cur)) as Hq'.
  { rewrite app_assoc, Hq. unfold cs, hchildren, tnode. cbn [hn_left hn_right].
    destruct (Nat.ltb_spec (2 * cur + 1) (length h)), (Nat.ltb_spec (2 * cur + 2) (length h)); unfold option_list; cbn [app option_rect]; try lia.
    - replace (Nat.min (2 * cur + 3) (length h) - S cur) with (cur + 2) by lia. replace (_ - S cur) with cur by lia.
      rewrite seq_app. f_equal. cbn. f_equal; [lia|]. f_equal. lia.
    - replace (Nat.min (2 * cur + 3) (length h) - S cur) with (cur + 1) by lia. replace (_ - S cur) with cur by lia.
      rewrite seq_app. f_equal. cbn. f_equal. lia.
    - rewrite app_nil_r. f_equal. lia. }
  destruct (decide (S cur < length h)) as [Hlt|Hge].
  - destruct (Nat.min (2 * cur + 3) (length h) - S cur) as [|k] eqn:Ek; [lia|]. cbn [seq] in Hq'.
    assert (forall rest' next', rest' ++ next' = seq (S (S cur)) k -> exists r g', Some (hg_yield (tree_upto h (length h)) (S cur) rest' next') = Some (r, g') /\
      match drop (S cur) h with x :: fut' => r = HGot x /\ hg_inv h g' fut' | [] => r = HStop /\ g' = HGDone end) as Hy.
    { intros rest' next' Hr. destruct (hg_yield_ok h (S cur) rest' next' Hlt) as (x & g & E & Hd & Hg).
      - rewrite Hr. f_equal. lia.
      - exists (HGot x), g. rewrite E, Hd. done. }
    destruct rest as [|i rest'].
    + cbn [app] in Hq'. rewrite Hq'. apply Hy. apply app_nil_r.
    + injection Hq' as -> Hq'. by apply Hy.
  - rewrite drop_ge by lia. replace (Nat.min (2 * cur + 3) (length h) - S cur) with 0 in Hq' by lia.
    apply app_eq_nil in Hq' as [-> E]. rewrite E. by eexists _, _.
Qed.

(** ** Runs *)
Lemma hg_total g h : exists r g', hg_next g h = Some (r, g').
Proof.
  destruct g as [|m cur rest next|]; [| |by eexists _, _].
  - cbn [hg_next]. destruct h as [|x h]; [by eexists _, _|]. rewrite transform_ok by done.
    destruct (hg_yield _ _ _ _) as [r g']. by eexists _, _.
  - cbn [hg_next]. destruct (m !! cur); [|by eexists _, _]. destruct rest as [|i rest'].
    + destruct (next ++ _) as [|i rest']; [by eexists _, _|]. destruct (hg_yield _ _ _ _) as [r g']. by eexists _, _.
    + destruct (hg_yield _ _ _ _) as [r g']. by eexists _, _.
Qed.
Lemma hrun_total b ts : forall h gs rs h', heap_calls b h (hcalls_of ts) = Some (rs, h') -> hmade (length gs) ts ->
  exists outs gs', model_hrun b (h, gs) ts = Some (outs, (h', gs')) /\ hresults_of outs = rs /\ length outs = length ts.
Proof.
  induction ts as [|t ts IH]; intros h gs rs h' Hc Hm.
  { injection Hc as <- <-. by exists [], gs. }
  destruct t as [o| |i].
  - change (hcalls_of (YCall o :: ts)) with (o :: hcalls_of ts) in Hc. cbn [heap_calls] in Hc. cbn [model_hrun model_hstep fst snd].
    destruct (heap_call b o h) as [r h1|e h1|]; [| |done];
      (destruct (heap_calls b h1 (hcalls_of ts)) as [[rs1 h2]|] eqn:E; [|done]; injection Hc as <- <-;
       destruct (IH h1 gs _ _ E Hm) as (outs & gs' & H & <- & Hl); cbn [mbind option_bind]; rewrite H; eexists _, _; split; [done|];
       split; [done|]; cbn; by rewrite Hl).
  - cbn [hmade] in Hm. destruct (IH h (gs ++ [HGNew]) rs h' Hc) as (outs & gs' & H & Hr & Hl). { rewrite app_length. cbn. by rewrite Nat.add_1_r. }
    cbn [model_hrun model_hstep fst snd mbind option_bind]. rewrite H. eexists _, _. split; [done|]. split; [done|]. cbn. by rewrite Hl.
  - destruct Hm as [Hi Hm]. apply lookup_lt_is_Some in Hi as [g Hg]. destruct (hg_total g h) as (r & g' & Hn).
    destruct (IH h (<[i:=g']> gs) rs h' Hc) as (outs & gs' & H & Hr & Hl). { by rewrite insert_length. }
    cbn [model_hrun model_hstep fst snd]. rewrite Hg. cbn [mbind option_bind]. rewrite Hn. cbn [mbind option_bind]. rewrite H.
    eexists _, _. split; [done|]. split; [done|]. cbn. by rewrite Hl.
Qed.
Lemma hrun_app b a : forall q c, model_hrun b q (a ++ c) =
  match model_hrun b q a with
  | Some (o1, q1) => match model_hrun b q1 c with Some (o2, q2) => Some (o1 ++ o2, q2) | None => None end
  | None => None
  end.
Proof.
  induction a as [|t a IH]; intros q c.
  - cbn [app model_hrun]. by destruct (model_hrun b q c) as [[o q2]|].
  - cbn [app model_hrun]. destruct (model_hstep b q t) as [[o q1]|]; [|done]. cbn [mbind option_bind].
    rewrite IH. destruct (model_hrun b q1 a) as [[o1 q2]|]; [|done]. cbn [mbind option_bind].
    by destruct (model_hrun b q2 c) as [[o2 q3]|].
Qed.
Lemma hseen_app i a : forall oa c oc, length oa = length a -> hseen i (a ++ c) (oa ++ oc) = hseen i a oa ++ hseen i c oc.
Proof.
  induction a as [|t a IH]; intros [|o oa] c oc H; try done. injection H as H. cbn [app hseen].
  destruct t, o; try (by apply IH). rewrite <- app_assoc. f_equal. by apply IH.
Qed.
(** A fresh iterator that is not asked stays fresh. *)
Lemma hrun_fresh b i ts : forall h gs outs e, (gs !! i = Some HGNew \/ length gs <= i) -> hasks i ts = 0 ->
  model_hrun b (h, gs) ts = Some (outs, e) -> i < length e.2 -> e.2 !! i = Some HGNew /\ hseen i ts outs = [].
Proof.
  induction ts as [|t ts IH]; intros h gs outs e Hi Ha Hrun Hlt.
  { injection Hrun as <- <-. cbn [snd] in *. destruct Hi as [Hi|Hi]; [done|lia]. }
  cbn [model_hrun] in Hrun. destruct (model_hstep b (h, gs) t) as [[o [h1 gs1]]|] eqn:E1; [|done]. cbn [mbind option_bind] in Hrun.
  destruct (model_hrun b (h1, gs1) ts) as [[os q2]|] eqn:E2; [|done]. cbn in Hrun. injection Hrun as <- <-.
  destruct t as [op| |j]; cbn [model_hstep fst snd] in E1.
  - destruct (heap_call b op h) as [r h2|e h2|]; [| |done]; injection E1 as <- <- <-; by eapply IH.
  - injection E1 as <- <- <-. eapply (IH h (gs ++ [HGNew])); [|done|done|done].
    destruct Hi as [Hi|Hi]; [left; by apply lookup_app_l_Some|]. destruct (decide (i = length gs)) as [->|].
    + left. rewrite lookup_app_r by done. by rewrite Nat.sub_diag.
    + right. rewrite app_length. cbn. lia.
  - destruct (gs !! j) as [g|] eqn:Ej; [|done]. cbn [mbind option_bind] in E1. destruct (hg_next g h) as [[r g']|]; [|done].
    injection E1 as <- <- <-. cbn [hasks] in Ha. cbn [hseen]. destruct (Nat.eqb_spec j i) as [|Hne]; [lia|]. cbn [app].
    eapply (IH h (<[j:=g']> gs)); [|done|done|done]. rewrite insert_length. by rewrite list_lookup_insert_ne by done.
Qed.
Lemma take_more {A} (l : list A) x n : take n (l ++ replicate n x) = take n (l ++ replicate (S n) x).
Proof.
  replace (S n) with (n + 1) by lia. rewrite replicate_add, app_assoc.
  by rewrite (take_app_le (l ++ _)) by (rewrite app_length, replicate_length; lia).
Qed.
Lemma hrun_loop b h0 i ts : forall h gs g fut outs e, gs !! i = Some g -> hg_inv h0 g fut ->
  model_hrun b (h, gs) ts = Some (outs, e) ->
  hseen i ts outs = take (hasks i ts) (map HGot fut ++ replicate (hasks i ts) HStop).
Proof.
  induction ts as [|t ts IH]; intros h gs g fut outs e Hi Hg Hrun; [by injection Hrun as <- <-|].
  cbn [model_hrun] in Hrun. destruct (model_hstep b (h, gs) t) as [[o [h1 gs1]]|] eqn:E1; [|done]. cbn [mbind option_bind] in Hrun.
  destruct (model_hrun b (h1, gs1) ts) as [[os q2]|] eqn:E2; [|done]. cbn in Hrun. injection Hrun as <- <-.
  destruct t as [op| |j]; cbn [model_hstep fst snd] in E1.
  - destruct (heap_call b op h) as [r h2|e h2|]; [| |done]; injection E1 as <- <- <-; by eapply IH.
  - injection E1 as <- <- <-. eapply (IH h (gs ++ [HGNew])); [|done|done]. by apply lookup_app_l_Some.
  - destruct (gs !! j) as [gj|] eqn:Ej; [|done]. cbn [mbind option_bind] in E1.
    cbn [hasks]. destruct (Nat.eqb_spec j i) as [->|Hne].
    + rewrite Hi in Ej. injection Ej as <-. destruct (hg_step h0 g fut h Hg) as (r & g' & Hn & Hr). rewrite Hn in E1.
      injection E1 as <- <- <-. pose proof (list_lookup_insert gs i g' (lookup_lt_Some _ _ _ Hi)) as Hi'.
      cbn [hseen]. rewrite Nat.eqb_refl. cbn [app plus]. destruct fut as [|x fut].
      * destruct Hr as [-> ->]. rewrite (IH h _ HGDone [] os q2 Hi' eq_refl E2). done.
      * destruct Hr as [-> Hg']. rewrite (IH h _ g' fut os q2 Hi' Hg' E2). cbn [map app take]. f_equal.
        apply take_more.
    + destruct (hg_next gj h) as [[r g']|]; [|done]. injection E1 as <- <- <-. cbn [hseen].
      destruct (Nat.eqb_spec j i) as [|_]; [done|]. cbn [app plus].
      eapply (IH h (<[j:=g']> gs)); [|done|done]. by rewrite list_lookup_insert_ne.
Qed.
Lemma hasks_app i a b : hasks i (a ++ b) = hasks i a + hasks i b.
Proof. induction a as [|[| |j] a IH]; cbn [app hasks]; try done. rewrite IH. lia. Qed.
Fixpoint hiters (ts : list hstmt) : nat :=
  match ts with [] => 0 | YIter :: ts' => S (hiters ts') | _ :: ts' => hiters ts' end.
Lemma hmade_app a b : forall n, hmade n (a ++ b) -> hmade n a /\ hmade (n + hiters a) b.
Proof.
  induction a as [|[o| |i] a IH]; intros n H; cbn [app hmade hiters] in *.
  - by rewrite Nat.add_0_r.
  - by apply IH.
  - apply IH in H. by rewrite <- Nat.add_succ_comm.
  - destruct H as [Hi H]. apply IH in H as [H1 H2]. by split_and!.
Qed.
Lemma hrun_iters b ts : forall h gs outs e, model_hrun b (h, gs) ts = Some (outs, e) -> length e.2 = length gs + hiters ts.
Proof.
  induction ts as [|t ts IH]; intros h gs outs e Hrun; [injection Hrun as <- <-; cbn; lia|].
  cbn [model_hrun] in Hrun. destruct (model_hstep b (h, gs) t) as [[o [h1 gs1]]|] eqn:E1; [|done]. cbn [mbind option_bind] in Hrun.
  destruct (model_hrun b (h1, gs1) ts) as [[os q2]|] eqn:E2; [|done]. cbn in Hrun. injection Hrun as <- <-.
  rewrite (IH _ _ _ _ E2). destruct t as [op| |j]; cbn [model_hstep fst snd hiters] in *.
  - by destruct (heap_call b op h) as [r h2|e h2|]; [| |done]; injection E1 as <- <- <-.
  - injection E1 as <- <- <-. rewrite app_length. cbn. lia.
  - destruct (gs !! j) as [g|]; [|done]. cbn [mbind option_bind] in E1. destruct (hg_next g h) as [[r g']|]; [|done].
    injection E1 as <- <- <-. by rewrite insert_length.
Qed.
Lemma calls_snoc b ops : forall h rs h', heap_calls b h ops = Some (rs, h') ->
  heap_calls b h (ops ++ [HToList]) = Some (rs ++ [HVals h'], h').
Proof.
  induction ops as [|o ops IH]; intros h rs h' H; [by injection H as <- <-|].
  cbn [app heap_calls] in *. destruct (heap_call b o h) as [r h1|e h1|]; [| |done];
    (destruct (heap_calls b h1 ops) as [[rs1 h2]|] eqn:E; [|done]; injection H as <- <-; by rewrite (IH _ _ _ E)).
Qed.
