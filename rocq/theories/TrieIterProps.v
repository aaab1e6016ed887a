(** * C67: looping over a trie while the program goes on.

    A program is any sequence of calls on one Trie ([c] = CTrie) or RadixTrie (CRadix),
    [iter(t)] and [next(it)] on any number of iterators over it, interleaved in any
    way; [model_zrun] runs it. *)
From Coq Require Import Sorting.Sorted.
From stdpp Require Import gmap.
From Verif Require Import Base TrieModel TrieRep TrieSpec TrieSpec2 TrieThm TrieThm2 TrieThm3 TrieProps TrieThm5 TrieProps2 TrieIterModel TrieIterSpec TrieIterThm TrieIterThm2 TrieIterThm3 TrieIterThm4.

(** Every program runs to its end; its calls give what they give in the program without
    the iterators, and leave the same trie. *)
Theorem C67_iterators_only_read : forall c ts, zmade 0 ts ->
  exists outs s gs, model_zrun c zconf0 ts = Some (outs, (s, gs)) /\
    model_zrun c zconf0 (without_iterators ts) = Some (without_answers outs, (s, [])).
Proof.
  intros c ts Hm. destruct (zrun_total c ts trie_new [] (okz0 c) Hm) as (outs & s & gs & H & _ & _ & _ & _ & Hw).
  exists outs, s, gs. split; [done|]. apply (Hw []).
Qed.
Print Assumptions C67_iterators_only_read.

(** Whatever happens to the trie meanwhile, an iterator never raises: it gives strings,
    and once it has stopped, StopIteration for ever. *)
Theorem C67_never_raises : forall c ts i, zmade 0 ts ->
  exists outs e vs stops, model_zrun c zconf0 ts = Some (outs, e) /\ zseen i ts outs = map ZVal vs ++ replicate stops ZStop.
Proof.
  intros c ts i Hm.
  assert (forall ts s gs outs e, okz c (s, gs) -> zmade (length gs) ts -> model_zrun c (s, gs) ts = Some (outs, e) ->
    exists vs k, zseen i ts outs = map ZVal vs ++ replicate k ZStop /\ (gs !! i = Some ZGDone -> vs = [])) as HG.
  2:{ destruct (zrun_total c ts trie_new [] (okz0 c) Hm) as (outs & s & gs & H & _).
      destruct (HG ts trie_new [] outs (s, gs) (okz0 c) Hm H) as (vs & k & E & _). by exists outs, (s, gs), vs, k. }
  clear ts Hm. induction ts as [|t ts IH]; intros s gs outs e Hz Hm Hrun.
  { injection Hrun as <- <-. by exists [], 0. }
  destruct (zmade_cons _ _ _ Hm) as [Hb Hm'].
  destruct (zstep_ok c s gs t _ Hz eq_refl Hb) as (o & s1 & gs1 & E & Hz1 & Ht). pose proof (zstep_len _ _ _ _ _ _ _ E) as Hl.
  rewrite <- Hl in Hm'. cbn [model_zrun] in Hrun. rewrite E in Hrun. cbn [mbind option_bind] in Hrun.
  destruct (model_zrun c (s1, gs1) ts) as [[os q2]|] eqn:E2; [|done]. cbn in Hrun. injection Hrun as <- <-.
  destruct (IH s1 gs1 os q2 Hz1 Hm' E2) as (vs & k & Hs & Hd). destruct t as [op|l| |j].
  - destruct Ht as (_ & -> & [x ->] & _). by exists vs, k.
  - destruct Ht as (-> & -> & [x ->] & _). by exists vs, k.
  - destruct Ht as (-> & -> & ->). exists vs, k. split; [done|]. intros Hi. apply Hd. by apply lookup_app_l_Some.
  - destruct Ht as (-> & gj & r & g' & Hj & En & -> & ->). cbn [zseen]. rewrite Hs. destruct (Nat.eqb_spec j i) as [->|Hne]; cbn [app].
    2:{ exists vs, k. split; [done|]. by rewrite list_lookup_insert_ne in Hd by done. }
    rewrite list_lookup_insert in Hd by (by eapply lookup_lt_Some). rewrite Hj.
    assert ((exists x, r = ZVal x /\ gj <> ZGDone) \/ (r = ZStop /\ g' = ZGDone)) as [(x & -> & Hne)|[-> ->]].
    { destruct gj as [|cur rest next|]; cbn [zg_next] in En.
      - unfold bind in En. destruct (trie_is_empty s) as [[|] s2| |]; try done.
        + injection En as <- <- _. by right.
        + cbn in En. destruct (zchildren (t_root s2) s2) as [[|i0 l0] s3| |]; try done.
          * injection En as <- <- _. by right.
          * cbn [zg_level] in En. unfold zg_yield, bind in En. destruct (rd i0 s3); try done. injection En as <- <- _. left. by eexists.
      - unfold bind in En. destruct (zchildren cur s) as [cs s2| |]; try done.
        assert (forall a b d s3, zg_yield a b d s2 = Ok (r, g') s3 -> exists x, r = ZVal x) as Hy.
        { intros a b d s3. unfold zg_yield, bind. destruct (rd a s2); try done. intros [= <- _ _]. by eexists. }
        destruct rest as [|i0 rest].
        + destruct (next ++ cs) as [|i0 l0]; [injection En as <- <- _; by right|]. left. cbn [zg_level] in En. apply Hy in En as [x ->]. by exists x.
        + left. apply Hy in En as [x ->]. by exists x.
      - injection En as <- <-. by right. }
    + exists (x :: vs), k. split; [done|]. intros [= ->]. done.
    + rewrite (Hd eq_refl). by exists [], (S k).
Qed.
Print Assumptions C67_never_raises.

Lemma run_any c h s : trie_run c h trie_new = Some s -> exists L W, trep s L W.
Proof.
  intros H. destruct c.
  - destruct (trie_run_ok h trie_new _ _ (proj1 trep_new) (proj2 trep_new)) as (s' & L' & Hr & T & _). rewrite H in Hr. injection Hr as <-. by eexists _, _.
  - destruct (radix_run_any h trie_new _ _ (proj1 trep_new)) as (s' & L' & W' & Hr & T). rewrite H in Hr. injection Hr as <-. by eexists _, _.
Qed.

(** As long as nothing is inserted or removed during it, a loop gives exactly what
    [to_list()] would have given at its first step, and then stops.  The program may
    look at the trie, run other loops and even [clear()] the trie meanwhile. *)
Theorem C67_plain_loop : forall c pre ts i,
  let p := pre ++ ZNext i :: ts in
  zmade 0 p -> zasks i pre = 0 -> only_looks ts ->
  exists o1 e1 vs outs e,
    model_zrun c zconf0 (pre ++ [ZLook LList]) = Some (o1 ++ [ZSaw (inl (AStrs vs))], e1) /\
    model_zrun c zconf0 p = Some (outs, e) /\
    zseen i p outs = exact_loop vs (zasks i p).
Proof.
  intros c pre ts i p Hm Ha Ho. destruct (zrun_split c pre ts i Hm Ha) as (o1 & o2 & s & gs & e & H1 & H2 & H3 & Hs & Hz & Hmz & Hr & Hi).
  destruct (run_any _ _ _ Hr) as (L & W & T). destruct (levels_any s L W T) as (_ & _ & _ & Hl).
  exists o1, (s, gs), (mjoin (map (map (datum s)) (the_levels s))), (o1 ++ o2), e.
  split. { rewrite zrun_app, H1. cbn [model_zrun model_zstep fst snd look_call]. by rewrite (bind_ok _ _ _ _ _ Hl). }
  split; [done|]. unfold p. rewrite Hs, zasks_app, Ha. cbn [plus].
  cbn [model_zrun model_zstep fst snd] in H2. rewrite Hi in H2. cbn [mbind option_bind] in H2.
  destruct (first_goes s L W T) as (r & g' & Hn & Hgo).
  destruct (zstep_ok c s gs (ZNext i) _ Hz eq_refl) as (o & s1 & gs1 & E & Hz1 & Ht). { cbn. intros j [= <-]. apply Hmz. }
  cbn [model_zstep fst snd] in E. rewrite Hi in E. cbn [mbind option_bind] in E. rewrite Hn in E, H2. injection E as <- <- <-.
  cbn [mbind option_bind] in H2. destruct (model_zrun c (s, <[i:=g']> gs) ts) as [[os q2]|] eqn:E2; [|done]. cbn in H2. injection H2 as <- <-.
  pose proof (list_lookup_insert gs i g' (lookup_lt_Some _ _ _ Hi)) as Hi'.
  assert (zmade (length (<[i:=g']> gs)) ts) as Hm2. { rewrite insert_length. apply Hmz. }
  cbn [zseen zasks]. rewrite Nat.eqb_refl. cbn [app plus].
  set (fut := mjoin (map (map (datum s)) (the_levels s))) in *. unfold goes in Hgo. destruct fut as [|x fut].
  - destruct Hgo as [-> ->]. rewrite (zrun_plain c s L i ts s _ ZGDone [] os q2 (x_rep _ _ _ _ T) (agree_refl s) Ho Hz1 Hm2 Hi' eq_refl E2).
    done.
  - destruct Hgo as [-> Hg']. rewrite (zrun_plain c s L i ts s _ g' fut os q2 (x_rep _ _ _ _ T) (agree_refl s) Ho Hz1 Hm2 Hi' Hg' E2).
    unfold exact_loop. cbn [map app take]. f_equal. apply take_more.
Qed.
Print Assumptions C67_plain_loop.

(** ** A Trie that is changed during the loop *)
Lemma words_after_app a b : words_after (a ++ b) = trie_words (updates b) (words_after a).
Proof. unfold words_after, updates, trie_words. by rewrite omap_app, fold_left_app. Qed.

(** Whatever is inserted, removed or cleared during a loop over a Trie: the loop never
    raises, gives the letters at the ends of distinct paths [qs], shorter paths first,
    and only StopIteration after them.  Each of these paths began a stored word at some
    time during the loop.  If the loop stopped, [qs] has every path that began a stored
    word all the time. *)
Theorem C67_trie_loop : forall pre ts i,
  let p := pre ++ ZNext i :: ts in
  zmade 0 p -> zasks i pre = 0 ->
  exists outs e qs stops,
    model_zrun CTrie zconf0 p = Some (outs, e) /\
    loops_over qs stops (zseen i p outs) /\
    (forall q, q ∈ qs -> exists ts1 ts2, ts = ts1 ++ ts2 /\ q ∈ prefixes (words_after (pre ++ ts1))) /\
    (0 < stops -> forall q, (forall ts1 ts2, ts = ts1 ++ ts2 -> q ∈ prefixes (words_after (pre ++ ts1))) -> q ∈ qs).
Proof.
  intros pre ts i p Hm Ha. destruct (zrun_split CTrie pre ts i Hm Ha) as (o1 & o2 & s & gs & e & H1 & H2 & H3 & Hs & Hz & Hmz & Hr & Hi).
  set (H := fun q => exists ts1 ts2, ts = ts1 ++ ts2 /\ q ∈ prefixes (words_after (pre ++ ts1))).
  set (A := fun q => forall ts1 ts2, ts = ts1 ++ ts2 -> q ∈ prefixes (words_after (pre ++ ts1))).
  assert (forall q x, q <> [] -> A (q ++ [x]) -> A q) as A_up.
  { intros q x Hq HA a b E. specialize (HA a b E). apply elem_of_prefixes in HA as (_ & w & Hw & Hp). apply elem_of_prefixes.
    split; [done|]. exists w. split; [done|]. etrans; [|done]. by apply prefix_app_r. }
  destruct (trie_run_ok (updates pre) trie_new _ _ (proj1 trep_new) (proj2 trep_new)) as (s' & L & Hr' & T & Hsg). rewrite Hr in Hr'. injection Hr' as <-.
  change (trie_words (updates pre) ∅) with (words_after pre) in T. set (W := words_after pre) in *.
  assert (view H A s L) as V.
  { split; [apply (x_rep _ _ _ _ T)|done| |].
    - intros j q Hj Hne. exists [], ts. split; [done|]. rewrite app_nil_r. apply elem_of_prefixes. split; [done|]. by destruct (live_prefix _ _ _ _ _ T Hj).
    - intros q Hq. specialize (Hq [] ts eq_refl). rewrite app_nil_r in Hq. apply elem_of_prefixes in Hq as (_ & w & Hw & Hpre).
      destruct (x_live _ _ _ _ T _ Hw) as (b & Hb). by eapply live_up; [apply (x_rep _ _ _ _ T)|..]. }
  destruct (first_advances H A A_up s L W T V) as (r & g' & Hn & Hadv).
  cbn [model_zrun model_zstep fst snd] in H2. rewrite Hi in H2. cbn [mbind option_bind] in H2.
  destruct (zstep_ok CTrie s gs (ZNext i) _ Hz eq_refl) as (o & s1 & gs1 & E & Hz1 & Ht). { cbn. intros j [= <-]. apply Hmz. }
  cbn [model_zstep fst snd] in E. rewrite Hi in E. cbn [mbind option_bind] in E. rewrite Hn in E, H2. injection E as <- <- <-.
  cbn [mbind option_bind] in H2. destruct (model_zrun CTrie (s, <[i:=g']> gs) ts) as [[os q2]|] eqn:E2; [|done]. cbn in H2. injection H2 as <- <-.
  pose proof (list_lookup_insert gs i g' (lookup_lt_Some _ _ _ Hi)) as Hi'.
  assert (zmade (length (<[i:=g']> gs)) ts) as Hm2. { rewrite insert_length. apply Hmz. }
  assert (forall a b q, ts = a ++ b -> q ∈ prefixes (trie_words (updates a) W) -> H q) as HH.
  { intros a b q E Hq. exists a, b. split; [done|]. by rewrite words_after_app. }
  assert (forall a b q, ts = a ++ b -> A q -> q ∈ prefixes (trie_words (updates a) W)) as HA.
  { intros a b q E Hq. specialize (Hq a b E). by rewrite words_after_app in Hq. }
  assert (forall past, dinv H A s L past g' -> ginv H A s W past g') as HG.
  { intros past HD. exists L. split; [done|]. split; [done|]. left. split; [apply (v_H _ _ _ _ V)|]. split; [apply (v_A _ _ _ _ V)|done]. }
  assert (exists qs k, zseen i p (o1 ++ ZGot r :: os) = map ZVal (map end_of qs) ++ replicate k ZStop /\ NoDup qs /\ Sorted le (map length qs) /\
    (forall q, q ∈ qs -> H q) /\ (0 < k -> forall q, A q -> q <> [] -> q ∈ qs)) as (qs & k & Hseen & HN & HS & HQ & HK).
  2:{ exists (o1 ++ ZGot r :: os), q2, qs, k. split; [done|]. split; [by split|]. split; [done|]. intros Hk q Hq. apply (HK Hk q Hq).
      specialize (Hq [] ts eq_refl). by apply elem_of_prefixes in Hq as [? _]. }
  unfold p. rewrite Hs. cbn [zseen]. rewrite Nat.eqb_refl. cbn [app].
  destruct Hadv as [(-> & -> & HD)|(q & -> & Hq & HD)].
  - destruct (zrun_dyn H A A_up i ts s _ ZGDone W [] os q2 Hz1 Hm2 Hi' (HG _ HD) HH HA) as (qs & k & -> & HN & HS & HQ & HK & Hd); try done.
    { constructor. } { constructor. }
    specialize (Hd eq_refl) as ->. exists [], (S k). split; [done|]. split_and!; try done. intros _ q Hq Hne. by apply HD.
  - destruct (zrun_dyn H A A_up i ts s _ g' W [q] os q2 Hz1 Hm2 Hi' (HG _ HD) HH HA) as (qs & k & -> & HN & HS & HQ & HK & Hd); try done.
    { apply NoDup_singleton. } { repeat constructor. }
    exists (q :: qs), k. split; [done|]. split_and!; try done. intros q' [->|Hq']%elem_of_cons; [done|by apply HQ].
Qed.
Print Assumptions C67_trie_loop.

(** The hypotheses are met: two loops over one Trie.  The first starts with "ab", "cd",
    "ce"; then "cd" is removed and "abx" inserted, and it gives a, c, b, e, x and stops.
    The second one starts on the emptied trie and stops at once. *)
Definition str (l : list N) : pyval := PStr l.
Definition trie_program : list zstmt :=
  [ZCall (TInsert (str [97; 98]%N)); ZIter; ZCall (TInsert (str [99; 100]%N)); ZCall (TInsert (str [99; 101]%N)); ZNext 0;
   ZCall (TRemove (str [99; 100]%N)); ZNext 0; ZCall (TInsert (str [97; 98; 120]%N)); ZLook LLen; ZNext 0; ZNext 0; ZNext 0; ZNext 0;
   ZCall TClear; ZIter; ZNext 1].
Definition trie_program_outs : option (list zsout) :=
  Eval vm_compute in fst <$> model_zrun CTrie zconf0 trie_program.
Example C67_trie_example : zmade 0 trie_program /\ zasks 0 (take 4 trie_program) = 0 /\
  exists outs, fst <$> model_zrun CTrie zconf0 trie_program = Some outs /\
    zseen 0 trie_program outs = [ZVal [97]; ZVal [99]; ZVal [98]; ZVal [101]; ZVal [120]; ZStop]%N /\
    zseen 1 trie_program outs = [ZStop].
Proof.
  split; [cbn; repeat split; lia|]. split; [done|].
  assert (fst <$> model_zrun CTrie zconf0 trie_program = trie_program_outs) as -> by (vm_compute; reflexivity).
  eexists. split; [unfold trie_program_outs; reflexivity|]. split; vm_compute; reflexivity.
Qed.
(** A loop over a RadixTrie that is cleared during the loop gives what it started with. *)
Definition plain_pre : list zstmt :=
  [ZCall (TInsert (str [97; 98]%N)); ZCall (TInsert (str [97; 99]%N)); ZIter; ZIter].
Definition plain_rest : list zstmt := [ZLook LLen; ZNext 1; ZCall TClear; ZNext 0; ZNext 0; ZNext 0; ZNext 0].
Example C67_plain_example : zmade 0 (plain_pre ++ ZNext 0 :: plain_rest) /\ zasks 0 plain_pre = 0 /\ only_looks plain_rest /\
  exists outs, fst <$> model_zrun CRadix zconf0 (plain_pre ++ ZNext 0 :: plain_rest) = Some outs /\
    zseen 0 (plain_pre ++ ZNext 0 :: plain_rest) outs = [ZVal [97]; ZVal [98]; ZVal [99]; ZStop; ZStop]%N.
Proof.
  split; [cbn; repeat split; lia|]. split; [done|]. split.
  { intros v. split; unfold plain_rest; rewrite !elem_of_cons, elem_of_nil; naive_solver. }
  eexists. split; vm_compute; reflexivity.
Qed.

(** ** A RadixTrie that is changed during the loop

    Not so for a RadixTrie: "ab" and "cd" are stored all the time.  The loop gives "ab",
    then "ce" is inserted, and the loop gives "d" and stops: of "cd", stored all the
    time, it has lost the "c".  Without the insertion it gives "ab" and "cd". *)
Definition split_pre : list zstmt :=
  [ZCall (TInsert (str [97; 98]%N)); ZCall (TInsert (str [99; 100]%N)); ZIter].
Definition split_program : list zstmt :=
  split_pre ++ ZNext 0 :: [ZCall (TInsert (str [99; 101]%N)); ZNext 0; ZNext 0].
Theorem C67_radix_refuted :
  ~ (forall pre ts i, let p := pre ++ ZNext i :: ts in
      zmade 0 p -> zasks i pre = 0 ->
      forall outs e, model_zrun CRadix zconf0 p = Some (outs, e) -> ZStop ∈ zseen i p outs ->
      forall w, (forall ts1 ts2, ts = ts1 ++ ts2 -> w ∈ words_after (pre ++ ts1)) ->
      exists x, ZVal x ∈ zseen i p outs /\ x <> [] /\ head x = head w).
Proof.
  intros F. destruct (model_zrun CRadix zconf0 split_program) as [[outs e]|] eqn:E.
  2:{ vm_compute in E. discriminate E. }
  assert (zseen 0 split_program outs = [ZVal [97; 98]; ZVal [100]; ZStop]%N) as Hs.
  { assert (fst <$> model_zrun CRadix zconf0 split_program = Some outs) as E1 by (by rewrite E). clear E. vm_compute in E1. injection E1 as <-. vm_compute. reflexivity. }
  destruct (F split_pre [ZCall (TInsert (str [99; 101]%N)); ZNext 0; ZNext 0] 0) with (outs := outs) (e := e) (w := [99; 100]%N) as (x & Hx & Hne & Hh).
  - cbn. repeat split; lia.
  - done.
  - exact E.
  - change (ZStop ∈ zseen 0 split_program outs). rewrite Hs. rewrite !elem_of_cons. auto.
  - intros ts1 ts2 Ets. destruct ts1 as [|t1 [|t2 [|t3 [|t4 ts1]]]]; [| | | |discriminate Ets]; inversion Ets; subst;
      apply (bool_decide_unpack _); vm_compute; reflexivity.
  - change (ZVal x ∈ zseen 0 split_program outs) in Hx. rewrite Hs in Hx. rewrite !elem_of_cons, elem_of_nil in Hx.
    destruct Hx as [[= ->]|[[= ->]|[|]]]; done.
Qed.
Print Assumptions C67_radix_refuted.
