(** * Programs, their calls and the start of a loop *)
From iris.proofmode Require Import proofmode.
From Verif Require Import Base TreeModel TreeSpec BstModel BalModel BstSpec BstSep BstRules BstThm TreeIterModel TreeIterSpec TreeIterThm TreeIterThm2 TreeIterThm3.

Lemma tree_snap s T : forall par h, h ⊆ memof s -> tree par T h ->
  snap (t_nodes s) (rp T) T /\ NoDup (map fst (inorder T)) /\ forall i, i ∈ map fst (inorder T) -> is_Some (h !! i).
Proof.
  induction T as [|l IHl [i x] r IHr]; intros par h Hh Ht.
  { split_and!; [done|constructor|]. intros i Hi. by apply elem_of_nil in Hi. }
  destruct Ht as (h1 & h' & Hd & Hsub & H1 & (h2 & h3 & Hd' & Hsub' & H2 & H3)). cbn [fst snd] in *.
  assert (h1 ⊆ memof s) as S1 by (etrans; [|exact Hh]; etrans; [|exact Hsub]; by apply map_union_subseteq_l).
  assert (h' ⊆ h) as S' by (etrans; [|exact Hsub]; by apply map_union_subseteq_r).
  assert (h2 ⊆ h') as S2 by (etrans; [|exact Hsub']; by apply map_union_subseteq_l).
  assert (h3 ⊆ h') as S3 by (etrans; [|exact Hsub']; by apply map_union_subseteq_r).
  destruct (IHl (Some i) h2 (transitivity S2 (transitivity S' Hh)) H2) as (L1 & L2 & L3).
  destruct (IHr (Some i) h3 (transitivity S3 (transitivity S' Hh)) H3) as (R1 & R2 & R3).
  assert (h1 !! i = Some (Cell x (rp l) (rp r) par)) as Hi by exact H1.
  assert (t_nodes s !! i = Some (Cell x (rp l) (rp r) par)) as Hn.
  { rewrite -lookup_map_seq_0. by eapply lookup_weaken. }
  assert (forall k, is_Some (h' !! k) -> k <> i) as Hne.
  { intros k [c Hk] ->. by rewrite (map_disjoint_Some_l _ _ _ _ Hd Hi) in Hk. }
  cbn [inorder]. rewrite map_app. cbn [map fst]. split_and!.
  - cbn [snap fst snd rp]. split; [done|]. exists (Cell x (rp l) (rp r) par). by split_and!.
  - apply NoDup_app. split_and!; [done| |].
    + intros k Hk Hk'. apply L3 in Hk. apply elem_of_cons in Hk' as [->|Hk'].
      * destruct Hk as [c Hk]. by apply (Hne i); [exists c; eapply lookup_weaken|].
      * apply R3 in Hk'. destruct Hk as [c Hk], Hk' as [c' Hk'].
        by rewrite (map_disjoint_Some_l _ _ _ _ Hd' Hk) in Hk'.
    + apply NoDup_cons. split; [|done]. intros Hk. apply R3 in Hk as [c Hk]. by apply (Hne i); [exists c; eapply lookup_weaken|].
  - intros k Hk. apply elem_of_app in Hk as [Hk|Hk]; [|apply elem_of_cons in Hk as [->|Hk]].
    + apply L3 in Hk as [c Hk]. exists c. eapply lookup_weaken; [|exact S']. by eapply lookup_weaken.
    + exists (Cell x (rp l) (rp r) par). eapply lookup_weaken; [exact Hi|]. etrans; [|exact Hsub]. by apply map_union_subseteq_l.
    + apply R3 in Hk as [c Hk]. exists c. eapply lookup_weaken; [|exact S']. by eapply lookup_weaken.
Qed.
Lemma bst_start os rs s : history CBST os = Some (rs, s) ->
  exists T, snap (t_nodes s) (t_root s) T /\ NoDup (map fst (inorder T)) /\ shape s = Some (bin_map snd T).
Proof.
  intros H. destruct (bst_bag_steps os tst0 Nil rep0) as (rs' & s' & T & E & Hr & _).
  assert (s' = s) as -> by (unfold history in H; congruence).
  pose proof (rep_shape s T Hr) as Hsh. destruct Hr as (h & Hh & Ht & Hrt & _).
  destruct (tree_snap s T None h Hh Ht) as (H1 & H2 & _). exists T. by rewrite Hrt.
Qed.

(** ** Calls and iterators *)
Lemma trun_app c a : forall q b, model_trun c q (a ++ b) =
  match model_trun c q a with
  | Some (o1, q1) => match model_trun c q1 b with Some (o2, q2) => Some (o1 ++ o2, q2) | None => None end
  | None => None
  end.
Proof.
  induction a as [|t a IH]; intros q b.
  - cbn [app model_trun]. by destruct (model_trun c q b) as [[o q2]|].
  - cbn [app model_trun]. destruct (model_tstep c q t) as [[o q1]|]; [|done]. cbn [mbind option_bind].
    rewrite IH. destruct (model_trun c q1 a) as [[o1 q2]|]; [|done]. cbn [mbind option_bind].
    by destruct (model_trun c q2 b) as [[o2 q3]|].
Qed.
Lemma calls_app c a : forall s b, calls c (a ++ b) s =
  match calls c a s with
  | Some (o1, q1) => match calls c b q1 with Some (o2, q2) => Some (o1 ++ o2, q2) | None => None end
  | None => None
  end.
Proof.
  induction a as [|t a IH]; intros q b; cbn [app calls].
  - by destruct (calls c b q) as [[o q2]|].
  - destruct (call c t q) as [[o q1]|]; [|done]. rewrite IH. destruct (calls c a q1) as [[o1 q2]|]; [|done].
    by destruct (calls c b q2) as [[o2 q3]|].
Qed.
Lemma next_len s gs i g o q : tstep_next s gs i g = Some (o, q) -> q.1 = s /\ length q.2 = length gs /\ exists r, o = XGot r.
Proof.
  unfold tstep_next. pose proof (tg_next_mem g s) as Hm. destruct (tg_next g s) as [[r g'] s2|e s2|]; [| |done];
    intros [= <- <-]; subst s2; cbn [fst snd]; rewrite insert_length; split_and!; [done|done|by eexists|done|done|by eexists].
Qed.
Lemma run_calls c ts : forall s gs outs e, model_trun c (s, gs) ts = Some (outs, e) ->
  calls c (calls_of ts) s = Some (results_of outs, e.1) /\ length e.2 = length gs + iters ts /\ length outs = length ts.
Proof.
  induction ts as [|t ts IH]; intros s gs outs e Hrun.
  { injection Hrun as <- <-. cbn. split_and!; [done|lia|done]. }
  cbn [model_trun] in Hrun. destruct (model_tstep c (s, gs) t) as [[o [s1 gs1]]|] eqn:E1; [|done]. cbn [mbind option_bind] in Hrun.
  destruct (model_trun c (s1, gs1) ts) as [[os q2]|] eqn:E2; [|done]. cbn in Hrun. injection Hrun as <- <-.
  destruct (IH _ _ _ _ E2) as (Hc & Hl & Hlo).
  destruct t as [op| |j]; cbn [model_tstep fst snd] in E1.
  - destruct (call c op s) as [[r s2]|] eqn:Ec; [|done]. cbn in E1. injection E1 as <- <- <-.
    change (calls_of (XCall op :: ts)) with (op :: calls_of ts). change (results_of (XRes r :: os)) with (r :: results_of os).
    cbn [calls iters length]. rewrite Ec Hc Hlo. by split_and!.
  - injection E1 as <- <- <-. cbn [iters length]. rewrite app_length in Hl. cbn in Hl. split_and!; [done|lia|lia].
  - destruct (gs !! j) as [g|] eqn:Ej; [|done]. cbn in E1. apply next_len in E1 as (H1 & H2 & r & ->). cbn [fst snd] in *. subst s1.
    cbn [iters length]. split_and!; [done|lia|lia].
Qed.
Lemma run_total c ts : forall s gs rs s', calls c (calls_of ts) s = Some (rs, s') -> made (length gs) ts ->
  exists outs e, model_trun c (s, gs) ts = Some (outs, e).
Proof.
  induction ts as [|t ts IH]; intros s gs rs s' Hc Hm; [by eexists _, _|].
  destruct t as [op| |j]; cbn [model_trun model_tstep fst snd].
  - change (calls_of (XCall op :: ts)) with (op :: calls_of ts) in Hc. cbn [calls] in Hc.
    destruct (call c op s) as [[r s1]|]; [|done]. destruct (calls c (calls_of ts) s1) as [[rs1 s2]|] eqn:E; [|done].
    destruct (IH s1 gs _ _ E Hm) as (outs & e & H). cbn [mbind option_bind]. rewrite H. by eexists _, _.
  - cbn [made] in Hm. destruct (IH s (gs ++ [TGNew]) rs s' Hc) as (outs & e & H). { rewrite app_length. cbn. by rewrite Nat.add_1_r. }
    cbn [mbind option_bind]. rewrite H. by eexists _, _.
  - destruct Hm as [Hj Hm]. apply lookup_lt_is_Some in Hj as [g Hg]. rewrite Hg. cbn [mbind option_bind].
    destruct (tstep_next s gs j g) as [[o [s1 gs1]]|] eqn:En.
    + apply next_len in En as (H1 & H2 & _). cbn [fst snd] in *. subst s1.
      destruct (IH s gs1 rs s' Hc) as (outs & e & H); [by rewrite H2|]. cbn [mbind option_bind]. rewrite H. by eexists _, _.
    + exfalso. unfold tstep_next in En. pose proof (tg_next_mem g s). by destruct (tg_next g s) as [[] ?|? ?|].
Qed.
Lemma tseen_app i a : forall oa b ob, length oa = length a -> tseen i (a ++ b) (oa ++ ob) = tseen i a oa ++ tseen i b ob.
Proof.
  induction a as [|t a IH]; intros [|o oa] b ob H; try done. injection H as H. cbn [app tseen].
  destruct t, o; try (by apply IH). rewrite -app_assoc. f_equal. by apply IH.
Qed.
Lemma tasks_app i a b : tasks i (a ++ b) = tasks i a + tasks i b.
Proof. induction a as [|[| |j] a IH]; cbn [app tasks]; try done. rewrite IH. lia. Qed.
Lemma unmade_seen c i ts : forall s gs outs e, length gs + iters ts <= i -> model_trun c (s, gs) ts = Some (outs, e) ->
  tseen i ts outs = [] /\ tasks i ts = 0.
Proof.
  induction ts as [|t ts IH]; intros s gs outs e Hi Hrun; [by injection Hrun as <- <-|].
  cbn [model_trun] in Hrun. destruct (model_tstep c (s, gs) t) as [[o [s1 gs1]]|] eqn:E1; [|done]. cbn [mbind option_bind] in Hrun.
  destruct (model_trun c (s1, gs1) ts) as [[os q2]|] eqn:E2; [|done]. cbn in Hrun. injection Hrun as <- <-.
  destruct t as [op| |j]; cbn [model_tstep fst snd] in E1; cbn [iters] in Hi.
  - destruct (call c op s) as [[r s2]|] eqn:Ec; [|done]. cbn in E1. injection E1 as <- <- <-. by eapply IH.
  - injection E1 as <- <- <-. eapply (IH s (gs ++ [TGNew])); [rewrite app_length; cbn; lia|done].
  - destruct (gs !! j) as [g|] eqn:Ej; [|done]. cbn in E1. apply next_len in E1 as (H1 & H2 & r & ->). cbn [fst snd] in *. subst s1.
    apply lookup_lt_Some in Ej. cbn [tseen tasks]. destruct (Nat.eqb_spec j i) as [|_]; [lia|]. cbn [app plus]. eapply (IH s gs1); [lia|done].
Qed.
Lemma seen_asks c i ts : forall q outs e, model_trun c q ts = Some (outs, e) -> length (tseen i ts outs) = tasks i ts.
Proof.
  induction ts as [|t ts IH]; intros [s gs] outs e Hrun; [by injection Hrun as <- <-|].
  cbn [model_trun] in Hrun. destruct (model_tstep c (s, gs) t) as [[o [s1 gs1]]|] eqn:E1; [|done]. cbn [mbind option_bind] in Hrun.
  destruct (model_trun c (s1, gs1) ts) as [[os q2]|] eqn:E2; [|done]. cbn in Hrun. injection Hrun as <- <-.
  pose proof (IH _ _ _ E2) as Hl.
  destruct t as [op| |j]; cbn [model_tstep fst snd] in E1.
  - destruct (call c op s) as [[r s2]|] eqn:Ec; [|done]. cbn in E1. by injection E1 as <- <- <-.
  - by injection E1 as <- <- <-.
  - destruct (gs !! j) as [g|] eqn:Ej; [|done]. cbn in E1. apply next_len in E1 as (_ & _ & r & ->).
    cbn [tseen tasks]. rewrite app_length Hl. by destruct (Nat.eqb j i).
Qed.

(** ** A loop from its first step *)
Lemma first_step c s gs i T ts outs e : calls_only (mild c) ts -> gs !! i = Some TGNew ->
  snap (t_nodes s) (t_root s) T -> (c = CBST -> NoDup (map fst (inorder T))) ->
  model_trun c (s, gs) (XNext i :: ts) = Some (outs, e) ->
  gives (breadth_first (bin_map snd T)) (inserted ts (tail outs)) (tseen i (XNext i :: ts) outs).
Proof.
  intros Hm Hi Hs Hnd Hrun. destruct (start_ok c s T Hs Hnd) as (r & g' & En & Hcase).
  cbn [model_trun model_tstep fst snd] in Hrun. rewrite Hi in Hrun. cbn [mbind option_bind] in Hrun. unfold tstep_next in Hrun. rewrite En in Hrun. cbn [mbind option_bind] in Hrun.
  destruct (model_trun c (s, <[i:=g']> gs) ts) as [[os q2]|] eqn:E2; [|done]. injection Hrun as <- <-.
  pose proof (list_lookup_insert gs i g' (lookup_lt_Some _ _ _ Hi)) as Hi'. cbn [tail].
  assert (tseen i (XNext i :: ts) (XGot r :: os) = r :: tseen i ts os) as -> by (cbn [tseen]; by rewrite Nat.eqb_refl).
  destruct Hcase as [(y & fo' & -> & -> & HG')|[(x & pd' & -> & HG' & Hp)|(-> & -> & ->)]].
  - destruct (run_loop c _ i ts s _ g' fo' [] os q2 Hm Hi' HG' (le_n _) E2) as (vs & k & tk & ex & H1 & H2 & H3 & H4 & H5).
    exists (p_val y :: vs), k, (y :: tk), ex. rewrite H1. split_and!; try done; [by constructor|by apply prefix_cons|].
    intros Hk. by rewrite H4.
  - by apply Permutation_nil_cons in Hp.
  - destruct (done_run c i ts _ _ _ _ Hi' E2) as [k Hk]. exists [], (S k), [], []. rewrite Hk.
    split_and!; try done; [constructor|apply submseteq_nil_l].
Qed.
Lemma gives_loop fo news rs : gives fo news rs -> loop_with (map p_val fo) news rs.
Proof.
  intros (vs & k & tk & ex & H1 & H2 & [z H3] & H4 & H5). exists vs, k, (map p_val tk), ex. split_and!; try done.
  - exists (map p_val z). by rewrite H3 map_app.
  - intros Hk. by rewrite H4.
Qed.
Lemma merge_nil_r {A} (a vs : list A) : merge a [] vs -> vs = a.
Proof. remember [] as b eqn:Eb. induction 1; [done| |done]. f_equal. by apply IHmerge. Qed.
Lemma loop_exact old rs : loop_with old [] rs -> rs = exact_loop old (length rs).
Proof.
  intros (vs & k & tk & ex & -> & H2 & [z ->] & H4 & H5). apply submseteq_nil_r in H5 as ->. apply merge_nil_r in H2 as ->.
  unfold exact_loop. rewrite app_length map_length replicate_length map_app -app_assoc. rewrite take_add_app; [|by rewrite map_length].
  f_equal. destruct k as [|k]; [by rewrite take_0|].
  specialize (H4 ltac:(lia)). assert (z = []) as ->. { apply (app_inv_head tk). by rewrite app_nil_r. }
  cbn [map app]. rewrite take_replicate. f_equal. lia.
Qed.
Lemma inserted_none c ts : calls_only (leaves_nodes c) ts -> forall outs, inserted ts outs = [].
Proof.
  intros H. induction ts as [|t ts IH]; intros outs; [done|].
  assert (forall o, inserted ts o = []) as IH' by (apply IH; intros o Ho; apply H; by right).
  destruct outs as [|o outs]; [by destruct t as [[[]| | | | | | | | | | | | | |]| |]|].
  destruct t as [[[|n| | | |] p|v|v| | | | | | | | | | | |]| |]; try apply IH'.
  exfalso. exact (H (TInsert (PNum n) p) ltac:(left)).
Qed.
Lemma iter_run c s gs ts outs e : model_trun c (s, gs) (XIter :: ts) = Some (outs, e) ->
  exists o, model_trun c (s, gs ++ [TGNew]) ts = Some (o, e) /\ outs = XNew :: o.
Proof.
  cbn [model_trun model_tstep mbind option_bind fst snd].
  destruct (model_trun c (s, gs ++ [TGNew]) ts) as [[o q]|] eqn:E; [|done]. intros [= <- <-]. by exists o.
Qed.
Lemma whole_loop c pre ts outs e rs s t :
  history c (calls_of pre) = Some (rs, s) -> shape s = Some t -> calls_only (mild c) ts ->
  let p := pre ++ XIter :: XNext (iters pre) :: ts in
  model_trun c tconf0 p = Some (outs, e) ->
  loop_with (values t) (inserted ts (drop (2 + length pre) outs)) (tseen (iters pre) p outs).
Proof.
  intros Hh Hsh Hts p Hrun. unfold p in *. set (i := iters pre) in *. rewrite trun_app in Hrun.
  destruct (model_trun c tconf0 pre) as [[o1 [s1 gs]]|] eqn:E1; [|done].
  destruct (run_calls c pre _ _ _ _ E1) as (Hc & Hl & Hlo). cbn [fst snd length plus] in *.
  unfold history in Hh. rewrite Hh in Hc. injection Hc as -> ->.
  destruct (model_trun c (s1, gs) (XIter :: XNext i :: ts)) as [[o2' q2]|] eqn:E2; [|done].
  apply iter_run in E2 as (o2 & E2 & ->). injection Hrun as <- <-.
  destruct (unmade_seen c i pre tst0 [] _ _ (le_n _) E1) as [Hs0 Ht0].
  rewrite tseen_app //. rewrite Hs0. cbn [app].
  change (tseen i (XIter :: XNext i :: ts) (XNew :: o2)) with (tseen i (XNext i :: ts) o2).
  assert (drop (S (S (length pre))) (o1 ++ XNew :: o2) = tail o2) as ->.
  { replace (S (S (length pre))) with (length o1 + 2) by lia. rewrite -drop_drop drop_app. by destruct o2. }
  assert (exists T, snap (t_nodes s1) (t_root s1) T /\ (c = CBST -> NoDup (map fst (inorder T))) /\ bin_map snd T = t) as (T & HT & Hnd & Et).
  { destruct c.
    { destruct (bst_start _ _ _ Hh) as (T & H1 & H2 & H3). exists T. split_and!; [done|done|congruence]. }
    all: destruct (shape_snap _ _ Hsh) as (T & H1 & H2); exists T; by split_and!. }
  pose proof (first_step c s1 (gs ++ [TGNew]) i T ts o2 q2) as Hf. rewrite Et in Hf.
  apply gives_loop, Hf; try done. rewrite lookup_app_r; [|lia]. replace (i - length gs) with 0 by lia. done.
Qed.
Lemma bst_runs os : exists rs s t, history CBST os = Some (rs, s) /\ shape s = Some t.
Proof.
  destruct (bst_bag_steps os tst0 Nil rep0) as (rs & s & T & E & Hr & _). exists rs, s, (bin_map snd T).
  split; [done|]. by apply rep_shape.
Qed.
