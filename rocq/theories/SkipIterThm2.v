(** * Proofs about programs over several SkipLists: every program (C69) *)
From Coq Require Import Sorted.
From stdpp Require Import gmap.
From Verif Require Import Base NumOrd ListModel ListRep ListSpec ListPure ListCore ListCore2 ListOps ListOps2 ListOps3 SkipModel SkipSpec SkipThm SkipThm2 SkipThm3.
From Verif Require Import IterModel IterSpec SkipIterModel SkipIterSpec SkipIterThm.
Local Open Scope py_scope.
#[local] Remove Hints no_frame : typeclass_instances.

(** ** The statements that change a SkipList *)
Lemma kcall_len x o ks r ks' : kcall x o ks = Some (r, ks') -> length (k_sls ks') = length (k_sls ks).
Proof.
  intros E. apply (kcalls_keeps [(x, o)] ks [r] ks'). cbn. by rewrite E.
Qed.
Lemma call_rel ks W R P x o A : RelK ks W R P -> W !! x = Some A -> avoids_neg_inf o ->
  exists ks' R', kcall x o ks = Some (tanswer o A, ks') /\ RelK ks' (<[x := tnext o A]> W) R' P.
Proof.
  intros H Hx Ho. pose proof H as [H1 H2 H3 H4]. destruct (H2 _ _ Hx) as (r & os & G & HR & Hi & Ht).
  destruct (@step_ok (fr R P x) x ks A o) as (ks' & E & HG'); [by exists r, os, G|done|].
  destruct (rel_update ks ks' W (<[x := tnext o A]> W) R P x (tnext o A)) as [R' HR']; [|done|done| | | |by rewrite insert_length|by exists ks', R'].
  - intros j B _ Hj. by apply H2.
  - rewrite insert_length, <- H1. by eapply kcall_len.
  - apply list_lookup_insert. by eapply lookup_lt_Some.
  - intros j Hj. by rewrite list_lookup_insert_ne by done.
Qed.
Lemma new_rel ks W R P : RelK ks W R P -> exists ks' R', sl_new ks = Ok (length W) ks' /\ RelK ks' (W ++ [[]]) R' P.
Proof.
  intros [H1 H2 H3 H4]. unfold sl_new. unfold alloc_sl at 1, bind at 1. set (ks1 := KSt (k_st ks) (k_lls ks) (k_sls ks ++ [(0, 0)])). rewrite H1.
  assert (forall j p, k_sls ks !! j = Some p -> k_sls ks1 !! j = Some p) as Hold. { intros j p Hj. cbn. by rewrite lookup_app_l by (by eapply lookup_lt_Some). }
  assert (forall j A, j <> length W -> W !! j = Some A -> exists r os G, R !! j = Some (r, os, G) /\ @Inv (fr R P j) j ks1 r os G A /\ length G = theight A) as H2'.
  { intros j A _ Hj. destruct (H2 _ _ Hj) as (r & os & G & HR & Hi & Ht). exists r, os, G. split; [done|]. split; [|done].
    destruct Hi as [a b d e f]. split; try done; [by apply Hold|]. intros j' p Hp. destruct (f _ _ Hp) as [? ?]. split; [done|by apply Hold]. }
  destruct (@init_ok (fr R P (length W)) (length W) ks1 (0, 0)) as (ks' & E & HG).
  { cbn. by rewrite <- H1, lookup_app_r, Nat.sub_diag by lia. }
  { split; cbn.
    - intros o g [Hin|(j & r & os & G & k & Hj & HR & Hok & Hgk)]; [by apply H4|].
      destruct (lookup_lt_is_Some_2 W j) as [A HA]; [by eapply H3|]. destruct (H2 _ _ HA) as (r' & os' & G' & HR' & Hi & _). rewrite HR in HR'. injection HR' as <- <- <-.
      by eapply (r_rep _ _ _ _ (i_rep _ _ _ _ _ _ Hi)).
    - intros r os (j & G & Hj & HR). destruct (lookup_lt_is_Some_2 W j) as [A HA]; [by eapply H3|]. destruct (H2 _ _ HA) as (r' & os' & G' & HR' & Hi & _). rewrite HR in HR'. injection HR' as <- <- <-.
      apply (i_ls _ _ _ _ _ _ Hi).
    - intros j p (Hj & r & os & G & HR & ->). destruct (lookup_lt_is_Some_2 W j) as [A HA]; [by eapply H3|]. destruct (H2 _ _ HA) as (r' & os' & G' & HR' & Hi & _). rewrite HR in HR'. injection HR' as <- <- <-.
      split; [lia|]. apply Hold, (i_sl _ _ _ _ _ _ Hi). }
  rewrite (bind_ok _ _ _ _ _ E).
  destruct (rel_update ks1 ks' W (W ++ [[]]) R P (length W) []) as [R' HR']; [done|done|done| | | |rewrite app_length; cbn; lia|by exists ks', R'].
  - assert (length (k_sls ks') = length (k_sls ks1)) as ->.
    { pose proof (keeps_bind (lift new_level) (fun ll => let! r := new_lls [ll] in put_sl (length W) (r, 1))) as Hk.
      unfold sl_init in E. specialize (Hk (keeps_lift _) (fun ll => keeps_bind _ _ (keeps_new_lls _) (fun r => keeps_put_sl _ _)) ks1). by rewrite E in Hk. }
    cbn. rewrite !app_length. cbn. lia.
  - by rewrite lookup_app_r, Nat.sub_diag by lia.
  - intros j Hj. destruct (decide (j < length W)); [by rewrite lookup_app_l|]. rewrite !lookup_ge_None_2; [done|lia|rewrite app_length; cbn; lia].
Qed.

(** ** Iterators *)
Definition it_rel (W : list towers) (P : list (nat * list gn)) (g : kgen) (it : kit) : Prop :=
  match it with
  | KtNew x => g = KgNew x
  | KtHas rest =>
      (g = KgIn GDone /\ rest = []) \/
      (exists c ch n m, g = KgIn (GAt c n (g_loc m)) /\ (c, ch) ∈ P /\ ch !! n = Some m /\ vals (drop (S n) ch) = map PNum rest)
  end.
Lemma gen_test_at s c ch n : rep CLL s c ch ->
  gen_test c n (hd_loc (drop n ch) None) s = Ok (match ch !! n with Some m => (IVal (g_val m), GAt c n (g_loc m)) | None => (IStop, GDone) end) s.
Proof.
  intros H. destruct (obj_eq H) as (ob & Hob & _ & Hlen & _). unfold gen_test. rewrite (bind_ok _ _ _ _ _ (get_obj_ok _ _ _ Hob)), Hlen.
  destruct (ch !! n) as [m|] eqn:Hm.
  - pose proof (lookup_lt_Some _ _ _ Hm). rewrite (proj2 (Nat.ltb_lt _ _)) by lia. rewrite (drop_S _ _ _ Hm). cbn [hd_loc deref]. erewrite (bind_ok (ret _)) by done.
    by rewrite (bind_ok _ _ _ _ _ (get_data_in _ _ _ _ H (elem_of_list_lookup_2 _ _ _ Hm))).
  - apply lookup_ge_None in Hm. by rewrite (proj2 (Nat.ltb_ge _ _)) by lia.
Qed.
Lemma gen_new_ok s c ch : rep CLL s c ch ->
  gen_next (GNew c) s = Ok (match ch !! 0 with Some m => (IVal (g_val m), GAt c 0 (g_loc m)) | None => (IStop, GDone) end) s.
Proof.
  intros H. destruct (obj_eq H) as (ob & Hob & _ & Hlen & Hhd & _). cbn [gen_next]. rewrite (bind_ok _ _ _ _ _ (get_obj_ok _ _ _ Hob)).
  rewrite <- (gen_test_at s c ch 0 H), drop_0. destruct ch as [|m ch]; [|by rewrite Hhd].
  unfold gen_test. rewrite !(bind_ok _ _ _ _ _ (get_obj_ok _ _ _ Hob)), Hlen. done.
Qed.
Lemma gen_at_ok s c ch n m : rep CLL s c ch -> ch !! n = Some m ->
  gen_next (GAt c n (g_loc m)) s = Ok (match ch !! S n with Some m' => (IVal (g_val m'), GAt c (S n) (g_loc m')) | None => (IStop, GDone) end) s.
Proof.
  intros H Hm. cbn [gen_next]. pose proof H as H'. rewrite <- (take_drop_middle _ _ _ Hm) in H'. rewrite (bind_ok _ _ _ _ _ (get_next_ok _ _ _ _ _ H')). by apply gen_test_at.
Qed.
(** One [next]: where the iterator stands afterwards. *)
Lemma next_rel ks W R P g it rest : RelK ks W R P -> it_rel W P g it ->
  match it with KtNew x => elems <$> W !! x | KtHas r => Some r end = Some rest ->
  exists ks' P' g', kg_next g ks = Ok ((kgive rest).1, g') ks' /\ RelK ks' W R P' /\ P ⊆ P' /\ it_rel W P' g' (kgive rest).2.
Proof.
  intros H Hit Hrest. destruct it as [x|r].
  - cbn in Hit. subst g. destruct (W !! x) as [A|] eqn:HA; [|done]. cbn in Hrest. injection Hrest as <-.
    destruct (k_own _ _ _ _ H _ _ HA) as (r & os & G & HR & Hi & Ht).
    destruct (@good_base (fr R P x) x ks A) as (o & m & g & El & Hr & Hm & Hv); [by exists r, os, G|]. cbn [kg_next]. rewrite (bind_ok _ _ _ _ _ El).
    destruct (wp_elim _ _ _ (slice_spec _ _ _ _ (Some 1%Z) None 1 Hr eq_refl ltac:(lia))) as (rr & s1 & E & c & -> & gc & Hrc & Hvc & Hc & Hl & Hmod).
    assert (getitem o (ISlice (Some 1%Z) None None) (k_st ks) = Ok (GList c) s1) as E1 by by rewrite (getitem_cll _ _ _ _ Hr).
    rewrite (bind_ok _ _ _ _ _ (lift_ok _ _ _ _ E1)). erewrite (bind_ok (lift _)) by (apply lift_ok0; cbn [k_st]; by apply gen_new_ok).
    cbn [map] in Hvc. rewrite slice_tail, Hv in Hvc.
    eexists _, ((c, gc) :: P), _. split; [|split; [by apply rel_alloc|split; [set_solver|]]].
    + unfold ret. do 2 f_equal. destruct gc as [|n gc], (elems A) as [|y ys]; try done. cbn in Hvc |- *. by injection Hvc as ->.
    + destruct gc as [|n gc], (elems A) as [|y ys]; try done; cbn.
      * by left.
      * cbn in Hvc. injection Hvc as Hn Hvc. right. exists c, (n :: gc), 0, n. split_and!; [done|left|done|done].
  - injection Hrest as ->. destruct Hit as [[-> ->]|(c & ch & n & m & -> & Hin & Hm & Hv)]; cbn [kg_next].
    + erewrite (bind_ok (lift _)) by (by apply lift_ok0). eexists _, P, _. split; [reflexivity|]. split; [done|]. split; [done|]. by left.
    + pose proof (k_prv _ _ _ _ H _ _ Hin) as Hr. erewrite (bind_ok (lift _)) by (apply lift_ok0; by apply gen_at_ok).
      eexists _, P, _. split; [|split; [done|split; [done|]]].
      * unfold ret. do 2 f_equal. destruct (ch !! S n) as [m'|] eqn:Hm'.
        -- rewrite (drop_S _ _ _ Hm') in Hv. destruct rest as [|y ys]; [done|]. cbn in Hv |- *. by injection Hv as ->.
        -- rewrite drop_ge in Hv by (by apply lookup_ge_None in Hm'). by destruct rest.
      * destruct (ch !! S n) as [m'|] eqn:Hm'.
        -- rewrite (drop_S _ _ _ Hm') in Hv. destruct rest as [|y ys]; [done|]. cbn in Hv |- *. injection Hv as Hy Hv. right. by exists c, ch, (S n), m'.
        -- rewrite drop_ge in Hv by (by apply lookup_ge_None in Hm'). destruct rest; [|done]. by left.
Qed.
Lemma it_rel_mono W W' P P' g it : it_rel W P g it -> P ⊆ P' -> it_rel W' P' g it.
Proof.
  intros H HP. destruct it; [done|]. destruct H as [?|(c & ch & n & m & -> & Hin & ? & ?)]; [by left|right]. exists c, ch, n, m. split_and!; try done. by apply HP.
Qed.

(** ** Programs *)
Definition RelC (c : kconf) (W : list towers) (its : list kit) : Prop :=
  exists R P, RelK c.1 W R P /\ Forall2 (it_rel W P) c.2 its.
Lemma relc0 : RelC kconf0 [] [].
Proof. exists ∅, []. split; [|constructor]. split; [done|done| |]; [intros x e Hx; by rewrite lookup_empty in Hx|]. intros o g Hin. by apply elem_of_nil in Hin. Qed.
Lemma step_rel c W its t o W' its' : RelC c W its -> stmt_avoids_neg_inf t -> spec_kstep W its t = Some (o, (W', its')) ->
  exists c', model_kstep c t = Some (o, c') /\ RelC c' W' its'.
Proof.
  intros (R & P & HK & HI) Ht E. destruct c as [ks gs]; cbn [fst snd] in *. destruct t as [|x op|x|i]; cbn [spec_kstep model_kstep fst snd] in *.
  - injection E as <- <- <-. destruct (new_rel _ _ _ _ HK) as (ks' & R' & E' & HK'). rewrite E'. eexists. split; [reflexivity|]. exists R', P. split; [done|].
    eapply Forall2_impl; [exact HI|]. intros g it Hg. by eapply it_rel_mono.
  - destruct (W !! x) as [A|] eqn:HA; [|done]. cbn in E. injection E as <- <- <-. destruct (call_rel _ _ _ _ _ op _ HK HA Ht) as (ks' & R' & E' & HK').
    destruct (lookup_lt_is_Some_2 (k_sls ks) x) as [p Hp]; [rewrite (k_len _ _ _ _ HK); by eapply lookup_lt_Some|]. rewrite Hp. cbn. rewrite E'. cbn.
    eexists. split; [reflexivity|]. exists R', P. split; [done|]. eapply Forall2_impl; [exact HI|]. intros g it Hg. by eapply it_rel_mono.
  - destruct (W !! x) as [A|] eqn:HA; [|done]. cbn in E. injection E as <- <- <-.
    destruct (lookup_lt_is_Some_2 (k_sls ks) x) as [p Hp]; [rewrite (k_len _ _ _ _ HK); by eapply lookup_lt_Some|]. rewrite Hp. cbn.
    eexists. split; [reflexivity|]. exists R, P. split; [done|]. cbn. apply Forall2_app; [done|]. by repeat constructor.
  - destruct (its !! i) as [it|] eqn:Hit; [|done]. cbn in E. destruct (match it with KtNew x => elems <$> W !! x | KtHas r => Some r end) as [rest|] eqn:Hrest; [|done].
    cbn in E. injection E as <- <- <-. destruct (Forall2_lookup_r _ _ _ _ _ HI Hit) as (g & Hg & Hgi). rewrite Hg. cbn [mbind option_bind].
    destruct (next_rel _ _ _ _ _ _ _ HK Hgi Hrest) as (ks' & P' & g' & E' & HK' & HP & Hg'). rewrite E'. cbn [fst snd]. eexists. split; [reflexivity|].
    exists R, P'. split; [done|]. cbn. apply Forall2_insert; [|done]. eapply Forall2_impl; [exact HI|]. intros ? ? ?. by eapply it_rel_mono.
Qed.
Lemma run_rel ts : forall c W its outs W' its', RelC c W its -> Forall stmt_avoids_neg_inf ts -> spec_krun W its ts = Some (outs, (W', its')) ->
  exists c', model_krun c ts = Some (outs, c') /\ RelC c' W' its'.
Proof.
  induction ts as [|t ts IH]; intros c W its outs W' its' H Hts E; cbn in E |- *.
  - injection E as <- <- <-. by exists c.
  - apply Forall_cons in Hts as [Ht Hts]. destruct (spec_kstep W its t) as [[o [W1 its1]]|] eqn:E1; [|done]. cbn in E.
    destruct (spec_krun W1 its1 ts) as [[os [W2 its2]]|] eqn:E2; [|done]. cbn in E. injection E as <- <- <-.
    destruct (step_rel _ _ _ _ _ _ _ H Ht E1) as (c1 & -> & H1). cbn. destruct (IH _ _ _ _ _ _ H1 Hts E2) as (c2 & -> & H2). by exists c2.
Qed.

(** ** The specification alone *)
Lemma spec_krun_app ts ts' : forall W its, spec_krun W its (ts ++ ts') =
  '(o, (W1, its1)) ← spec_krun W its ts; '(o', e) ← spec_krun W1 its1 ts'; Some (o ++ o', e).
Proof.
  induction ts as [|t ts IH]; intros W its; cbn.
  - by destruct (spec_krun W its ts') as [[? ?]|].
  - destruct (spec_kstep W its t) as [[o [W1 its1]]|]; [|done]. cbn. rewrite IH. destruct (spec_krun W1 its1 ts) as [[os [W2 its2]]|]; [|done]. cbn.
    by destruct (spec_krun W2 its2 ts') as [[? ?]|].
Qed.
Definition its_ok (n : nat) (its : list kit) : Prop := Forall (fun it => match it with KtNew x => x < n | KtHas _ => True end) its.
Lemma well_named_runs ts : forall W its, well_named (length W) (length its) ts -> its_ok (length W) its ->
  exists outs W' its', spec_krun W its ts = Some (outs, (W', its')) /\ length W' = length W + lists_made ts /\ length its' = length its + iters_made ts /\ its_ok (length W') its'.
Proof.
  induction ts as [|t ts IH]; intros W its Hw Hi; [exists [], W, its; cbn; split_and!; auto; lia|]. destruct t as [|x o|x|i]; cbn [well_named] in Hw; cbn [spec_krun spec_kstep lists_made iters_made].
  - destruct (IH (W ++ [[]]) its) as (outs & W' & its' & E & H1 & H2 & H3).
    { rewrite app_length. cbn. by rewrite Nat.add_1_r. }
    { rewrite app_length. cbn. eapply Forall_impl; [exact Hi|]. intros [y|r]; [lia|done]. }
    cbn. rewrite E. cbn. eexists _, _, _. split; [reflexivity|]. rewrite app_length in H1. cbn in H1. split_and!; [lia|lia|done].
  - destruct Hw as [Hx Hw]. destruct (lookup_lt_is_Some_2 W x Hx) as [A HA]. rewrite HA. cbn. destruct (IH (<[x:=tnext o A]> W) its) as (outs & W' & its' & E & H1 & H2 & H3); [by rewrite insert_length..|].
    rewrite E. cbn. eexists _, _, _. split; [reflexivity|]. rewrite insert_length in H1. done.
  - destruct Hw as [Hx Hw]. destruct (lookup_lt_is_Some_2 W x Hx) as [A HA]. rewrite HA. cbn. destruct (IH W (its ++ [KtNew x])) as (outs & W' & its' & E & H1 & H2 & H3).
    { rewrite app_length. cbn. by rewrite Nat.add_1_r. }
    { apply Forall_app. split; [done|]. by apply Forall_singleton. }
    rewrite E. cbn. eexists _, _, _. split; [reflexivity|]. rewrite app_length in H2. cbn in H2. split_and!; [done|lia|done].
  - destruct Hw as [Hx Hw]. destruct (lookup_lt_is_Some_2 its i Hx) as [it Hit]. rewrite Hit. cbn. pose proof (Forall_lookup_1 _ _ _ _ Hi Hit) as Hok.
    assert (exists rest, match it with KtNew x => elems <$> W !! x | KtHas r => Some r end = Some rest) as [rest Hrest].
    { destruct it as [y|r]; [|by eexists]. cbn in Hok. destruct (lookup_lt_is_Some_2 W y Hok) as [A HA]. rewrite HA. by eexists. }
    rewrite Hrest. cbn. destruct (IH W (<[i:=(kgive rest).2]> its)) as (outs & W' & its' & E & H1 & H2 & H3); [by rewrite insert_length| |].
    { apply Forall_insert; [done|]. by destruct rest. }
    rewrite E. cbn. eexists _, _, _. split; [reflexivity|]. rewrite insert_length in H2. done.
Qed.
(** Every SkipList gets its own calls. *)
Lemma alone_spec x ts : forall W its outs W' its' A, spec_krun W its ts = Some (outs, (W', its')) -> W !! x = Some A ->
  gave x ts outs = tanswers (on_list x ts) A /\ W' !! x = Some (tafter (on_list x ts) A).
Proof.
  induction ts as [|t ts IH]; intros W its outs W' its' A E HA; cbn in E; [by injection E as <- <- <-|].
  destruct (spec_kstep W its t) as [[o [W1 its1]]|] eqn:E1; [|done]. cbn in E.
  destruct (spec_krun W1 its1 ts) as [[os [W2 its2]]|] eqn:E2; [|done]. cbn in E. injection E as <- <- <-.
  destruct t as [|y op|y|i]; cbn [spec_kstep] in E1; cbn [gave on_list].
  - injection E1 as <- <- <-. eapply IH; [done|]. by rewrite lookup_app_l by (by eapply lookup_lt_Some).
  - destruct (W !! y) as [B|] eqn:HB; [|done]. cbn in E1. injection E1 as <- <- <-. destruct (Nat.eqb_spec x y) as [->|Hne].
    + rewrite HA in HB. injection HB as <-. destruct (IH _ _ _ _ _ (tnext op A) E2) as [-> ->]; [|done]. apply list_lookup_insert. by eapply lookup_lt_Some.
    + eapply IH; [done|]. by rewrite list_lookup_insert_ne.
  - destruct (W !! y); [|done]. cbn in E1. injection E1 as <- <- <-. by eapply IH.
  - destruct (its !! i) as [it|]; [|done]. cbn in E1. destruct (match it with KtNew z => elems <$> W !! z | KtHas r => Some r end); [|done]. cbn in E1. injection E1 as <- <- <-. by eapply IH.
Qed.
Lemma alone_new x ts : forall W its outs W' its', spec_krun W its ts = Some (outs, (W', its')) -> length W <= x ->
  gave x ts outs = tanswers (on_list x ts) [] /\ (x < length W' -> W' !! x = Some (tafter (on_list x ts) [])).
Proof.
  induction ts as [|t ts IH]; intros W its outs W' its' E HA; cbn in E; [injection E as <- <- <-; cbn; split; [done|lia]|].
  destruct (spec_kstep W its t) as [[o [W1 its1]]|] eqn:E1; [|done]. cbn in E.
  destruct (spec_krun W1 its1 ts) as [[os [W2 its2]]|] eqn:E2; [|done]. cbn in E. injection E as <- <- <-.
  destruct t as [|y op|y|i]; cbn [spec_kstep] in E1; cbn [gave on_list].
  - injection E1 as <- <- <-. destruct (decide (x = length W)) as [->|Hne].
    + destruct (alone_spec (length W) ts _ _ _ _ _ [] E2); [by rewrite lookup_app_r, Nat.sub_diag by lia|done].
    + eapply IH; [done|]. rewrite app_length. cbn. lia.
  - destruct (W !! y) as [B|] eqn:HB; [|done]. cbn in E1. injection E1 as <- <- <-. pose proof (lookup_lt_Some _ _ _ HB). destruct (Nat.eqb_spec x y) as [->|Hne]; [lia|].
    eapply IH; [done|]. by rewrite insert_length.
  - destruct (W !! y); [|done]. cbn in E1. injection E1 as <- <- <-. by eapply IH.
  - destruct (its !! i) as [it|]; [|done]. cbn in E1. destruct (match it with KtNew z => elems <$> W !! z | KtHas r => Some r end); [|done]. cbn in E1. injection E1 as <- <- <-. by eapply IH.
Qed.
(** What a loop sees. *)
Definition kgiven (rest : list num) (n : nat) : list iout := plain_loop (map PNum rest) n.
Lemma plain_cons v vs n : plain_loop (v :: vs) (S n) = IVal v :: plain_loop vs n.
Proof. unfold plain_loop. cbn [map app take]. f_equal. assert (replicate (S n) IStop = replicate n IStop ++ [IStop]) as -> by by rewrite <- replicate_cons_app. rewrite app_assoc, take_app_le; [done|]. rewrite app_length, replicate_length. lia. Qed.
Lemma plain_nil n : plain_loop [] n = replicate n IStop.
Proof. unfold plain_loop. cbn. rewrite take_ge; [done|]. by rewrite replicate_length. Qed.
Lemma loop_spec i ts : forall W its outs e rest, spec_krun W its ts = Some (outs, e) -> its !! i = Some (KtHas rest) ->
  kseen i ts outs = plain_loop (map PNum rest) (kasks i ts).
Proof.
  induction ts as [|t ts IH]; intros W its outs e rest E Hi; cbn in E; [by injection E as <- <-|].
  destruct (spec_kstep W its t) as [[o [W1 its1]]|] eqn:E1; [|done]. cbn in E.
  destruct (spec_krun W1 its1 ts) as [[os e2]|] eqn:E2; [|done]. cbn in E. injection E as <- <-.
  destruct t as [|y op|y|j]; cbn [spec_kstep] in E1; cbn [kseen kasks].
  - injection E1 as <- <- <-. by eapply IH.
  - destruct (W !! y) as [B|] eqn:HB; [|done]. cbn in E1. injection E1 as <- <- <-. by eapply IH.
  - destruct (W !! y); [|done]. cbn in E1. injection E1 as <- <- <-. eapply IH; [done|]. by rewrite lookup_app_l by (by eapply lookup_lt_Some).
  - destruct (its !! j) as [it|] eqn:Hj; [|done]. cbn in E1. destruct (match it with KtNew z => elems <$> W !! z | KtHas r => Some r end) as [r|] eqn:Hr; [|done]. cbn in E1. injection E1 as <- <- <-.
    destruct (Nat.eqb_spec i j) as [<-|Hne].
    + rewrite Hi in Hj. injection Hj as <-. injection Hr as <-. rewrite (IH _ _ _ _ (match rest with [] => [] | _ :: l => l end) E2).
      * destruct rest as [|y ys]; cbn [map kgive fst Nat.add]; [|by rewrite plain_cons]. by rewrite !plain_nil.
      * rewrite list_lookup_insert by (by eapply lookup_lt_Some). by destruct rest.
    + eapply IH; [done|]. by rewrite list_lookup_insert_ne.
Qed.
Lemma loop_first i x ts W its outs e A : spec_krun W its ts = Some (outs, e) -> its !! i = Some (KtNew x) -> W !! x = Some A ->
  forall r, ts = KsNext i :: r -> kseen i ts outs = plain_loop (map PNum (elems A)) (kasks i ts).
Proof.
  intros E Hi HA r ->. rewrite <- (loop_spec i (KsNext i :: r) W (<[i := KtHas (elems A)]> its) outs e (elems A)); [done| |apply list_lookup_insert; by eapply lookup_lt_Some].
  cbn [spec_krun spec_kstep] in E |- *. rewrite Hi, list_lookup_insert in * by (by eapply lookup_lt_Some). cbn [mbind option_bind] in *. rewrite HA in E. cbn [fmap option_fmap option_map] in E. cbn [mbind option_bind] in *.
  by rewrite list_insert_insert.
Qed.
Lemma unasked i ts : forall W its outs W' its' it, spec_krun W its ts = Some (outs, (W', its')) -> its !! i = Some it -> kasks i ts = 0 ->
  its' !! i = Some it /\ kseen i ts outs = [].
Proof.
  induction ts as [|t ts IH]; intros W its outs W' its' it E Hi Ha; cbn in E; [by injection E as <- <- <-|].
  destruct (spec_kstep W its t) as [[o [W1 its1]]|] eqn:E1; [|done]. cbn in E.
  destruct (spec_krun W1 its1 ts) as [[os [W2 its2]]|] eqn:E2; [|done]. cbn in E. injection E as <- <- <-.
  destruct t as [|y op|y|j]; cbn [spec_kstep] in E1; cbn [kseen kasks] in *.
  - injection E1 as <- <- <-. by eapply IH.
  - destruct (W !! y) as [B|] eqn:HB; [|done]. cbn in E1. injection E1 as <- <- <-. by eapply IH.
  - destruct (W !! y); [|done]. cbn in E1. injection E1 as <- <- <-. eapply IH; [done| |done]. by rewrite lookup_app_l by (by eapply lookup_lt_Some).
  - destruct (its !! j) as [it'|] eqn:Hj; [|done]. cbn in E1. destruct (match it' with KtNew z => elems <$> W !! z | KtHas r => Some r end) as [r|] eqn:Hr; [|done]. cbn in E1. injection E1 as <- <- <-.
    destruct (Nat.eqb_spec i j) as [<-|Hne]; [done|]. eapply IH; [done| |done]. by rewrite list_lookup_insert_ne.
Qed.
(** An iterator that does not exist yet is not asked. *)
Lemma not_made i ts : forall W its outs e, spec_krun W its ts = Some (outs, e) -> length its + iters_made ts <= i -> kasks i ts = 0 /\ kseen i ts outs = [].
Proof.
  induction ts as [|t ts IH]; intros W its outs e E Hi; cbn in E; [by injection E as <- <-|].
  destruct (spec_kstep W its t) as [[o [W1 its1]]|] eqn:E1; [|done]. cbn in E.
  destruct (spec_krun W1 its1 ts) as [[os e2]|] eqn:E2; [|done]. cbn in E. injection E as <- <-.
  destruct t as [|y op|y|j]; cbn [spec_kstep] in E1; cbn [kseen kasks iters_made] in *.
  - injection E1 as <- <- <-. by eapply IH.
  - destruct (W !! y) as [B|] eqn:HB; [|done]. cbn in E1. injection E1 as <- <- <-. by eapply IH.
  - destruct (W !! y); [|done]. cbn in E1. injection E1 as <- <- <-. eapply IH; [done|]. rewrite app_length. cbn. lia.
  - destruct (its !! j) as [it'|] eqn:Hj; [|done]. cbn in E1. destruct (match it' with KtNew z => elems <$> W !! z | KtHas r => Some r end) as [r|] eqn:Hr; [|done]. cbn in E1. injection E1 as <- <- <-.
    pose proof (lookup_lt_Some _ _ _ Hj). destruct (Nat.eqb_spec i j) as [<-|Hne]; [lia|]. eapply IH; [done|]. by rewrite insert_length.
Qed.
Lemma krun_len ts : forall W its outs e, spec_krun W its ts = Some (outs, e) -> length outs = length ts.
Proof.
  induction ts as [|t ts IH]; intros W its outs e E; cbn in E; [by injection E as <- <-|].
  destruct (spec_kstep W its t) as [[o [W1 its1]]|]; [|done]. cbn in E. destruct (spec_krun W1 its1 ts) as [[os e2]|] eqn:E2; [|done]. cbn in E. injection E as <- <-. cbn. f_equal. by eapply IH.
Qed.
Lemma kseen_app i : forall ts outs ts' outs', length outs = length ts -> kseen i (ts ++ ts') (outs ++ outs') = kseen i ts outs ++ kseen i ts' outs'.
Proof.
  induction ts as [|t ts IH]; intros [|o outs] ts' outs' Hl; try done. injection Hl as Hl. cbn [app kseen].
  destruct t; try by apply IH. destruct o; try by apply IH. destruct (Nat.eqb i i0); [|by apply IH]. cbn. f_equal. by apply IH.
Qed.
Lemma kasks_app i ts ts' : kasks i (ts ++ ts') = kasks i ts + kasks i ts'.
Proof. induction ts as [|[] ts IH]; cbn; rewrite ?IH; lia. Qed.
Lemma well_named_app ts ts' : forall n m, well_named n m (ts ++ ts') -> well_named n m ts.
Proof. induction ts as [|t ts IH]; intros n m; [done|]. destruct t; cbn; try (by apply IH); (intros [? ?]; split; [done|]; by apply IH). Qed.
