(** * An insertion at the front under a running loop. *)
From Verif Require Import Base ListModel ListRep ListCore ListCore2 ListSpec ListPure ListOps ListOps2 ListRun ListOps3 ListSim ListThm.
From Verif Require Import IterModel IterSpec IterThm IterThm2.
Local Open Scope py_scope.

Lemma irun_app k ts1 ts2 c : model_irun k c (ts1 ++ ts2) =
  ('(o1, c1) ← model_irun k c ts1; '(o2, c2) ← model_irun k c1 ts2; Some (o1 ++ o2, c2)).
Proof.
  revert c. induction ts1 as [|t ts1 IH]; intros c; cbn [app model_irun].
  { cbn. by destruct (model_irun k c ts2) as [[? ?]|]. }
  destruct (model_istep k c t) as [[o c1]|]; cbn [mbind option_bind]; [|done]. rewrite IH.
  destruct (model_irun k c1 ts1) as [[o1 c2]|]; cbn [mbind option_bind]; [|done].
  destruct (model_irun k c2 ts2) as [[o2 c3]|]; cbn [mbind option_bind]; done.
Qed.
Lemma spec_irun_app k ts1 ts2 w its : spec_irun k w its (ts1 ++ ts2) =
  ('(o1, (w1, its1)) ← spec_irun k w its ts1; '(o2, e) ← spec_irun k w1 its1 ts2; Some (o1 ++ o2, e)).
Proof.
  revert w its. induction ts1 as [|t ts1 IH]; intros w its; cbn [app spec_irun].
  { cbn. by destruct (spec_irun k w its ts2) as [[? ?]|]. }
  destruct (spec_istep k w its t) as [[o [w1 its1]]|]; cbn [mbind option_bind]; [|done]. rewrite IH.
  destruct (spec_irun k w1 its1 ts1) as [[o1 [w2 its2]]|]; cbn [mbind option_bind]; [|done].
  destruct (spec_irun k w2 its2 ts2) as [[o2 e]|]; cbn [mbind option_bind]; done.
Qed.

(** Asking [n] times in a row. *)
Lemma spec_nexts k i x vs w : content w x = Some vs -> forall n p its, its !! i = Some (PAt x p) -> p + n <= length vs ->
  spec_irun k w its (replicate n (SNext i)) =
    Some (map (fun v => ONext (IVal v)) (take n (drop p vs)), (w, <[i := PAt x (p + n)]> its)).
Proof.
  intros Hx. induction n as [|n IH]; intros p its Hi Hp; cbn [replicate spec_irun].
  { rewrite Nat.add_0_r, list_insert_id by done. done. }
  cbn [spec_istep]. rewrite Hi. cbn [mbind option_bind]. rewrite Hx. cbn [mbind option_bind].
  destruct (lookup_lt_is_Some_2 vs p) as [v Hv]; [lia|]. rewrite Hv. cbn [mbind option_bind].
  rewrite (IH (S p)); [|apply list_lookup_insert; by eapply lookup_lt_Some|lia]. cbn [mbind option_bind].
  rewrite (drop_S _ _ _ Hv). cbn [firstn map]. rewrite list_insert_insert. do 4 f_equal. f_equal. lia.
Qed.

Lemma add_front_chain k s o g v : rep k s o g -> storable v -> is_cll k = false ->
  wp (add_front o v) (fun _ s' => exists n, rep k s' o (n :: g)) s.
Proof.
  intros Hr Hv Hk. unfold add_front. apply wp_bind. eapply wp_intro; [by apply check_item_ok|].
  apply wp_bind. unfold ListModel.insert_at.
  destruct (get_node_spec _ _ _ _ 0 Hr ltac:(lia)) as (c & Hget & _).
  apply wp_bind. eapply wp_intro; [exact Hget|]. cbn [fst].
  eapply wp_mono; [eapply (insert_value_spec k s o [] g); [exact Hr|done|by right]|].
  intros r s' (_ & Hrep & _). apply wp_ret. unfold ins_ghost in Hrep. rewrite Hk in Hrep. by eexists.
Qed.

(** A generator that is one node ahead of its counter walks to the end of the chain
    and then falls off it. *)
Lemma lag_next k s o g q l : rep k s o g -> is_cll k = false -> locs g !! S q = Some l ->
  gen_next (GAt o q l) s =
    match g !! S (S q) with
    | Some m => Ok (IVal (g_val m), GAt o (S q) (g_loc m)) s
    | None => Exc AttributeError s
    end.
Proof.
  intros Hr Hk Hp. rewrite list_lookup_fmap in Hp. destruct (g !! S q) as [n|] eqn:Hn; [|done].
  cbn in Hp. injection Hp as <-. cbn [gen_next].
  pose proof (rep_seg _ _ _ _ Hr) as Hs. rewrite <- (take_drop_middle _ _ _ Hn) in Hs at 1.
  apply lseg_app in Hs as [_ [(cn & Hcn & _ & _ & _ & _ & Hnx & _) Hs2]].
  assert (get_next (g_loc n) s = Ok (hd_loc (drop (S (S q)) g) (endp k g)) s) as E.
  { unfold get_next, bind. by rewrite (get_cell_ok _ _ _ Hcn), <- Hnx. }
  erewrite bind_ok by exact E. destruct (obj_eq Hr) as (ob & Hob & _ & Hlen & _).
  unfold gen_test. erewrite bind_ok by (by apply get_obj_ok). rewrite Hlen.
  rewrite (proj2 (Nat.ltb_lt _ _)) by (by eapply lookup_lt_Some).
  destruct (g !! S (S q)) as [m|] eqn:Hm.
  - rewrite (drop_S _ _ _ Hm) in Hs2 |- *. cbn [hd_loc deref]. erewrite bind_ok by done.
    destruct Hs2 as [(cm & Hcm & _ & Hdat & _) _].
    assert (get_data (g_loc m) s = Ok (g_val m) s) as Ed.
    { unfold get_data, bind. by rewrite (get_cell_ok _ _ _ Hcm), <- Hdat. }
    by erewrite bind_ok by exact Ed.
  - apply lookup_ge_None in Hm. rewrite drop_ge by done. cbn [hd_loc].
    unfold endp. rewrite Hk. done.
Qed.
Lemma lag_run k s env o g i : rep (kc k) s o g -> is_cll (kc k) = false -> forall n q l gs,
  locs g !! S q = Some l -> gs !! i = Some (GAt o q l) -> n = length g - S (S q) ->
  exists gs', model_irun k ((s, env), gs) (replicate (S n) (SNext i)) =
    Some (map (fun v => ONext (IVal v)) (vals (drop (S (S q)) g)) ++ [ONext (IExc AttributeError)], ((s, env), gs')).
Proof.
  intros Hr Hk. induction n as [|n IH]; intros q l gs Hl Hg Hn;
    rewrite replicate_S; cbn [model_irun model_istep fst snd]; rewrite Hg; cbn [mbind option_bind];
    unfold step_next; cbn [fst snd]; rewrite (lag_next _ _ _ _ _ _ Hr Hk Hl).
  - rewrite lookup_ge_None_2 by lia. cbn. rewrite drop_ge by lia. by eexists.
  - destruct (lookup_lt_is_Some_2 g (S (S q))) as [m Hm]; [lia|]. rewrite Hm. cbn [mbind option_bind].
    destruct (IH (S q) (g_loc m) (<[i := GAt o (S q) (g_loc m)]> gs)) as [gs' Hrun].
    + by rewrite list_lookup_fmap, Hm.
    + apply list_lookup_insert. by eapply lookup_lt_Some.
    + lia.
    + rewrite Hrun. cbn [mbind option_bind]. rewrite (drop_S _ _ _ Hm). by eexists.
Qed.

Lemma seen_app i ts1 ts2 o1 o2 : length ts1 = length o1 ->
  seen i (ts1 ++ ts2) (o1 ++ o2) = seen i ts1 o1 ++ seen i ts2 o2.
Proof.
  revert o1. induction ts1 as [|t ts1 IH]; intros [|o o1] Hl; try done.
  injection Hl as Hl. cbn [app seen]. destruct t, o; rewrite ?IH by done; try done.
  destruct (Nat.eqb _ _); [|done]. done.
Qed.
Lemma seen_nexts i rs : seen i (replicate (length rs) (SNext i)) (map ONext rs) = rs.
Proof.
  induction rs as [|r rs IH]; [done|]. cbn [length replicate map seen]. by rewrite Nat.eqb_refl, IH.
Qed.
Lemma irun_length k ts : forall c outs c', model_irun k c ts = Some (outs, c') -> length ts = length outs.
Proof.
  induction ts as [|t ts IH]; intros c outs c' H; cbn [model_irun] in H; [by injection H as <- _|].
  destruct (model_istep k c t) as [[o c1]|]; cbn [mbind option_bind] in H; [|done].
  destruct (model_irun k c1 ts) as [[os c2]|] eqn:E; cbn [mbind option_bind] in H; [|done].
  injection H as <- _. cbn. f_equal. by eapply IH.
Qed.
Lemma srun_length k ts : forall w its outs e, spec_irun k w its ts = Some (outs, e) -> length ts = length outs.
Proof.
  induction ts as [|t ts IH]; intros w its outs c' H; cbn [spec_irun] in H; [by injection H as <- _|].
  destruct (spec_istep k w its t) as [[o [w1 its1]]|]; cbn [mbind option_bind] in H; [|done].
  destruct (spec_irun k w1 its1 ts) as [[os c2]|] eqn:E; cbn [mbind option_bind] in H; [|done].
  injection H as <- _. cbn. f_equal. by eapply IH.
Qed.

(** Iterators that do not exist yet have not been asked. *)
Lemma not_asked k i ts : forall w its outs w' its', spec_irun k w its ts = Some (outs, (w', its')) ->
  length its' <= i -> seen i ts outs = [] /\ length its <= length its' /\ undisturbed (fun j => j = i) k w its ts.
Proof.
  induction ts as [|t ts IH]; intros w its outs w' its' Hs Hi; cbn [spec_irun undisturbed] in *.
  { injection Hs as <- <- <-. done. }
  destruct (spec_istep k w its t) as [[o [w1 its1]]|] eqn:H1; cbn [mbind option_bind] in Hs; [|done].
  destruct (spec_irun k w1 its1 ts) as [[os [w2 its2]]|] eqn:H2; cbn [mbind option_bind] in Hs; [|done].
  injection Hs as <- <- <-. destruct (IH _ _ _ _ _ H2 Hi) as (Hseen & Hl & Hu).
  destruct t as [op|y|j]; cbn [spec_istep] in H1.
  - destruct (spec_step k w op) as [[r w3]|]; cbn [mbind option_bind] in H1; [|done]. injection H1 as <- <- <-.
    split_and!; [done|done| |done]. intros j x p vs -> Hj. apply lookup_lt_Some in Hj. lia.
  - destruct (content w y); cbn [mbind option_bind] in H1; [|done]. injection H1 as <- <- <-.
    rewrite app_length in Hl. split_and!; [done|lia|done|done].
  - destruct (its !! j) as [it|] eqn:Hj; cbn [mbind option_bind] in H1; [|done]. pose proof (lookup_lt_Some _ _ _ Hj).
    assert (exists r it', o = ONext r /\ its1 = <[j := it']> its) as (r & it' & -> & ->).
    { destruct it as [z q|].
      - destruct (content w z) as [us|]; cbn [mbind option_bind] in H1; [|done].
        destruct (us !! q); injection H1 as <- <- <-; by eexists _, _.
      - injection H1 as <- <- <-. exists IStop, PEnd. split; [done|]. by rewrite list_insert_id. }
    rewrite insert_length in Hl. cbn [seen]. rewrite (proj2 (Nat.eqb_neq i j)) by lia. done.
Qed.

Lemma undisturbed_app T k ts1 ts2 : forall w its, undisturbed T k w its (ts1 ++ ts2) <->
  undisturbed T k w its ts1 /\
  match spec_irun k w its ts1 with Some (_, (w1, its1)) => undisturbed T k w1 its1 ts2 | None => True end.
Proof.
  induction ts1 as [|t ts1 IH]; intros w its; cbn [app undisturbed spec_irun]; [tauto|].
  destruct (spec_istep k w its t) as [[o [w1 its1]]|]; cbn [mbind option_bind]; [|tauto]. rewrite IH.
  destruct (spec_irun k w1 its1 ts1) as [[o1 [w2 its2]]|]; cbn [mbind option_bind]; tauto.
Qed.
