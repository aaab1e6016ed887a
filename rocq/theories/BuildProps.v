(** * Property C51: search trees and skip lists built from an iterable *)
From Coq Require Import Sorted.
From Verif Require Import Base NumOrd ListModel TreeModel TreeSpec BstModel BalModel BstSpec BstPure BstThm
  SkipModel SkipSpec SkipThm SkipThm2 SkipThm3 BstProps AvlProps SplayProps TreapProps RbProps SkipProps BuildModel.
Local Open Scope py_scope.

(** The items are numbers. *)
Definition all_numbers {A} (items : list (pyval * A)) : Prop := Forall (fun i => exists x, i.1 = PNum x) items.
(** The exception for an item that is not a number. *)
Definition item_error (v : pyval) : exn := match v with PNone => ValueError | _ => TypeError end.

Lemma insertions_set c os : no_removals os -> behaves_as_set c os.
Proof.
  intros H. destruct c.
  - by apply C24_insertions_implement_a_set.
  - by apply C26_insertions_implement_a_set.
  - by apply C30_insertions_implement_a_set.
  - by apply C29_insertions.
  - by apply C32_insertions_implement_a_set.
Qed.
Definition item_ops (items : list (pyval * Z)) : list top := map (fun i => TInsert i.1 (Drawn i.2)) items.
Lemma item_ops_no_removals items : no_removals (item_ops items).
Proof. apply Forall_map, Forall_true. done. Qed.
Lemma calls_app c os1 os2 : forall s, calls c (os1 ++ os2) s =
  match calls c os1 s with
  | Some (rs1, s1) => match calls c os2 s1 with Some (rs2, s2) => Some (rs1 ++ rs2, s2) | None => None end
  | None => None
  end.
Proof.
  induction os1 as [|o os1 IH]; intros s; cbn [app calls].
  - by destruct (calls c os2 s) as [[]|].
  - destruct (call c o s) as [[r s1]|]; [|done]. rewrite IH. destruct (calls c os1 s1) as [[rs1 s2]|]; [|done].
    by destruct (calls c os2 s2) as [[]|].
Qed.
Lemma insert_all_calls c items : forall s rs s' l, all_numbers items ->
  calls c (item_ops items) s = Some (rs, s') -> answers c (item_ops items) l rs -> insert_all c items s = Ok tt s'.
Proof.
  induction items as [|[v d] items IH]; intros s rs s' l HN E HA.
  - by injection E as <- <-.
  - apply Forall_cons in HN as [(x & Hx) HN]. cbn in Hx. subst v. cbn [item_ops map calls fst snd] in E.
    destruct (call c (TInsert (PNum x) (Drawn d)) s) as [[r s1]|] eqn:Ec; [|done].
    destruct (calls c (item_ops items) s1) as [[rs' s2]|] eqn:Er; [|by unfold item_ops in Er; rewrite Er in E].
    unfold item_ops in Er. rewrite Er in E. injection E as <- <-. cbn [item_ops map answers fst snd] in HA. destruct HA as [HA1 HA2].
    cbn [answer next] in HA1, HA2. rewrite prio_drawn in HA1, HA2.
    unfold call in Ec. cbn [exec] in Ec. cbn [insert_all]. unfold bind in Ec |- *.
    destruct (tree_insert c (PNum x) (Drawn d) s) as [w s1'|e s1'|] eqn:Ei; [|congruence|done].
    unfold ret in Ec. injection Ec as <- <-. eapply IH; [done| |exact HA2]. done.
Qed.
Lemma item_ops_elem c items : forall l, all_numbers items -> increasing l ->
  increasing (set_after c (item_ops items) l) /\
  forall x, x ∈ set_after c (item_ops items) l <-> PNum x ∈ items.*1 \/ x ∈ l.
Proof.
  induction items as [|[v d] items IH]; intros l HN Hl; cbn [item_ops map set_after].
  - split; [done|]. intros x. cbn. set_solver.
  - apply Forall_cons in HN as [(y & Hy) HN]. cbn in Hy. subst v. cbn [next fst snd]. rewrite prio_drawn.
    destruct (IH (set_add y l) HN (set_add_inc _ _ Hl)) as [H1 H2]. split; [done|]. intros x. unfold item_ops in H2. rewrite H2, elem_set_add.
    change ((PNum y, d) :: items).*1 with (PNum y :: items.*1). rewrite elem_of_cons. split; [intros [?|[->|?]]; auto|].
    intros [[[= ->]|?]|?]; auto.
Qed.

(** ** The trees *)
(** A tree built from numbers holds exactly them, and all further calls (but removals, see
    C25, C27, C28, C29, C31, C34) answer as the set of them. *)
Theorem C51_constructor c items : all_numbers items ->
  exists s l, tree_new c items = Ok s tt /\ increasing l /\ (forall x, x ∈ l <-> PNum x ∈ items.*1) /\
    forall os, no_removals os -> exists rs s', calls c os s = Some (rs, s') /\ answers c os l rs.
Proof.
  intros HN. destruct (insertions_set c (item_ops items) (item_ops_no_removals items)) as (rs & s & t & E & HA & _).
  destruct (item_ops_elem c items [] HN ltac:(constructor)) as [Hi Hel].
  exists s, (set_after c (item_ops items) []). split; [|split; [done|split]].
  - unfold tree_new. by rewrite (insert_all_calls c items _ _ _ _ HN E HA).
  - intros x. rewrite Hel. set_solver.
  - intros os Hos. destruct (insertions_set c (item_ops items ++ os)) as (rs' & s' & t' & E' & HA' & _).
    { apply Forall_app. split; [apply item_ops_no_removals|done]. }
    unfold history in E, E'. rewrite calls_app, E in E'. destruct (calls c os s) as [[rs2 s2]|]; [|done].
    injection E' as <- <-. apply answers_app in HA' as (r1 & r2 & Er & HA1 & HA2 & Hlen).
    exists rs2, s2. split; [done|]. apply app_inj_1 in Er as [-> ->]; [done|].
    by rewrite Hlen, (answers_length _ _ _ _ HA).
Qed.
Print Assumptions C51_constructor.
(** Sorting: the inorder traversal is the increasing list of the items, without repetitions,
    whatever their order, their multiplicity, the class of the tree and the draws. *)
Theorem C51_sorts c items : all_numbers items -> exists s l s',
  tree_new c items = Ok s tt /\ call c (TTraverse (PStr s_inorder)) s = Some (OVals l, s') /\
  StronglySorted (fun a b => num_ltb a b = true) l /\ (forall x, x ∈ l <-> PNum x ∈ items.*1).
Proof.
  intros HN. destruct (C51_constructor c items HN) as (s & l & E & Hi & Hel & Hos).
  destruct (Hos [TTraverse (PStr s_inorder)]) as (rs & s' & E' & HA); [by repeat constructor|].
  destruct rs as [|r [|]]; try done; [|by destruct HA]. cbn [answers answer] in HA. rewrite decide_True in HA by done.
  destruct HA as [-> _]. exists s, l, s'. split; [done|]. split; [|done]. cbn [calls] in E'.
  destruct (call c (TTraverse (PStr s_inorder)) s) as [[r s1]|]; [|done]. by injection E' as -> ->.
Qed.
Print Assumptions C51_sorts.
Theorem C51_order_irrelevant c c' items items' : all_numbers items -> all_numbers items' ->
  (forall x, PNum x ∈ items.*1 <-> PNum x ∈ items'.*1) ->
  exists s s' l s1 s1', tree_new c items = Ok s tt /\ tree_new c' items' = Ok s' tt /\
    call c (TTraverse (PStr s_inorder)) s = Some (OVals l, s1) /\
    call c' (TTraverse (PStr s_inorder)) s' = Some (OVals l, s1').
Proof.
  intros HN HN' Heq. destruct (C51_sorts c items HN) as (s & l & s1 & E & E1 & Hs & Hel).
  destruct (C51_sorts c' items' HN') as (s' & l' & s1' & E' & E1' & Hs' & Hel').
  assert (l = l') as <-; [|by exists s, s', l, s1, s1'].
  clear -Hs Hs' Hel Hel' Heq. assert (forall x, x ∈ l <-> x ∈ l') as H by (intros x; by rewrite Hel, Hel').
  clear -Hs Hs' H. revert l' Hs' H. induction l as [|x l IH]; intros [|y l'] Hs' H.
  - done.
  - exfalso. apply (not_elem_of_nil y), H. left.
  - exfalso. apply (not_elem_of_nil x), H. left.
  - apply StronglySorted_inv in Hs as [Hs Hx]. apply StronglySorted_inv in Hs' as [Hs' Hy]. rewrite Forall_forall in Hx, Hy.
    assert (x = y) as ->.
    { destruct (proj1 (elem_of_cons _ _ _) (proj1 (H x) (elem_of_list_here _ _))) as [->|Hxl]; [done|].
      destruct (proj1 (elem_of_cons _ _ _) (proj2 (H y) (elem_of_list_here _ _))) as [->|Hyl]; [done|].
      apply Hy in Hxl. apply Hx in Hyl. exfalso. by eapply num_lt_irrefl, num_lt_trans. }
    f_equal. apply IH; [done..|]. intros z. specialize (H z). rewrite !elem_of_cons in H. split; intros Hz.
    + destruct (proj1 H (or_intror Hz)) as [->|?]; [|done]. apply Hx in Hz. by apply num_lt_irrefl in Hz.
    + destruct (proj2 H (or_intror Hz)) as [->|?]; [|done]. apply Hy in Hz. by apply num_lt_irrefl in Hz.
Qed.
Print Assumptions C51_order_irrelevant.
(** The first item that is not a number is refused: ValueError for None, TypeError otherwise. *)
Theorem C51_rejects c pre v d post : all_numbers pre -> (forall x, v <> PNum x) ->
  tree_new c (pre ++ (v, d) :: post) = Exc (item_error v) tt.
Proof.
  intros HN Hv. destruct (insertions_set c (item_ops (pre ++ [(v, d)])) (item_ops_no_removals _)) as (rs & s & t & E & HA & _).
  unfold item_ops in E, HA. rewrite map_app in E, HA. unfold history in E. rewrite calls_app in E.
  destruct (calls c (map (fun i => TInsert i.1 (Drawn i.2)) pre) tst0) as [[rs1 s1]|] eqn:E1; [|done].
  cbn [map calls fst snd] in E. destruct (call c (TInsert v (Drawn d)) s1) as [[r s2]|] eqn:E2; [|done].
  injection E as <- <-. apply answers_app in HA as (r1 & r2 & Er & HA1 & HA2 & Hlen).
  assert (length rs1 = length pre) as Hlen1.
  { destruct (insertions_set c (item_ops pre) (item_ops_no_removals _)) as (rs' & s' & t' & E' & HA' & _).
    unfold history, item_ops in E'. rewrite E1 in E'. injection E' as <- <-. apply answers_length in HA'. rewrite HA'. unfold item_ops. by rewrite map_length. }
  rewrite map_length in Hlen. apply app_inj_1 in Er as [<- <-]; [|lia]. destruct HA2 as [HA2 _].
  assert (insert_all c pre tst0 = Ok tt s1) as Ep by (by eapply insert_all_calls).
  assert (exists s3, tree_insert c v (Drawn d) s1 = Exc (item_error v) s3) as (s3 & E3).
  { unfold call in E2. cbn [exec] in E2. unfold bind in E2. cbn [fst snd answer] in HA2.
    destruct (tree_insert c v (Drawn d) s1) as [w s3|e s3|]; [| |done].
    - unfold ret in E2. injection E2 as <- <-. destruct v; try done. by destruct (Hv n).
    - injection E2 as <- <-. exists s3. f_equal. destruct v; cbn in HA2 |- *; try congruence. by destruct (Hv n). }
  unfold tree_new. assert (insert_all c (pre ++ (v, d) :: post) tst0 = Exc (item_error v) s3) as ->; [|done].
  clear -Ep E3. revert Ep. generalize tst0. induction pre as [|[y dy] pre IH]; intros s Ep; cbn [app insert_all] in *.
  - injection Ep as ->. unfold bind. by rewrite E3.
  - unfold bind in *. destruct (tree_insert c y (Drawn dy) s) as [w s'|e s'|]; [|done|done]. by apply IH.
Qed.
Print Assumptions C51_rejects.
Definition C51_items : list (pyval * Z) := [(PInt 8, 5); (PInt 5, 3); (PInt 8, 1); (PNum PosInf, 9); (PInt (-2), 7)]%Z.
Example C51_example : all_numbers C51_items /\
  Forall (fun c => exists s s', tree_new c C51_items = Ok s tt /\
    call c (TTraverse (PStr s_inorder)) s = Some (OVals [Fin (-2); Fin 5; Fin 8; PosInf]%Z, s'))
    [CBST; CAVL; CSplay; CTreap; CRB].
Proof.
  split; [repeat constructor; by eexists|]. repeat constructor; eexists _, _; split; by vm_compute.
Qed.
Example C51_rejects_example : all_numbers [(PInt 1, 0%Z)] /\ (forall x, PNone <> PNum x) /\ tree_new CRB [(PInt 1, 0%Z); (PNone, 0%Z)] = Exc ValueError tt.
Proof. split; [repeat constructor; by eexists|]. split; [done|]. by vm_compute. Qed.

(** ** SkipList *)
Definition skip_ops (items : list (pyval * nat)) : list skop := map (fun i => KInsert i.1 i.2) items.
Lemma skip_insert_all_calls items : forall self s rs s' A, all_numbers items ->
  kcalls (map (pair self) (skip_ops items)) s = Some (rs, s') -> rs = tanswers (skip_ops items) A ->
  skip_insert_all self items s = Ok tt s'.
Proof.
  induction items as [|[v h] items IH]; intros self s rs s' A HN E HA.
  - by injection E as <- <-.
  - apply Forall_cons in HN as [(x & Hx) HN]. cbn in Hx. subst v. cbn [skip_ops map kcalls fst snd] in E.
    destruct (kcall self (KInsert (PNum x) h) s) as [[r s1]|] eqn:Ec; [|done].
    destruct (kcalls (map (pair self) (skip_ops items)) s1) as [[rs' s2]|] eqn:Er; unfold skip_ops in Er; rewrite Er in E; [|done].
    injection E as <- <-. cbn [skip_ops map tanswers tanswer fst snd] in HA. injection HA as -> HA.
    unfold kcall in Ec. cbn [kexec] in Ec. cbn [skip_insert_all]. unfold bind in Ec |- *.
    destruct (sl_insert self (PNum x) h s) as [w s1'|e s1'|] eqn:Ei; [|congruence|done].
    unfold ret in Ec. injection Ec as <-. eapply IH; [done|exact Er|exact HA].
Qed.
Lemma tput_sorted x h A : StronglySorted nlt (elems A) -> StronglySorted nlt (elems (tput x h A)).
Proof.
  intros HS. destruct (tower_cases x A HS) as [(A1 & A2 & -> & H1 & H2 & ->)|(A1 & k & A2 & -> & H1 & H2 & ->)]; [|done].
  unfold elems in *. rewrite map_app in *. cbn [map fst].
  induction H1 as [|p A1 Hp H1 IH]; cbn [map app] in *.
  - constructor; [done|]. apply Forall_map. eapply Forall_impl; [exact H2|]. done.
  - apply StronglySorted_inv in HS as [HS HF]. constructor; [by apply IH|]. apply Forall_app in HF as [? ?].
    apply Forall_app. split; [done|]. by constructor.
Qed.
(** A SkipList built from numbers (not -inf, see C18) answers every further call as the
    sorted set of them. *)
Theorem C51_skip_list_constructor items : all_numbers items -> PNum NegInf ∉ items.*1 ->
  exists self s A, skip_new items = Ok (self, s) tt /\
    StronglySorted (fun a b => num_ltb a b = true) (elems A) /\ (forall x, x ∈ elems A <-> PNum x ∈ items.*1) /\
    forall os, Forall avoids_neg_inf os -> exists s', kcalls (map (pair self) os) s = Some (tanswers os A, s').
Proof.
  intros HN Hinf. assert (Forall avoids_neg_inf (skip_ops items)) as Hav.
  { apply Forall_map, Forall_forall. intros i Hi. cbn. intros E. apply Hinf. rewrite <- E. by apply elem_of_list_fmap_1. }
  destruct (history_ok (skip_ops items) Hav) as (s & E & HG).
  destruct (C17_increasing (skip_ops items) Hav) as (rs & xs & sx & Ex & Hxs).
  unfold khistory in E, Ex. destruct new_ok as (s0 & E0 & HG0). rewrite E0 in E, Ex.
  exists 0, s, (tafter (skip_ops items) []). split; [|split; [|split]].
  - unfold skip_new. rewrite (bind_ok _ _ _ _ _ E0). by rewrite (bind_ok _ _ _ _ _ (skip_insert_all_calls _ _ _ _ _ _ HN E eq_refl)).
  - by eapply good_sorted.
  - assert (forall A, StronglySorted (fun a b => num_ltb a b = true) (elems A) ->
      forall x, x ∈ elems (tafter (skip_ops items) A) <-> PNum x ∈ items.*1 \/ x ∈ elems A) as H.
    { clear -HN. induction items as [|[v h] items IH]; intros A HS x; cbn [skip_ops map tafter].
      - cbn. set_solver.
      - apply Forall_cons in HN as [(y & Hy) HN]. cbn in Hy. subst v. cbn [tnext fst snd].
        assert (StronglySorted (fun a b => num_ltb a b = true) (elems (tput y h A))) as HS' by (by apply tput_sorted).
        unfold skip_ops in IH. rewrite (IH HN _ HS' x), (proj1 (C17_set_laws A x y h HS)).
        change ((PNum y, h) :: items).*1 with (PNum y :: items.*1). rewrite elem_of_cons. split; [intros [?|[->|?]]; auto|].
        intros [[[= ->]|?]|?]; auto. }
    intros x. rewrite (H [] ltac:(constructor) x). cbn. set_solver.
  - intros os Hos. destruct (calls_ok 0 os s _ HG Hos) as (s' & E' & _). by exists s'.
Qed.
Print Assumptions C51_skip_list_constructor.
Theorem C51_skip_list_rejects pre v h post : all_numbers pre -> PNum NegInf ∉ pre.*1 -> (forall x, v <> PNum x) ->
  skip_new (pre ++ (v, h) :: post) = Exc (item_error v) tt.
Proof.
  intros HN Hinf Hv. assert (Forall avoids_neg_inf (skip_ops pre)) as Hav.
  { apply Forall_map, Forall_forall. intros i Hi. cbn. intros E. apply Hinf. rewrite <- E. by apply elem_of_list_fmap_1. }
  destruct (history_ok (skip_ops pre) Hav) as (s & E & HG). destruct new_ok as (s0 & E0 & _). unfold khistory in E. rewrite E0 in E.
  pose proof (skip_insert_all_calls _ _ _ _ _ _ HN E eq_refl) as Ep. unfold skip_new. rewrite (bind_ok _ _ _ _ _ E0).
  assert (exists s3, skip_insert_all 0 (pre ++ (v, h) :: post) s0 = Exc (item_error v) s3) as (s3 & E3); [|by rewrite (bind_exc _ _ _ _ _ E3)].
  clear -Ep Hv. revert s0 Ep. induction pre as [|[y hy] pre IH]; intros s0 Ep; cbn [app skip_insert_all] in *.
  - exists s0. unfold sl_insert. destruct v; try done. by destruct (Hv n).
  - unfold bind in *. destruct (sl_insert 0 y hy s0) as [w s'|e s'|]; [|done|done]. by apply IH.
Qed.
Print Assumptions C51_skip_list_rejects.
Definition C51_skip_items : list (pyval * nat) := [(PInt 8, 2); (PInt 5, 0); (PInt 8, 1); (PInt (-2), 1)].
Example C51_skip_example : all_numbers C51_skip_items /\ PNum NegInf ∉ C51_skip_items.*1 /\
  exists s s', skip_new C51_skip_items = Ok (0, s) tt /\ kcalls [(0, KToList)] s = Some ([KVals [PInt (-2); PInt 5; PInt 8]], s').
Proof.
  split; [repeat constructor; by eexists|]. split; [apply (bool_decide_unpack _); by vm_compute|]. eexists _, _. split; by vm_compute.
Qed.
