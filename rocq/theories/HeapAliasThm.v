(** * Heap arrays as lists in memory: proofs *)
From Verif Require Import Base HeapModel HeapSpec HeapThm HeapAliasModel HeapAliasSpec.
Local Open Scope py_scope.

Definition wf (m : mem) : Prop := own m < length (arrays m) /\ Forall (fun a => a < length (arrays m)) (held m).
Lemma wf0 : wf mem0.
Proof. split; [cbn; lia|constructor]. Qed.
Definition next (r : res mem hout) : option mem := match r with Ok _ m | Exc _ m => Some m | Diverge => None end.
Lemma own_next b op m m' : next (on_own b op m) = Some m' -> wf m ->
  exists h h', arrays m !! own m = Some h /\ m' = Mem (<[own m := h']> (arrays m)) (own m) (held m).
Proof.
  unfold on_own. intros Hn [Hw _]. destruct (lookup_lt_is_Some_2 _ _ Hw) as [h Hh]. rewrite Hh in Hn. exists h.
  destruct (heap_call b op h); cbn in Hn; [| |done]; injection Hn as <-; eauto.
Qed.
(** Every step is one of four: nothing, one list changed in place, the list given, a new list. *)
Inductive shape (op : aop) (m : mem) : mem -> Prop :=
| sh_same : takes op = false -> ~ clears op -> shape op m m
| sh_write a l : takes op = false -> ~ clears op -> a < length (arrays m) -> (changes_list op \/ a = own m) ->
    shape op m (Mem (<[a := l]> (arrays m)) (own m) (held m))
| sh_take : takes op = true -> ~ clears op -> shape op m (Mem (arrays m) (own m) (held m ++ [own m]))
| sh_clear : takes op = false -> clears op -> shape op m (Mem (arrays m ++ [[]]) (length (arrays m)) (held m)).
Lemma step_shape b op m m' : next (heap_program_step b op m) = Some m' -> wf m -> shape op m m'.
Proof.
  intros Hn Hw. destruct op as [op|i|i x|i j x]; cbn [heap_program_step] in Hn.
  - destruct op; try (destruct (own_next _ _ _ _ Hn Hw) as (h & h' & _ & ->); apply sh_write; [done|done|apply Hw|by right]).
    + destruct (lookup_lt_is_Some_2 _ _ (proj1 Hw)) as [h Hh]. rewrite Hh in Hn. injection Hn as <-. by apply sh_take.
    + injection Hn as <-. by apply sh_clear.
  - destruct (_ ≫= _); injection Hn as <-; by apply sh_same.
  - destruct (held m !! i) as [a|] eqn:E; injection Hn as <-; [|by apply sh_same].
    destruct Hw as [_ Hw]. rewrite Forall_forall in Hw. specialize (Hw a (elem_of_list_lookup_2 _ _ _ E)).
    destruct (lookup_lt_is_Some_2 _ _ Hw) as [l Hl].
    replace (alter _ a (arrays m)) with (<[a := l ++ [x]]> (arrays m)); [apply sh_write; by try left|].
    apply stdpp.list.list_eq. intros k.
    destruct (decide (k = a)) as [-> |Hk]; [by rewrite list_lookup_alter, Hl, list_lookup_insert|by rewrite list_lookup_alter_ne, list_lookup_insert_ne].
  - destruct (held m !! i) as [a|] eqn:E; [|injection Hn as <-; by apply sh_same]. destruct (arrays m !! a) eqn:Ea; [|injection Hn as <-; by apply sh_same].
    destruct (Nat.ltb _ _); injection Hn as <-; [|by apply sh_same]. apply sh_write; [done|done|by eapply lookup_lt_Some|by left].
Qed.
Lemma wf_next b op m m' : next (heap_program_step b op m) = Some m' -> wf m -> wf m'.
Proof.
  intros Hn Hw. destruct (step_shape _ _ _ _ Hn Hw) as [| | |]; destruct Hw as [Ho Hh]; split; cbn; rewrite ?insert_length, ?app_length; cbn; try done; try lia.
  - apply Forall_app. by repeat constructor.
  - eapply Forall_impl; [done|]. intros; cbn in *; lia.
Qed.

Lemma program_app b p q m : heap_program b m (p ++ q) =
  match heap_program b m p with
  | Some (rs, m') => match heap_program b m' q with Some (rs', m'') => Some (rs ++ rs', m'') | None => None end
  | None => None
  end.
Proof.
  revert m. induction p as [|op p IH]; intros m; cbn [heap_program app].
  { by destruct (heap_program b m q) as [[??]|]. }
  destruct (heap_program_step b op m) as [r m1|e m1|]; [| |done]; rewrite IH;
    destruct (heap_program b m1 p) as [[rs m2]|]; try done; by destruct (heap_program b m2 q) as [[??]|].
Qed.
(** Induction over the states a program goes through. *)
Lemma program_ind b (P : mem -> Prop) (ok : aop -> Prop) :
  (forall op m m', ok op -> wf m -> P m -> shape op m m' -> P m') ->
  forall p m rs m', Forall ok p -> wf m -> P m -> heap_program b m p = Some (rs, m') -> P m' /\ wf m'.
Proof.
  intros Hstep p. induction p as [|op p IH]; intros m rs m' Hok Hw HP Hr; cbn [heap_program] in Hr.
  { by injection Hr as <- <-. }
  inversion Hok as [|?? Ho Hok']; subst.
  assert (exists m1 rs1, next (heap_program_step b op m) = Some m1 /\ heap_program b m1 p = Some (rs1, m')) as (m1 & rs1 & Hn & Hr1).
  { destruct (heap_program_step b op m) as [r m1|e m1|]; [| |done]; exists m1; destruct (heap_program b m1 p) as [[? ?]|]; try done;
      injection Hr as <- <-; eauto. }
  eapply IH; [done| |eapply Hstep; [done|done|done|]|done]; [by eapply wf_next|by eapply step_shape].
Qed.
Lemma given_shape op m m' n : shape op m m' -> length (held m) = n -> length (held m') = n + given [op].
Proof. unfold given. rewrite filter_cons, filter_nil. destruct 1; intros <-; cbn; rewrite ?app_length; case_decide; cbn; first [lia|congruence]. Qed.
Lemma given_held b p m rs m' : wf m -> heap_program b m p = Some (rs, m') -> length (held m') = length (held m) + given p.
Proof.
  revert m rs. induction p as [|op p IH]; intros m rs Hw Hr; cbn [heap_program] in Hr.
  { injection Hr as <- <-. unfold given; cbn; lia. }
  assert (exists m1 rs1, next (heap_program_step b op m) = Some m1 /\ heap_program b m1 p = Some (rs1, m')) as (m1 & rs1 & Hn & Hr1).
  { destruct (heap_program_step b op m) as [r m1|e m1|]; [| |done]; exists m1; destruct (heap_program b m1 p) as [[? ?]|]; try done;
      injection Hr as <- <-; eauto. }
  pose proof (given_shape _ _ _ _ (step_shape _ _ _ _ Hn Hw) eq_refl) as H1.
  rewrite (IH _ _ (wf_next _ _ _ _ Hn Hw) Hr1), H1. unfold given. rewrite (filter_cons _ op p), filter_cons, filter_nil. case_decide; cbn; lia.
Qed.

Lemma last_app_one {A} (l : list A) x : list.last (l ++ [x]) = Some x.
Proof. apply last_snoc. Qed.
Lemma read_last b p op m0 : wf m0 ->
  match heap_program b m0 (p ++ [op]) with Some (rs, _) => list.last rs | None => None end =
  match heap_program b m0 p with
  | Some (_, m) => match heap_program_step b op m with Ok r _ => Some r | Exc e _ => Some (HExc e) | Diverge => None end
  | None => None end.
Proof.
  intros _. rewrite program_app. destruct (heap_program b m0 p) as [[rs m]|]; [|done]. cbn [heap_program].
  destruct (heap_program_step b op m); try done; apply last_app_one.
Qed.
Lemma program_total b p : forall m, exists rs m', heap_program b m p = Some (rs, m').
Proof.
  induction p as [|op p IH]; intros m; cbn [heap_program]; [eauto|].
  assert (heap_program_step b op m <> Diverge) as Hn.
  { destruct op as [c|i|i x|i j x]; cbn [heap_program_step]; [|by repeat case_match..].
    assert (on_own b c m <> Diverge); [|destruct c; try done; by case_match].
    unfold on_own. destruct (arrays m !! own m) as [h|]; [|done].
    destruct (calls_weak b [c] h) as (rs & h' & Hc & _). cbn [heap_calls] in Hc. by destruct (heap_call b c h). }
  destruct (heap_program_step b op m) as [r m1|e m1|]; [| |done]; destruct (IH m1) as (rs & m' & ->); eauto.
Qed.
(** A list taken since the last [clear] is the heap's own. *)
Lemma shared b p1 p2 : Forall (fun op => ~ clears op) p2 ->
  final_answer b (p1 ++ ACall HToList :: p2 ++ [ARead (given p1)]) = final_answer b (p1 ++ ACall HToList :: p2 ++ [ACall HToList]).
Proof.
  intros Hp. unfold final_answer.
  assert (forall op, p1 ++ ACall HToList :: p2 ++ [op] = (p1 ++ ACall HToList :: p2) ++ [op]) as E by (intros; by rewrite <- app_assoc).
  rewrite !E, !read_last by apply wf0. clear E. rewrite program_app.
  destruct (heap_program b mem0 p1) as [[rs m]|] eqn:E1; [|done].
  destruct (program_ind b (fun _ => True) (fun _ => True) ltac:(done) p1 mem0 rs m ltac:(by apply Forall_true) wf0 I E1) as [_ Hw].
  pose proof (given_held _ _ _ _ _ wf0 E1) as Hg. cbn [held mem0 length Nat.add] in Hg. rewrite <- Hg.
  cbn [heap_program heap_program_step]. destruct (lookup_lt_is_Some_2 _ _ (proj1 Hw)) as [h Hh]. rewrite Hh.
  set (m1 := Mem _ _ _). destruct (heap_program b m1 p2) as [[rs2 m2]|] eqn:E2; [|done].
  assert (wf m1) as Hw1. { destruct Hw. split; [done|]. cbn. apply Forall_app. by repeat constructor. }
  destruct (program_ind b (fun x => held x !! length (held m) = Some (own x)) (fun op => ~ clears op)) with (p := p2) (m := m1) (rs := rs2) (m' := m2) as [HP Hw2].
  - intros op x x' Ho Hx Hl Hs. destruct Hs; cbn; try done. by apply lookup_app_l_Some.
  - done.
  - done.
  - cbn. by rewrite lookup_app_r, Nat.sub_diag.
  - done.
  - rewrite HP. cbn [mbind option_bind]. by destruct (lookup_lt_is_Some_2 _ _ (proj1 Hw2)) as [l ->].
Qed.
(** One taken before a [clear] is out of the heap's reach. *)
Lemma detached b p1 p2 i : i < given p1 -> Forall (fun op => ~ changes_list op) p2 ->
  final_answer b (p1 ++ ACall HClear :: p2 ++ [ARead i]) = final_answer b (p1 ++ [ARead i]).
Proof.
  intros Hi Hp. unfold final_answer.
  assert (p1 ++ ACall HClear :: p2 ++ [ARead i] = (p1 ++ ACall HClear :: p2) ++ [ARead i]) as -> by by rewrite <- app_assoc.
  rewrite !read_last by apply wf0. rewrite program_app.
  destruct (heap_program b mem0 p1) as [[rs m]|] eqn:E1; [|done].
  destruct (program_ind b (fun _ => True) (fun _ => True) ltac:(done) p1 mem0 rs m ltac:(by apply Forall_true) wf0 I E1) as [_ Hw].
  pose proof (given_held _ _ _ _ _ wf0 E1) as Hg. cbn [held mem0 length Nat.add] in Hg.
  destruct (lookup_lt_is_Some_2 (held m) i) as [a Ha]; [lia|].
  pose proof (proj1 (Forall_forall _ _) (proj2 Hw) a (elem_of_list_lookup_2 _ _ _ Ha)) as Hlt. cbn in Hlt.
  destruct (lookup_lt_is_Some_2 _ _ Hlt) as [l Hl].
  cbn [heap_program heap_program_step]. set (m1 := Mem _ _ _). destruct (program_total b p2 m1) as (rs2 & m2 & E2). rewrite E2.
  assert (wf m1) as Hw1. { destruct Hw as [H1 H2]. split; cbn; rewrite app_length; cbn; [lia|]. eapply Forall_impl; [done|]. cbn; intros; lia. }
  destruct (program_ind b (fun x => held x !! i = Some a /\ arrays x !! a = Some l /\ a < own x) (fun op => ~ changes_list op)) with (p := p2) (m := m1) (rs := rs2) (m' := m2) as [(HP & HQ & _) Hw2].
  - intros op x x' Ho Hx (H1 & H2 & H3) Hs. destruct Hs as [|a' l' ??? [?| ->]| |]; cbn; try done.
    + rewrite list_lookup_insert_ne by lia. done.
    + split; [by apply lookup_app_l_Some|done].
    + split; [done|]. apply lookup_lt_Some in H2 as Hb. split; [by apply lookup_app_l_Some|done].
  - done.
  - done.
  - cbn. split; [done|]. split; [by apply lookup_app_l_Some|lia].
  - done.
  - rewrite HP, Ha. cbn [mbind option_bind]. by rewrite HQ, Hl.
Qed.
(** A program that only reads its lists leaves the heap as a value. *)
Lemma unchanged b p m rs m' h : wf m -> arrays m !! own m = Some h -> Forall (fun op => ~ changes_list op) p ->
  heap_program b m p = Some (rs, m') ->
  exists h', heap_calls b h (calls_made p) = Some (answers_of_calls p rs, h') /\ arrays m' !! own m' = Some h'.
Proof.
  revert m rs h. induction p as [|op p IH]; intros m rs h Hw Hh Hp Hr; cbn [heap_program] in Hr.
  { injection Hr as <- <-. by exists h. }
  inversion Hp as [|?? Ho Hp']; subst.
  assert (forall m1, next (heap_program_step b op m) = Some m1 -> wf m1) as Hw1 by (intros; by eapply wf_next).
  assert (exists r m1 rs1, rs = r :: rs1 /\ heap_program b m1 p = Some (rs1, m') /\
     (heap_program_step b op m = Ok r m1 \/ exists e, r = HExc e /\ heap_program_step b op m = Exc e m1)) as (r & m1 & rs1 & -> & Hr1 & Hs).
  { destruct (heap_program_step b op m) as [r m1|e m1|]; [| |done]; destruct (heap_program b m1 p) as [[? ?]|] eqn:E; try done;
      injection Hr as <- <-; [exists r, m1|exists (HExc e), m1]; eexists; (split; [done|]); (split; [done|]); [by left|right; by eexists]. }
  assert (wf m1) as Hwm. { apply Hw1. destruct Hs as [->|(?&_&->)]; done. }
  destruct op as [c|i|i x|i j x]; try done.
  - assert (exists h1, arrays m1 !! own m1 = Some h1 /\ (heap_call b c h = Ok r h1 \/ exists e, r = HExc e /\ heap_call b c h = Exc e h1)) as (h1 & Hh1 & Hc).
    { cbn [heap_program_step] in Hs. unfold on_own in Hs. rewrite Hh in Hs.
      destruct c; try (destruct (heap_call b _ h) as [r' h'|e' h'|] eqn:Ec; destruct Hs as [Hs|(e & -> & Hs)]; try done; injection Hs as <- <-;
        exists h'; cbn; (split; [by rewrite list_lookup_insert by apply Hw|by eauto])).
      - destruct Hs as [Hs|(e & -> & Hs)]; [|done]. injection Hs as <- <-. exists h. split; [done|by left].
      - destruct Hs as [Hs|(e & -> & Hs)]; [|done]. injection Hs as <- <-. exists []. cbn.
        split; [by rewrite lookup_app_r, Nat.sub_diag|by left]. }
    destruct (IH _ _ _ Hwm Hh1 Hp' Hr1) as (h' & Hcs & Hfin). exists h'. split; [|done].
    change (calls_made (ACall c :: p)) with (c :: calls_made p). change (answers_of_calls (ACall c :: p) (r :: rs1)) with (r :: answers_of_calls p rs1).
    cbn [heap_calls]. destruct Hc as [->|(e & -> & ->)]; by rewrite Hcs.
  - assert (m1 = m) as ->. { cbn [heap_program_step] in Hs. destruct (_ ≫= _); destruct Hs as [Hs|(e & -> & Hs)]; by simplify_eq. }
    exact (IH _ _ _ Hwm Hh Hp' Hr1).
Qed.
