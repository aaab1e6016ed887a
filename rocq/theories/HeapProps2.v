(** * C37 for whole histories: exactly which histories keep a heap in order.

    Specification: HeapSpec.v and the two definitions below. *)
From Verif Require Import Base NumOrd HeapModel HeapSpec HeapThm HeapProps.
Local Open Scope py_scope.

(** On a heap that holds [h], the call [op] takes out the value [x]. *)
Inductive takes (h : list num) : hop -> num -> Prop :=
| takes_value x : x ∈ h -> takes h (HRemove (PNum x)) x
| takes_min x : is_min x h -> takes h HRemoveMin x
| takes_max x : is_max x h -> takes h HRemoveMax x.
(** At every removal of the history, the last element of the array may take the place of
    the removed one. *)
Definition removals_fit (b : bool) (ops : list hop) : Prop :=
  forall pre op post rs h x i, ops = pre ++ op :: post -> heap_calls b [] pre = Some (rs, h) ->
    takes h op x -> first_at h x i -> slot_fits b h i.
(** After every call of the history the array is heap-ordered. *)
Definition ordered_throughout (b : bool) (ops : list hop) : Prop :=
  forall pre post rs h, ops = pre ++ post -> heap_calls b [] pre = Some (rs, h) -> heap_ordered b h.

(** ** One call *)
Lemma first_at_unique h x i j : first_at h x i -> first_at h x j -> i = j.
Proof.
  intros [H1 H2] [H3 H4]. destruct (Nat.lt_trichotomy i j) as [H|[H|H]]; [|done|]; exfalso; [by apply (H4 i)|by apply (H2 j)].
Qed.
Lemma first_at_exists h x : x ∈ h -> exists i, first_at h x i.
Proof.
  intros Hx. destruct (index_of x h) as [i|] eqn:E; [|by apply index_of_None in E]. exists i. clear Hx. revert i E.
  induction h as [|y h IH]; intros i; [done|]. cbn. case_bool_decide as Hy.
  - intros [= <-]. subst. split; [done|]. intros j. lia.
  - destruct (index_of x h) as [k|]; [|done]. intros [= <-]. destruct (IH k eq_refl) as [H1 H2]. split; [done|].
    intros [|j] Hj; cbn; [congruence|]. apply H2. lia.
Qed.
Lemma min_unique x y h : is_min x h -> is_min y h -> x = y.
Proof. intros [H1 H2] [H3 H4]. rewrite Forall_forall in H2, H4. by apply num_le_antisym; auto. Qed.
Lemma max_unique x y h : is_max x h -> is_max y h -> x = y.
Proof. intros [H1 H2] [H3 H4]. rewrite Forall_forall in H2, H4. by apply num_le_antisym; auto. Qed.
Lemma takes_in h op x : takes h op x -> x ∈ h.
Proof. by intros [? ?|? [? _]|? [? _]]. Qed.
Lemma takes_unique h op x y : takes h op x -> takes h op y -> x = y.
Proof. intros Hx Hy. inversion Hx; subst; inversion Hy; subst; [done|by eapply min_unique|by eapply max_unique]. Qed.

Definition fits_now (b : bool) (op : hop) (h : list num) : Prop :=
  forall x i, takes h op x -> first_at h x i -> slot_fits b h i.
(** A call that removes [x] by the general removal. *)
Lemma removal_step b op h x : heap_ordered b h -> takes h op x ->
  heap_call b op h = (let! w := heap_remove b (PNum x) in ret (HRet w)) h ->
  exists r h', heap_call b op h = Ok r h' /\ heap_may h op r h' /\ (heap_ordered b h' <-> fits_now b op h).
Proof.
  intros Hh Ht E. destruct (first_at_exists h x (takes_in _ _ _ Ht)) as [i Hi]. destruct (remove_order b h x i Hh Hi) as (h' & Hr & Hp & Ho).
  exists (HRet false), h'. rewrite E, (bind_ok _ _ _ _ _ Hr). split; [done|]. split.
  - inversion Ht; subst; [by constructor|by econstructor|by econstructor].
  - rewrite Ho. split.
    + intros Hs y j Hy Hj. rewrite (takes_unique _ _ _ _ Hy Ht) in Hj. by rewrite (first_at_unique _ _ _ _ Hj Hi).
    + intros Hf. by apply (Hf x i).
Qed.
Lemma quiet_step b op h : heap_ordered b h -> top_only b op -> (forall x, ~ takes h op x) ->
  exists r h', (heap_call b op h = Ok r h' \/ exists e, r = HExc e /\ heap_call b op h = Exc e h') /\ heap_may h op r h' /\ (heap_ordered b h' <-> fits_now b op h).
Proof.
  intros Hh Ht Hno. apply hord_heap_ordered in Hh. destruct (call_exact b op h Hh Ht) as (h' & Hc & Ho). apply hord_heap_ordered in Ho.
  assert (heap_ordered b h' <-> fits_now b op h) as Hi. { split; [|done]. intros _ x i Hx. by destruct (Hno x). }
  destruct Hc as [(r & E & Hm)|(e & E & Hm)]; [exists r, h'|exists (HExc e), h']; split_and!; eauto.
Qed.
Lemma step_iff b op h : heap_ordered b h ->
  exists r h', (heap_call b op h = Ok r h' \/ exists e, r = HExc e /\ heap_call b op h = Exc e h') /\ heap_may h op r h' /\ (heap_ordered b h' <-> fits_now b op h).
Proof.
  intros Hh. destruct (decide (h = [])) as [->|Hne].
  { assert (forall x, ~ takes [] op x) as Hno. { intros x Hx%takes_in. by apply elem_of_nil in Hx. }
    destruct op; try (by apply quiet_step).
    - exists (HRet true), []. split; [left; by destruct v|]. split; [constructor; [intros n _; apply not_elem_of_nil|done]|].
      split; [|done]. intros _ x i Hx. by destruct (Hno x).
    - exists (HExc IndexError), []. split; [right; exists IndexError; by destruct b|]. split; [constructor; [set_solver|done..]|]. split; [|done]. intros _ x i Hx. by destruct (Hno x).
    - exists (HExc IndexError), []. split; [right; exists IndexError; by destruct b|]. split; [constructor; [set_solver|done..]|]. split; [|done]. intros _ x i Hx. by destruct (Hno x). }
  pose proof (proj2 (hord_heap_ordered b h) Hh) as Hord.
  destruct (top_member b h Hne) as (x & Hx1 & Hx2). pose proof (is_best b x h ltac:(by eapply elem_of_list_lookup_2) (hord_top b h x Hord Hx2)) as Htop.
  destruct (get_bottom_spec b h Hne) as (y & Hy1 & Hy2 & Hy3). pose proof (is_best (negb b) y h Hy2 (Hy3 Hord)) as Hbot.
  assert (forall op x, takes h op x -> heap_call b op h = (let! w := heap_remove b (PNum x) in ret (HRet w)) h ->
    exists r h', (heap_call b op h = Ok r h' \/ exists e, r = HExc e /\ heap_call b op h = Exc e h') /\ heap_may h op r h' /\ (heap_ordered b h' <-> fits_now b op h)) as HR.
  { intros op' z Hz E. destruct (removal_step b op' h z Hh Hz E) as (r & h' & H1 & H2 & H3). exists r, h'. split; [by left|]. by split. }
  destruct op; try (apply quiet_step; [done|done|intros z Hz; by inversion Hz]).
  - destruct (member_or_not v h) as [(n & -> & Hn)|Hn].
    + apply (HR (HRemove (PNum n)) n); [by constructor|done].
    + exists (HRet true), h. split; [left; cbn; by rewrite (bind_ok _ _ _ _ _ (heap_remove_absent b v h Hn))|]. split; [by constructor|].
      split; [|done]. intros _ z i Hz. inversion Hz; subst. by destruct (Hn z).
  - destruct b.
    + apply (HR HRemoveMin x); [by constructor|]. cbn [heap_call]. unfold heap_remove_min, heap_get_min, bind. by rewrite Hx1.
    + apply (HR HRemoveMin y); [by constructor|]. cbn [heap_call]. unfold heap_remove_min, heap_get_min, bind. by rewrite Hy1.
  - destruct b.
    + apply (HR HRemoveMax y); [by constructor|]. cbn [heap_call]. unfold heap_remove_max, heap_get_max, bind. by rewrite Hy1.
    + apply (HR HRemoveMax x); [by constructor|]. cbn [heap_call]. unfold heap_remove_max, heap_get_max, bind. by rewrite Hx1.
Qed.
Lemma calls_app b a : forall h d, heap_calls b h (a ++ d) =
  match heap_calls b h a with
  | Some (r1, h1) => match heap_calls b h1 d with Some (r2, h2) => Some (r1 ++ r2, h2) | None => None end
  | None => None
  end.
Proof.
  induction a as [|op a IH]; intros h d; cbn [app heap_calls]; [by destruct (heap_calls b h d) as [[]|]|].
  destruct (heap_call b op h) as [r h1|e h1|]; [| |done]; rewrite IH; (destruct (heap_calls b h1 a) as [[r1 h2]|]; [|done]); by destruct (heap_calls b h2 d) as [[r2 h3]|].
Qed.
Lemma step_calls b op h r h' : (heap_call b op h = Ok r h' \/ exists e, r = HExc e /\ heap_call b op h = Exc e h') -> heap_calls b h [op] = Some ([r], h').
Proof. cbn [heap_calls]. by intros [-> | (e & -> & ->)]. Qed.

(** ** C37: histories *)
(** A history keeps the heap in order after every call if and only if every removal in it
    fits: of a value, of the minimum or of the maximum, in a MinHeap ([b] = true) or in a
    MaxHeap. *)
Theorem C37_histories_iff : forall b ops, ordered_throughout b ops <-> removals_fit b ops.
Proof.
  intros b ops. split.
  - intros HO pre op post rs h x i E Hc Ht Hf.
    pose proof (HO pre (op :: post) rs h E Hc) as Hh. destruct (step_iff b op h Hh) as (r & h' & Hs & _ & Hi).
    apply (proj1 Hi) with (x := x); [|done|done]. apply (HO (pre ++ [op]) post (rs ++ [r]) h'); [by rewrite <- app_assoc|].
    by rewrite calls_app, Hc, (step_calls _ _ _ _ _ Hs).
  - intros HF pre. induction pre as [|op pre IH] using rev_ind; intros post rs h E Hc.
    { injection Hc as <- <-. intros i x p _ Hx. done. }
    rewrite <- app_assoc in E. cbn [app] in E. rewrite calls_app in Hc. destruct (heap_calls b [] pre) as [[rs1 h1]|] eqn:E1; [|done].
    pose proof (IH (op :: post) rs1 h1 E eq_refl) as Hh. destruct (step_iff b op h1 Hh) as (r & h' & Hs & _ & Hi).
    rewrite (step_calls _ _ _ _ _ Hs) in Hc. injection Hc as <- <-. apply Hi. intros x i Hx Hf. by eapply (HF pre op post).
Qed.
Print Assumptions C37_histories_iff.

(** Such a history gives the ideal answers: get_min and get_max the extrema, membership,
    len and to_list those of the multiset. *)
Theorem C37_fitting_histories : forall b ops, removals_fit b ops ->
  exists rs h, heap_calls b [] ops = Some (rs, h) /\ heap_answers [] ops rs h /\ heap_ordered b h.
Proof.
  intros b ops HF. assert (forall post pre rs h, ops = pre ++ post -> heap_calls b [] pre = Some (rs, h) -> heap_ordered b h ->
    exists rs' h', heap_calls b h post = Some (rs', h') /\ heap_answers h post rs' h' /\ heap_ordered b h') as HG.
  { induction post as [|op post IH]; intros pre rs h E Hc Hh; [exists [], h; split_and!; [done|constructor|done]|].
    destruct (step_iff b op h Hh) as (r & h1 & Hs & Hm & Hi).
    assert (heap_ordered b h1) as Hh1. { apply Hi. intros x i Hx Hf. by eapply (HF pre op post). }
    destruct (IH (pre ++ [op]) (rs ++ [r]) h1) as (rs' & h' & H1 & H2 & H3); [by rewrite <- app_assoc|by rewrite calls_app, Hc, (step_calls _ _ _ _ _ Hs)|done|].
    exists (r :: rs'), h'. split; [|split; [by econstructor|done]]. change (op :: post) with ([op] ++ post). by rewrite calls_app, (step_calls _ _ _ _ _ Hs), H1. }
  apply (HG ops [] [] []); [done|done|]. intros i x p _ Hx. done.
Qed.
Print Assumptions C37_fitting_histories.

(** A history of a MinHeap with a removal of a value, of the maximum and of the minimum;
    all of them fit. *)
Definition fit_ops : list hop := map (fun z => HInsert (PInt z)) [1; 3; 2; 7; 4]%Z ++ [HRemove (PInt 3); HRemoveMax; HRemoveMin].
Example C37_fit_example : ordered_throughout true fit_ops /\
  exists rs h, heap_calls true [] fit_ops = Some (rs, h) /\ heap_ordered true h /\ h = [Fin 2; Fin 4].
Proof.
  assert (forall h, (forall i, i < length h -> 0 < i -> match h !! i, h !! Nat.div (i - 1) 2 with Some x, Some p => num_leb p x = true | _, _ => True end) -> heap_ordered true h) as Hd.
  { intros h H i x p Hi Hx Hp. specialize (H i (lookup_lt_Some _ _ _ Hx) Hi). rewrite Hx, Hp in H. unfold num_leb in H. by apply negb_true_iff, num_ltb_le in H. }
  assert (forall n, n <= length fit_ops -> exists rs h, heap_calls true [] (take n fit_ops) = Some (rs, h) /\ heap_ordered true h) as HT.
  { intros n Hn. change (length fit_ops) with 8 in Hn.
    destruct n as [|[|[|[|[|[|[|[|[|n]]]]]]]]]; try lia; eexists _, _; (split; [vm_compute; reflexivity|]); apply Hd;
      intros [|[|[|[|[|i]]]]] H1 H2; cbn in H1; try lia; vm_compute; done. }
  split.
  - intros pre post rs h E Hc. assert (pre = take (length pre) fit_ops) as Ep by (rewrite E; by rewrite take_app).
    destruct (HT (length pre)) as (rs' & h' & Hc' & Hh'); [rewrite E, app_length; lia|]. rewrite <- Ep, Hc in Hc'. by injection Hc' as <- <-.
  - destruct (HT 8) as (rs & h & Hc & Hh); [done|]. exists rs, h. split; [done|]. split; [done|]. vm_compute in Hc. by injection Hc as <- <-.
Qed.
(** Removing the maximum of a MinHeap may break it too: here 4 ends up below 10, and
    get_min() is 10 after 1 and 2 have been removed. *)
Theorem C37_remove_max_refuted : exists (xs : list num) (ops : list hop) rs (m m' : num),
  Forall (fun op => op = HRemoveMin \/ op = HRemoveMax) ops /\
  heap_run true ((HInsert ∘ PNum <$> xs) ++ ops ++ [HGetMin; HContains (PNum m')]) = Some (rs ++ [HVal m; HBool true]) /\ num_le m' m /\ m' <> m.
Proof.
  exists (map Fin [1; 10; 2; 20; 12; 11; 4]%Z), [HRemoveMax; HRemoveMin; HRemoveMin], (replicate 10 (HRet false)), (Fin 10), (Fin 4).
  split; [by repeat (apply Forall_cons; split; [auto|]); apply Forall_nil|]. split; [vm_compute; reflexivity|]. split; [done|discriminate].
Qed.
Print Assumptions C37_remove_max_refuted.
