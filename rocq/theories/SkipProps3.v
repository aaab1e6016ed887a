(** * SkipList(other): for how long the two are one (C49)

    Specification: [pair_of_sets] and [same_levels] below, over SkipSpec.v.
    Model: SkipModel.v.  Proofs about the calls: SkipThm3.v, SkipIterThm.v, SkipIterThm2.v. *)
From Coq Require Import Sorted.
From stdpp Require Import gmap.
From Verif Require Import Base NumOrd ListModel ListRep ListSpec ListPure ListCore ListCore2 ListOps ListOps2 ListOps3 SkipModel SkipSpec SkipThm SkipThm2 SkipThm3.
From Verif Require Import IterModel IterSpec SkipIterModel SkipIterSpec SkipIterThm SkipIterThm2.
Local Open Scope py_scope.

(** ** What [a] (0) and [b = SkipList(a)] (1) are
    One set under two names, until clear() is called on one of them: that one becomes a new
    empty set, and from then on they are two. *)
Inductive pair_of_sets := One (A : towers) | Two (A B : towers).
Definition pset (i : nat) (P : pair_of_sets) : towers := match P with One A => A | Two A B => if decide (i = 0) then A else B end.
Definition pnext (i : nat) (o : skop) (P : pair_of_sets) : pair_of_sets :=
  match P with
  | One A => match o with KClear => if decide (i = 0) then Two [] A else Two A [] | _ => One (tnext o A) end
  | Two A B => if decide (i = 0) then Two (tnext o A) B else Two A (tnext o B)
  end.
Fixpoint panswers (os : list (nat * skop)) (P : pair_of_sets) : list skout :=
  match os with [] => [] | (i, o) :: os' => tanswer o (pset i P) :: panswers os' (pnext i o P) end.
(** As long as they are one, no call adds or removes a level. *)
Fixpoint same_levels (os : list (nat * skop)) (P : pair_of_sets) : Prop :=
  match os with
  | [] => True
  | (i, o) :: os' => match P with One A => o = KClear \/ theight (tnext o A) = theight A | Two _ _ => True end /\ same_levels os' (pnext i o P)
  end.

(** ** Proofs *)
(** No call other than clear() gives a SkipList another list of levels. *)
Definition keepr (x : nat) {A} (m : M kst A) : Prop := forall s, match m s with Ok _ s' | Exc _ s' => fst <$> k_sls s' !! x = fst <$> k_sls s !! x | Diverge => True end.
Section KeepR.
Context (x : nat).
Lemma keepr_bind {A B} (m : M kst A) (k : A -> M kst B) : keepr x m -> (forall a, keepr x (k a)) -> keepr x (bind m k).
Proof. intros Hm Hk s. unfold bind. specialize (Hm s). destruct (m s) as [a s1|e s1|]; [|done|done]. specialize (Hk a s1). destruct (k a s1); by rewrite ?Hk, ?Hm || done. Qed.
Lemma keepr_ret {A} (a : A) : keepr x (ret a). Proof. done. Qed.
Lemma keepr_raise {A} e : keepr x (raise e : M kst A). Proof. done. Qed.
Lemma keepr_lift {A} (m : M st A) : keepr x (lift m). Proof. intros s. unfold lift. by destruct (m (k_st s)). Qed.
Lemma keepr_get_sl self : keepr x (get_sl self). Proof. intros s. unfold get_sl. by destruct (k_sls s !! self). Qed.
Lemma keepr_get_lls r : keepr x (get_lls r). Proof. intros s. unfold get_lls. by destruct (k_lls s !! r). Qed.
Lemma keepr_put_lls r l : keepr x (put_lls r l). Proof. done. Qed.
Lemma keepr_assert b : keepr x (py_assert b). Proof. by destruct b. Qed.
Lemma keepr_update {A} self (f : nat * nat -> M kst A) : (forall p s, k_sls s !! self = Some p -> match f p s with Ok _ s' | Exc _ s' => fst <$> k_sls s' !! x = fst <$> k_sls s !! x | Diverge => True end) -> keepr x (bind (get_sl self) f).
Proof. intros H s. unfold bind, get_sl. destruct (k_sls s !! self) as [p|] eqn:E; [|done]. by apply H. Qed.
Lemma put_same self p n s : k_sls s !! self = Some p -> fst <$> <[self := (p.1, n)]> (k_sls s) !! x = fst <$> k_sls s !! x.
Proof. intros E. destruct (decide (self = x)) as [->|Hn]; [rewrite list_lookup_insert by (by eapply lookup_lt_Some); by rewrite E|by rewrite list_lookup_insert_ne]. Qed.
Create HintDb keepr.
#[local] Hint Resolve keepr_ret keepr_raise keepr_lift keepr_get_sl keepr_get_lls keepr_put_lls keepr_assert : keepr.
Ltac keepr := repeat first [solve [auto with keepr]|apply keepr_bind; [|intros ?]|case_match].
Lemma keepr_level_list self i : keepr x (level_list self i). Proof. unfold level_list. keepr. Qed.
Lemma keepr_num_levels self : keepr x (num_levels self). Proof. unfold num_levels. keepr. Qed.
#[local] Hint Resolve keepr_level_list keepr_num_levels : keepr.
Lemma keepr_search self v : keepr x (search self v). Proof. unfold search. keepr. Qed.
#[local] Hint Resolve keepr_search : keepr.
Lemma keepr_add self : keepr x (add_extra_level self).
Proof.
  unfold add_extra_level. do 4 (apply keepr_bind; [solve [auto with keepr]|intros ?]). apply keepr_update. intros p s E. unfold bind, get_lls, put_lls, put_sl. destruct (k_lls s !! p.1); [|done]. cbn. by apply put_same.
Qed.
Lemma keepr_promote self u c l : keepr x (promote self u c l). Proof. unfold promote. keepr. Qed.
#[local] Hint Resolve keepr_add keepr_promote : keepr.
Lemma keepr_promote_loop self h : forall l c k, keepr x (promote_loop self h l c k). Proof. induction h; intros l c k; cbn [promote_loop]; keepr. Qed.
Lemma keepr_remove_level self l : keepr x (remove_level self l).
Proof.
  unfold remove_level. apply keepr_update. intros p s E. unfold bind, get_lls, put_lls, put_sl. destruct (_ && _); [|done]. cbn. destruct (k_lls s !! p.1); [|done]. cbn. by apply put_same.
Qed.
#[local] Hint Resolve keepr_promote_loop keepr_remove_level : keepr.
Lemma keepr_remove_loop self k : forall p f, keepr x (remove_loop self k p f). Proof. induction k; intros p f; [cbn; keepr|]. rewrite remove_loop_S. keepr. Qed.
#[local] Hint Resolve keepr_remove_loop : keepr.
Lemma keepr_remove self v : keepr x (sl_remove self v). Proof. unfold sl_remove. keepr. Qed.
Lemma keepr_len self : keepr x (sl_len self). Proof. unfold sl_len. keepr. Qed.
#[local] Hint Resolve keepr_remove keepr_len : keepr.
Lemma keepr_index self i : keepr x (sl_check_index self i). Proof. unfold sl_check_index. keepr. Qed.
#[local] Hint Resolve keepr_index : keepr.
Lemma keepr_exec self o : o <> KClear -> keepr x (kexec self o).
Proof. intros Ho. destruct o; try done; cbn [kexec]; unfold sl_insert, check_num, sl_contains, sl_getitem, sl_delitem, sl_to_list; keepr. Qed.
Lemma keepr_call self o s r s' : o <> KClear -> kcall self o s = Some (r, s') -> fst <$> k_sls s' !! x = fst <$> k_sls s !! x.
Proof. intros Ho. pose proof (keepr_exec self o Ho s) as H. unfold kcall. destruct (kexec self o s); [..|done]; by intros [= _ <-]. Qed.
End KeepR.

(** *** One set *)
Definition is_one (ks : kst) (A : towers) : Prop :=
  exists r os G, k_sls ks = [(r, length G); (r, length G)] /\ k_lls ks !! r = Some os /\ @Rep no_frame (k_st ks) os G A /\ length G = theight A.
Definition only_other (i : nat) (p : nat * nat) : frame := Frame (fun _ _ => False) (fun _ _ => False) (fun j q => j = 1 - i /\ q = p).
Lemma Rep_any (F F' : frame) s os G A : @Rep F s os G A -> (forall o g, ~ @f_lists F' o g) -> @Rep F' s os G A.
Proof. intros [a b c d e f g h i j] H. split; try done. intros o l Hl. by apply H in Hl. Qed.
Lemma one_step ks A i o : is_one ks A -> i < 2 -> o <> KClear -> theight (tnext o A) = theight A -> avoids_neg_inf o ->
  exists ks', kcall i o ks = Some (tanswer o A, ks') /\ is_one ks' (tnext o A).
Proof.
  intros (r & os & G & Hs & Hl & HR & Ht) Hi Ho Hh Hn.
  destruct (@step_ok (only_other i (r, length G)) i ks A o) as (ks' & E & HG); [|done|].
  { exists r, os, G. split; [|done]. split; [|done|eapply Rep_any; [exact HR|by intros ? ? []]|done|].
    - rewrite Hs. destruct i as [|[|]]; [done|done|lia].
    - intros j p [-> ->]. split; [lia|]. rewrite Hs. destruct i as [|[|]]; [done|done|lia]. }
  exists ks'. split; [done|]. destruct HG as (r' & os' & G' & HI & Ht'). exists r', os', G'.
  pose proof (keepr_call i _ _ _ _ _ Ho E) as Hr. rewrite (i_sl _ _ _ _ _ _ HI) in Hr. rewrite Hs in Hr. assert (r' = r) as ->. { destruct i as [|[|]]; [..|lia]; by injection Hr. }
  pose proof (kcall_len _ _ _ _ _ E) as Hlen. destruct (i_sls _ _ _ _ _ _ HI (1 - i) (r, length G)) as [_ Hother]; [done|]. pose proof (i_sl _ _ _ _ _ _ HI) as Hself.
  assert (length G = length G') as El by congruence. rewrite Hs in Hlen. split_and!; [|apply HI|apply (Rep_any (only_other i (r, length G)) no_frame); [exact (i_rep _ _ _ _ _ _ HI)|by intros ? ? []]|done].
  rewrite El in Hother. clear -Hlen Hother Hself Hi. destruct (k_sls ks') as [|a [|b [|]]]; try done. destruct i as [|[|]]; [..|lia]; cbn in Hother, Hself; congruence.
Qed.
(** *** clear() makes two of it *)
Lemma one_clear ks A i : is_one ks A -> i < 2 ->
  exists ks' R, kcall i KClear ks = Some (KUnit, ks') /\ RelK ks' (if decide (i = 0) then [[]; A] else [A; []]) R [].
Proof.
  intros (r & os & G & Hs & Hl & HR & Ht) Hi. set (R := {[1 - i := (r, os, G)]} : owners).
  assert (k_sls ks !! i = Some (r, length G) /\ k_sls ks !! (1 - i) = Some (r, length G)) as [Hs1 Hs2]. { rewrite Hs. destruct i as [|[|]]; [done|done|lia]. }
  destruct (@init_ok (fr R [] i) i ks _ Hs1) as (ks' & E & HG).
  { split; cbn.
    - intros o g [Hin|(j & r' & os' & G' & k & Hj & HRj & Hok & Hgk)]; [by apply elem_of_nil in Hin|]. apply lookup_singleton_Some in HRj as [<- [= <- <- <-]]. by eapply (r_rep _ _ _ _ HR).
    - intros r' os' (j & G' & Hj & HRj). by apply lookup_singleton_Some in HRj as [<- [= <- <- <-]].
    - intros j p (Hj & r' & os' & G' & HRj & ->). apply lookup_singleton_Some in HRj as [<- [= <- <- <-]]. done. }
  assert (kcall i KClear ks = Some (KUnit, ks')) as Ec. { unfold kcall. cbn [kexec]. unfold sl_clear. by rewrite (bind_ok _ _ _ _ _ E). }
  set (W := if decide (i = 0) then [[]; A] else [A; []]).
  assert (length W = 2 /\ W !! i = Some [] /\ W !! (1 - i) = Some A) as (HW & HW1 & HW2). { unfold W. destruct i as [|[|]]; [done|done|lia]. }
  destruct (rel_update ks ks' W W R [] i []) as [R' HR']; [| |done| |done|done|done|by exists ks', R'].
  - intros j B Hj HB. assert (j = 1 - i) as ->. { apply lookup_lt_Some in HB. lia. } rewrite HW2 in HB. injection HB as <-. exists r, os, G. unfold R at 1. rewrite lookup_singleton. split; [done|]. split; [|done].
    split; [done|done| | |].
    + eapply Rep_any; [exact HR|]. cbn. intros o g [Hin|(j & r' & os' & G' & k & Hj' & HRj & _)]; [by apply elem_of_nil in Hin|]. by apply lookup_singleton_Some in HRj as [<- _].
    + cbn. intros r' os' (j & G' & Hj' & HRj). by apply lookup_singleton_Some in HRj as [<- _].
    + cbn. intros j p (Hj' & r' & os' & G' & HRj & _). by apply lookup_singleton_Some in HRj as [<- _].
  - intros j e HRj. apply lookup_singleton_Some in HRj as [<- _]. lia.
  - rewrite HW. rewrite (kcall_len _ _ _ _ _ Ec), Hs. done.
Qed.
Lemma two_calls os : forall ks A B R, RelK ks [A; B] R [] -> Forall (fun p => p.1 < 2 /\ avoids_neg_inf p.2) os -> exists ks', kcalls os ks = Some (panswers os (Two A B), ks').
Proof.
  induction os as [|[i o] os IH]; intros ks A B R HK H; [by exists ks|]. apply Forall_cons in H as [[Hi Ho] H]. cbn in Hi, Ho.
  destruct (call_rel ks [A; B] R [] i o (pset i (Two A B)) HK) as (ks1 & R1 & E & HK1); [destruct i as [|[|]]; [done|done|lia]|done|].
  assert (exists A' B', pnext i o (Two A B) = Two A' B' /\ <[i := tnext o (pset i (Two A B))]> [A; B] = [A'; B']) as (A' & B' & E1 & E2).
  { destruct i as [|[|]]; [..|lia]; cbn; eauto. }
  rewrite E2 in HK1. destruct (IH _ _ _ _ HK1 H) as (ks2 & E3). exists ks2. cbn [kcalls panswers fst snd]. by rewrite E, E1, E3.
Qed.
Lemma pair_calls os : forall ks A, is_one ks A -> Forall (fun p => p.1 < 2 /\ avoids_neg_inf p.2) os -> same_levels os (One A) -> exists ks', kcalls os ks = Some (panswers os (One A), ks').
Proof.
  induction os as [|[i o] os IH]; intros ks A HO H Hs; [by exists ks|]. apply Forall_cons in H as [[Hi Ho] H]. cbn in Hi, Ho. destruct Hs as [Hh Hs].
  assert (o = KClear \/ o <> KClear) as [->|Hc] by (destruct o; (by left) || by right).
  - destruct (one_clear _ _ _ HO Hi) as (ks1 & R & E & HK). cbn [kcalls panswers fst snd pnext pset]. rewrite E. destruct (decide (i = 0)).
    + destruct (two_calls os _ _ _ _ HK H) as (ks2 & E2). exists ks2. by rewrite E2.
    + destruct (two_calls os _ _ _ _ HK H) as (ks2 & E2). exists ks2. by rewrite E2.
  - destruct Hh as [->|Hh]; [done|]. destruct (one_step _ _ _ _ HO Hi Hc Hh Ho) as (ks1 & E & HO1).
    assert (pnext i o (One A) = One (tnext o A)) as Ep by by destruct o. rewrite Ep in Hs. destruct (IH _ _ HO1 H Hs) as (ks2 & E2). exists ks2. cbn [kcalls panswers fst snd]. rewrite E, Ep, E2. done.
Qed.

(** ** The theorem *)
(** Whatever happened to [a] before, and whatever is called on [a] and [b = SkipList(a)]
    afterwards, in any order: as long as no call adds or removes a level both are the same set
    under two names, and clear() on one of them makes two independent sets of it, for good. *)
Theorem C49_one_set pre os : Forall avoids_neg_inf pre -> Forall (fun p => p.1 < 2 /\ avoids_neg_inf p.2) os -> same_levels os (One (tafter pre [])) ->
  kcopied pre os = Some (tanswers pre [], panswers os (One (tafter pre []))).
Proof.
  intros Hp Ho Hh. destruct (history_ok pre Hp) as (s & E & HG). unfold kcopied. rewrite E. destruct HG as (r & ols & G & H & Hl).
  assert (length (k_sls s) = 1) as Hn.
  { destruct new_ok as (s0 & E0 & _). unfold khistory in E. rewrite E0 in E. rewrite (kcalls_keeps _ _ _ _ E). vm_compute in E0. injection E0 as <-. done. }
  unfold sl_copy. unfold alloc_sl, bind at 1. unfold get_sl, bind at 1. cbn [k_sls]. rewrite lookup_app_l by (by eapply lookup_lt_Some, H). rewrite (i_sl _ _ _ _ _ _ H).
  unfold put_sl, bind at 1. cbn [k_st k_lls k_sls]. rewrite Hn. unfold ret.
  destruct (pair_calls os (KSt (k_st s) (k_lls s) (<[1:=(r, length G)]> (k_sls s ++ [(0, 0)]))) (tafter pre [])) as (s' & E'); [|done|done|by rewrite E'].
  exists r, ols, G. split_and!; [|apply H|apply H|done]. cbn. pose proof (i_sl _ _ _ _ _ _ H) as Hs. destruct (k_sls s) as [|p [|]]; try done. cbn in Hs. by injection Hs as ->.
Qed.
Print Assumptions C49_one_set.
(** In particular every element put into one of them without a coin showing heads is in the other. *)
Theorem C49_seen_through pre i x : Forall avoids_neg_inf pre -> i < 2 -> x <> NegInf ->
  kcopied pre [(i, KInsert (PNum x) 0); (1 - i, KContains (PNum x))] = Some (tanswers pre [], [KUnit; KBool true]).
Proof.
  intros Hp Hi Hx. assert (forall B, theight (tput x 0 B) = theight B) as Ht.
  { intros B. unfold theight. f_equal. induction B as [|[y k] B IH]; [done|]. cbn [tput]. destruct (num_ltb x y); [done|]. destruct (decide (x = y)); [done|]. cbn. by rewrite IH. }
  rewrite C49_one_set; [|done| |].
  - cbn [panswers pnext pset tnext tanswer]. rewrite bool_decide_eq_true_2; [done|]. generalize (tafter pre []). intros B. induction B as [|[y k] B IH]; [by left|]. cbn [tput].
    destruct (num_ltb x y); [by left|]. destruct (decide (x = y)) as [->|]; [by left|]. by right.
  - apply Forall_cons; split; [split; cbn; [lia|congruence]|]. apply Forall_cons; split; [split; cbn; [lia|congruence]|done].
  - cbn. split_and!; [right; apply Ht|by right|done].
Qed.
Print Assumptions C49_seen_through.
Definition C49_calls : list (nat * skop) :=
  [(1, KInsert (PInt 3) 1); (0, KToList); (0, KRemove (PInt 2)); (1, KContains (PInt 2)); (1, KClear); (0, KInsert (PInt 9) 5); (1, KToList); (0, KToList)].
Example C49_one_set_example : same_levels C49_calls (One (tafter [KInsert (PInt 5) 1; KInsert (PInt 2) 0] [])) /\
  kcopied [KInsert (PInt 5) 1; KInsert (PInt 2) 0] C49_calls =
  Some ([KUnit; KUnit], [KUnit; KVals [PInt 2; PInt 3; PInt 5]; KUnit; KBool false; KUnit; KUnit; KVals []; KVals [PInt 3; PInt 5; PInt 9]]).
Proof. split; [|by vm_compute]. cbn. split_and!; try done; (by right) || by left. Qed.
