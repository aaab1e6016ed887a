(** * Proofs about programs over several SkipLists (C69) *)
From Coq Require Import Sorted.
From stdpp Require Import gmap.
From Verif Require Import Base NumOrd ListModel ListRep ListSpec ListPure ListCore ListCore2 ListOps ListOps2 ListOps3 SkipModel SkipSpec SkipThm SkipThm2 SkipThm3.
From Verif Require Import IterModel IterSpec SkipIterModel SkipIterSpec.
Local Open Scope py_scope.
#[local] Remove Hints no_frame : typeclass_instances.

(** ** Who owns what *)
(** For each SkipList its list of levels, the levels and their nodes. *)
Notation owners := (gmap nat (nat * list nat * list (list gn))).
(** What SkipList [x] must leave alone: the other SkipLists and the lists [P]. *)
Definition fr (R : owners) (P : list (nat * list gn)) (x : nat) : frame :=
  Frame (fun o g => (o, g) ∈ P \/ exists j r os G k, j <> x /\ R !! j = Some (r, os, G) /\ os !! k = Some o /\ G !! k = Some g)
        (fun r os => exists j G, j <> x /\ R !! j = Some (r, os, G))
        (fun j p => j <> x /\ exists r os G, R !! j = Some (r, os, G) /\ p = (r, length G)).

Record RelK (ks : kst) (W : list towers) (R : owners) (P : list (nat * list gn)) : Prop := MkRelK {
  k_len : length (k_sls ks) = length W;
  k_own : forall x A, W !! x = Some A -> exists r os G, R !! x = Some (r, os, G) /\ @Inv (fr R P x) x ks r os G A /\ length G = theight A;
  k_dom : forall x e, R !! x = Some e -> x < length W;
  k_prv : forall o g, (o, g) ∈ P -> rep CLL (k_st ks) o g }.

(** A weaker frame. *)
Lemma Inv_weaken (F F' : frame) x ks r os G A : @Inv F x ks r os G A ->
  (forall o g, @f_lists F' o g -> @f_lists F o g) -> (forall r os, @f_lls F' r os -> @f_lls F r os) -> (forall j p, @f_sls F' j p -> @f_sls F j p) ->
  @Inv F' x ks r os G A.
Proof.
  intros [H1 H2 [a b c d e f g h i j] H4 H5] HA HB HC. split; [done|done| |intros ? ? Hl; by apply H4, HB|intros ? ? Hl; by apply H5, HC]. split; try done. intros o l Hl. by apply j, HA.
Qed.
Lemma Good_weaken (F F' : frame) x ks A : @Good F x ks A ->
  (forall o g, @f_lists F' o g -> @f_lists F o g) -> (forall r os, @f_lls F' r os -> @f_lls F r os) -> (forall j p, @f_sls F' j p -> @f_sls F j p) ->
  @Good F' x ks A.
Proof. intros (r & os & G & H & Hl) HA HB HC. exists r, os, G. split; [|done]. exact (Inv_weaken _ _ _ _ _ _ _ _ H HA HB HC). Qed.

(** After a call on [x], or its creation, all others are as before. *)
Lemma rel_update ks ks' W W' R P x A' :
  (forall j A, j <> x -> W !! j = Some A -> exists r os G, R !! j = Some (r, os, G) /\ @Inv (fr R P j) j ks r os G A /\ length G = theight A) ->
  (forall j e, R !! j = Some e -> j < length W) ->
  @Good (fr R P x) x ks' A' -> length (k_sls ks') = length W' -> W' !! x = Some A' -> (forall j, j <> x -> W' !! j = W !! j) -> length W <= length W' ->
  exists R', RelK ks' W' R' P.
Proof.
  intros Hown Hdom HG Hlen Hx Hne Hle. pose proof (good_kept _ _ _ HG) as HK. destruct HG as (r & os & G & H & Ht).
  exists (<[x := (r, os, G)]> R). pose proof (i_rep _ _ _ _ _ _ H) as HR. split; [done| | |].
  - intros j A Hj. destruct (decide (j = x)) as [->|Hjx].
    + rewrite Hx in Hj. injection Hj as <-. exists r, os, G. rewrite lookup_insert. split; [done|]. split; [|done].
      eapply Inv_weaken; [exact H| | |].
      * cbn. intros o g [?|(j & r' & os' & G' & k & Hj & HRj & ? & ?)]; [by left|right]. rewrite lookup_insert_ne in HRj by done. by exists j, r', os', G', k.
      * cbn. intros r' os' (j & G' & Hj & HRj). rewrite lookup_insert_ne in HRj by done. by exists j, G'.
      * cbn. intros j p (Hj & r' & os' & G' & HRj & ->). rewrite lookup_insert_ne in HRj by done. split; [done|]. by exists r', os', G'.
    + rewrite Hne in Hj by done. destruct (Hown _ _ Hjx Hj) as (rj & osj & Gj & HRj & Hij & Htj). exists rj, osj, Gj. rewrite lookup_insert_ne by done. split; [done|]. split; [|done].
      pose proof (i_rep _ _ _ _ _ _ Hij) as HRepj.
      destruct (kp_sls _ _ HK j (rj, length Gj)) as [_ Hsj]; [split; [done|]; by exists rj, osj, Gj|].
      assert (k_lls ks' !! rj = Some osj) as Hlj. { apply (kp_lls _ _ HK). by exists j, Gj. }
      assert (rj <> r) as Hrr. { eapply (i_lls _ _ _ _ _ _ H rj osj). by exists j, Gj. }
      assert (forall k o g, osj !! k = Some o -> Gj !! k = Some g -> rep CLL (k_st ks') o g /\ o ∉ os /\ forall k' g' l, G !! k' = Some g' -> l ∈ locs g' -> l ∉ locs g) as Hown'.
      { intros k o g Ho Hg. apply (r_kept _ _ _ _ HR). right. by exists j, rj, osj, Gj, k. }
      split; [done|done| | |].
      * destruct HRepj as [e1 e2 e3 e4 e5 e6 e7 e8 e9 e10]. split; try done.
        -- intros k o g Ho Hg. split; [by eapply Hown'|]. by eapply e2.
        -- cbn. intros o g [Hp|(j' & r' & os' & G' & k & Hj' & HRj' & Hok & Hgk)].
           ++ destruct (e10 o g) as (_ & ? & ?); [by left|]. split_and!; [by apply (kp_lists _ _ HK); left|done|done].
           ++ destruct (decide (j' = x)) as [->|Hj'x].
              ** rewrite lookup_insert in HRj'. injection HRj' as <- <- <-. split_and!; [by eapply (r_rep _ _ _ _ HR)| |].
                 --- intros [k' Hk']%elem_of_list_lookup. destruct (lookup_lt_is_Some_2 Gj k') as [g' Hg']; [rewrite <- e1; by eapply lookup_lt_Some|].
                     destruct (Hown' _ _ _ Hk' Hg') as (_ & Hn & _). apply Hn. by eapply elem_of_list_lookup_2.
                 --- intros k' g' l Hg' Hl Hl'. destruct (lookup_lt_is_Some_2 osj k') as [o' Ho']; [rewrite e1; by eapply lookup_lt_Some|].
                     destruct (Hown' _ _ _ Ho' Hg') as (_ & _ & Hn). by eapply (Hn k g l).
              ** rewrite lookup_insert_ne in HRj' by done. destruct (e10 o g) as (_ & ? & ?); [right; by exists j', r', os', G', k|].
                 split_and!; [|done|done]. apply (kp_lists _ _ HK). right. by exists j', r', os', G', k.
      * cbn. intros r' os' (j' & G' & Hj' & HRj'). destruct (decide (j' = x)) as [->|Hj'x].
        -- rewrite lookup_insert in HRj'. injection HRj' as <- <- <-. split; [congruence|]. apply (i_ls _ _ _ _ _ _ H).
        -- rewrite lookup_insert_ne in HRj' by done. split; [|apply (kp_lls _ _ HK); by exists j', G'].
           apply (i_lls _ _ _ _ _ _ Hij r' os'). by exists j', G'.
      * cbn. intros j' p (Hj' & r' & os' & G' & HRj' & ->). split; [done|]. destruct (decide (j' = x)) as [->|Hj'x].
        -- rewrite lookup_insert in HRj'. injection HRj' as <- <- <-. apply (i_sl _ _ _ _ _ _ H).
        -- rewrite lookup_insert_ne in HRj' by done. apply (kp_sls _ _ HK). split; [done|]. by exists r', os', G'.
  - intros j e. destruct (decide (j = x)) as [->|Hjx]; [intros _; by eapply lookup_lt_Some|]. rewrite lookup_insert_ne by done. intros Hj. apply Hdom in Hj. lia.
  - intros o g Ho. apply (kp_lists _ _ HK). by left.
Qed.

(** A new private list. *)
Lemma rel_alloc ks W R P s c g : RelK ks W R P -> modifies [] [] (k_st ks) s -> rep CLL s c g -> length (s_objs (k_st ks)) <= c ->
  (forall l, l ∈ locs g -> length (s_nodes (k_st ks)) <= l) -> RelK (KSt s (k_lls ks) (k_sls ks)) W R ((c, g) :: P).
Proof.
  intros [H1 H2 H3 H4] Hm Hr Hc Hg. split; [done| |done|].
  - intros x A Hx. destruct (H2 _ _ Hx) as (r & os & G & HR & Hi & Ht). exists r, os, G. split; [done|]. split; [|done].
    destruct Hi as [a b d e f]. apply (Rep_frame _ s) in d; [|done]. split; try done. destruct d as [d1 d2 d3 d4 d5 d6 d7 d8 d9 d10]. split; try done.
    cbn. intros o' g' [[[= -> ->]|Hin]%elem_of_cons|Hin]; [|by apply d10; left|by apply d10; right]. split; [done|]. 
    destruct (H2 _ _ Hx) as (r2 & os2 & G2 & HR2 & Hi2 & _). rewrite HR in HR2. injection HR2 as <- <- <-. pose proof (i_rep _ _ _ _ _ _ Hi2) as d. split.
    + intros [k Hk]%elem_of_list_lookup. destruct (lookup_lt_is_Some_2 G k) as [g' Hg']; [rewrite <- d1; by eapply lookup_lt_Some|].
      destruct (r_rep _ _ _ _ d _ _ _ Hk Hg') as [Hrk _]. apply rep_obound in Hrk. lia.
    + intros k g' l Hg' Hl Hl'. destruct (lookup_lt_is_Some_2 os k) as [o' Ho']; [rewrite d1; by eapply lookup_lt_Some|].
      destruct (r_rep _ _ _ _ d _ _ _ Ho' Hg') as [Hrk _]. pose proof (rep_bound _ _ _ _ _ Hrk Hl). specialize (Hg _ Hl'). lia.
  - intros o' g' [[= -> ->]|Hin]%elem_of_cons; [done|]. cbn. eapply rep_frame; [by apply H4|exact Hm|set_solver|set_solver].
Qed.
