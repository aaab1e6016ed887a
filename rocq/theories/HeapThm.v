(** * Proofs about the heaps. *)
From Coq Require Import ZifyNat Sorted.
From Verif Require Import Base NumOrd HeapModel HeapSpec.
Ltac Zify.zify_post_hook ::= Z.to_euclidean_division_equations.

Definition par (c : nat) : nat := Nat.div (c - 1) 2.
Definition hord (b : bool) (h : list num) : Prop :=
  forall c x p, 0 < c -> h !! c = Some x -> h !! par c = Some p -> ord b p x.
Lemma hord_heap_ordered b h : hord b h <-> heap_ordered b h.
Proof.
  unfold hord, heap_ordered, par, ord. split; intros H c x p Hc Hx Hp; specialize (H c x p Hc Hx Hp);
    by destruct b.
Qed.

Lemma wrong_false b x y : wrong b x y = false -> ord b x y.
Proof. destruct b; cbn; intros H%num_ltb_le; done. Qed.
Lemma wrong_true b x y : wrong b x y = true -> ord b y x.
Proof. destruct b; cbn; intros H%num_ltb_lt; done. Qed.
Lemma wrong_iff b x y : wrong b x y = false <-> ord b x y.
Proof. destruct b; cbn; apply num_ltb_le. Qed.
Lemma ord_total b x y : ord b x y \/ ord b y x.
Proof. destruct (wrong b x y) eqn:E; [right; by apply wrong_true|left; by apply wrong_false]. Qed.

(** ** Array primitives *)
Lemma hget_ok i h x : h !! i = Some x -> hget i h = Ok x h.
Proof. unfold hget. by intros ->. Qed.
Lemma hput_ok i x h : i < length h -> hput i x h = Ok tt (<[i := x]> h).
Proof. unfold hput. intros H. by rewrite (proj2 (Nat.ltb_lt _ _) H). Qed.
Definition swp (i j : nat) (x y : num) (h : list num) : list num := <[j := x]> (<[i := y]> h).
Lemma hswap_ok i j x y h : h !! i = Some x -> h !! j = Some y -> hswap i j h = Ok tt (swp i j x y h).
Proof.
  intros Hi Hj. unfold hswap.
  erewrite bind_ok by (by apply hget_ok). erewrite bind_ok by (by apply hget_ok).
  erewrite bind_ok by (apply hput_ok; by eapply lookup_lt_Some).
  apply hput_ok. rewrite insert_length. by eapply lookup_lt_Some.
Qed.
Lemma swp_length i j x y h : length (swp i j x y h) = length h.
Proof. unfold swp. by rewrite !insert_length. Qed.
Lemma swp_lookup i j x y h k :
  i < length h -> j < length h ->
  swp i j x y h !! k = if decide (k = j) then Some x else if decide (k = i) then Some y else h !! k.
Proof.
  intros Hi Hj. unfold swp. destruct (decide (k = j)) as [->|].
  - rewrite list_lookup_insert; [done|by rewrite insert_length].
  - rewrite list_lookup_insert_ne by done. destruct (decide (k = i)) as [->|].
    + by rewrite list_lookup_insert.
    + by rewrite list_lookup_insert_ne.
Qed.
Lemma insert_perm (h : list num) i x y : h !! i = Some x -> <[i := y]> h ≡ₚ y :: delete i h.
Proof.
  intros H. rewrite insert_take_drop by (by eapply lookup_lt_Some).
  rewrite delete_take_drop. symmetry. apply Permutation_middle.
Qed.
Lemma swp_perm i j x y h : h !! i = Some x -> h !! j = Some y -> swp i j x y h ≡ₚ h.
Proof.
  intros Hi Hj. unfold swp. destruct (decide (i = j)) as [->|Hne].
  { rewrite list_insert_insert, list_insert_id by done. done. }
  assert (Hj1 : <[i := y]> h !! j = Some y) by (by rewrite list_lookup_insert_ne).
  rewrite (insert_perm _ _ _ x Hj1).
  pose proof (delete_Permutation _ _ _ Hj1) as H1.
  pose proof (insert_perm _ _ _ y Hi) as H2. rewrite H1 in H2 at 1. apply Permutation_cons_inv in H2.
  rewrite H2. symmetry. by apply delete_Permutation.
Qed.

(** ** Sifting up *)
Definition up_inv (b : bool) (h : list num) (i : nat) : Prop :=
  (forall c x p, 0 < c -> c <> i -> h !! c = Some x -> h !! par c = Some p -> ord b p x) /\
  (forall c x p, 0 < c -> 0 < i -> par c = i -> h !! c = Some x -> h !! par i = Some p -> ord b p x).

Lemma sift_up_spec fuel : forall b i h, i < length h -> i < fuel ->
  exists h', sift_up fuel b i h = Ok tt h' /\ h' ≡ₚ h /\ (up_inv b h i -> hord b h').
Proof.
  induction fuel as [|fuel IH]; intros b i h Hi Hf; [lia|].
  cbn [sift_up]. destruct (Nat.eqb_spec i 0) as [->|H0].
  { exists h. split; [done|]. split; [done|]. intros [Hu _] c x p Hc. apply Hu; lia. }
  fold (par i). assert (Hp : par i < i) by (unfold par; lia).
  destruct (lookup_lt_is_Some_2 h i Hi) as [x Hx].
  destruct (lookup_lt_is_Some_2 h (par i)) as [p Hpp]; [lia|].
  rewrite (bind_ok _ _ h x h) by (by apply hget_ok).
  rewrite (bind_ok _ _ h p h) by (by apply hget_ok).
  destruct (wrong b p x) eqn:Hw.
  - rewrite (bind_ok _ _ h tt _ (hswap_ok _ _ _ _ _ Hpp Hx)).
    destruct (IH b (par i) (swp (par i) i p x h)) as (h' & Heq & Hperm & Hord); [rewrite swp_length; lia|lia|].
    exists h'. split; [done|]. split; [rewrite Hperm; by apply swp_perm|].
    intros [Hu1 Hu2]. apply Hord. apply wrong_true in Hw. split.
    + intros c z q Hc Hci. rewrite !swp_lookup by lia.
      rewrite (decide_False (P := c = par i)) by done.
      destruct (decide (c = i)) as [->|Hc1].
      { rewrite decide_False by (unfold par in *; lia). rewrite decide_True by done. intros; by simplify_eq. }
      destruct (decide (par c = i)) as [Hpc|Hpc].
      { intros; simplify_eq. eapply (Hu2 c); eauto. lia. }
      destruct (decide (par c = par i)) as [Hpc'|Hpc'].
      { intros; simplify_eq. eapply ord_trans; [exact Hw|]. eapply (Hu1 c); eauto. by rewrite Hpc'. }
      eauto.
    + intros c z q Hc Hi0 Hpc. rewrite !swp_lookup by lia.
      rewrite (decide_False (P := par (par i) = i)) by (unfold par in *; lia).
      rewrite (decide_False (P := par (par i) = par i)) by (unfold par in *; lia).
      rewrite (decide_False (P := c = par i)) by (unfold par in *; lia).
      intros Hz Hq. destruct (decide (c = i)) as [->|Hci].
      * simplify_eq. eapply (Hu1 (par i)); eauto. unfold par in *; lia.
      * eapply ord_trans; [eapply (Hu1 (par i)); eauto; unfold par in *; lia|]. eapply (Hu1 c); eauto. by rewrite Hpc.
  - exists h. split; [done|]. split; [done|]. intros [Hu1 Hu2] c z q Hc Hz Hq.
    destruct (decide (c = i)) as [->|]; [|by eapply Hu1]. simplify_eq. by apply wrong_false.
Qed.

Lemma heap_insert_spec b n h :
  exists h', heap_insert b (PNum n) h = Ok tt h' /\ h' ≡ₚ n :: h /\ (hord b h -> hord b h').
Proof.
  unfold heap_insert. cbn [heap_item]. rewrite (bind_ok _ _ h h h) by done.
  rewrite (bind_ok _ _ h tt (h ++ [n])) by done.
  destruct (sift_up_spec (S (length h)) b (length h) (h ++ [n])) as (h' & Heq & Hp & Ho);
    [rewrite app_length; cbn; lia|lia|].
  exists h'. split; [done|]. split; [rewrite Hp; symmetry; apply Permutation_cons_append|].
  intros Hh. apply Ho. split.
  - intros c x p Hc Hci Hx Hpx. assert (c < length h).
    { apply lookup_lt_Some in Hx. rewrite app_length in Hx. cbn in Hx. lia. }
    rewrite lookup_app_l in Hx by done. rewrite lookup_app_l in Hpx by (unfold par; lia). by eapply Hh.
  - intros c x p Hc Hl Hpc Hx. apply lookup_lt_Some in Hx. rewrite app_length in Hx. cbn in Hx.
    unfold par in Hpc. lia.
Qed.

(** ** Sifting down: the last cell [z] is the one about to be popped. *)
Definition down_inv (b : bool) (l : list num) (i : nat) : Prop :=
  (forall c x p, 0 < c -> par c <> i -> l !! c = Some x -> l !! par c = Some p -> ord b p x) /\
  (forall c x p, 0 < c -> 0 < i -> par c = i -> l !! c = Some x -> l !! par i = Some p -> ord b p x).

Lemma hget_l i l z x : l !! i = Some x -> hget i (l ++ [z]) = Ok x (l ++ [z]).
Proof. intros H. apply hget_ok. by apply lookup_app_l_Some. Qed.
Lemma hswap_l i j l z x y : l !! i = Some x -> l !! j = Some y ->
  hswap i j (l ++ [z]) = Ok tt (swp i j x y l ++ [z]).
Proof.
  intros Hi Hj. rewrite (hswap_ok i j x y) by (by apply lookup_app_l_Some).
  unfold swp. rewrite !insert_app_l; [done|..]; rewrite ?insert_length; by eapply lookup_lt_Some.
Qed.

Lemma sift_down_spec fuel : forall b i l z, i < length l -> length l - i < fuel ->
  exists l', sift_down fuel b i (length l) (l ++ [z]) = Ok tt (l' ++ [z]) /\ l' ≡ₚ l /\
    (down_inv b l i -> hord b l') /\
    ((forall c x y, 0 < c -> par c = i -> l !! c = Some x -> l !! i = Some y -> ord b y x) -> l' = l).
Proof.
  induction fuel as [|fuel IH]; intros b i l z Hi Hf; [lia|].
  cbn [sift_down]. rewrite (proj2 (Nat.ltb_lt _ _) Hi).
  destruct (lookup_lt_is_Some_2 l i Hi) as [p Hp].
  rewrite (bind_ok _ _ _ p (l ++ [z])) by (by apply hget_l).
  set (lc := i * 2 + 1). set (rc := i * 2 + 2).
  (* the chosen child *)
  assert (Hsel : exists o,
    (if Nat.leb (length l) rc then if Nat.leb (length l) lc then ret None else ret (Some lc)
     else bind (hget lc) (fun x => bind (hget rc) (fun y =>
       if b then ret (Some (if num_ltb x y then lc else rc)) else ret (Some (if num_ltb y x then lc else rc)))))
    (l ++ [z]) = Ok o (l ++ [z]) /\
    match o with
    | None => length l <= lc
    | Some c => (c = lc \/ c = rc) /\ exists x, l !! c = Some x /\
        forall d y, 0 < d -> par d = i -> l !! d = Some y -> ord b x y
    end).
  { destruct (Nat.leb_spec (length l) rc) as [Hr|Hr]; [destruct (Nat.leb_spec (length l) lc) as [Hl|Hl]|].
    - by exists None.
    - exists (Some lc). split; [done|]. split; [by left|].
      destruct (lookup_lt_is_Some_2 l lc Hl) as [x Hx]. exists x. split; [done|].
      intros d y Hd Hpd Hy. assert (d = lc); [|simplify_eq; apply ord_refl].
      apply lookup_lt_Some in Hy. unfold par in Hpd. lia.
    - destruct (lookup_lt_is_Some_2 l lc) as [x Hx]; [lia|].
      destruct (lookup_lt_is_Some_2 l rc) as [y Hy]; [lia|].
      rewrite (bind_ok _ _ _ x (l ++ [z])) by (by apply hget_l).
      rewrite (bind_ok _ _ _ y (l ++ [z])) by (by apply hget_l).
      assert (Hd : forall d, 0 < d -> par d = i -> d = lc \/ d = rc) by (unfold par; lia).
      assert (Hu : wrong b y x = (if b then num_ltb x y else num_ltb y x)) by done.
      destruct (wrong b y x) eqn:Hw.
      + exists (Some lc). split.
        { destruct b; cbn in Hu; rewrite <- Hu; done. }
        split; [by left|]. exists x. split; [done|]. intros d w Hd0 Hpd Hdw.
        destruct (Hd d Hd0 Hpd) as [-> | ->]; simplify_eq; [apply ord_refl|by apply wrong_true].
      + exists (Some rc). split.
        { destruct b; cbn in Hu; rewrite <- Hu; done. }
        split; [by right|]. exists y. split; [done|]. intros d w Hd0 Hpd Hdw.
        destruct (Hd d Hd0 Hpd) as [-> | ->]; simplify_eq; [by apply wrong_false|apply ord_refl]. }
  destruct Hsel as ([c|] & Hsel & Hprop).
  2:{ rewrite (bind_ok _ _ _ _ _ Hsel). exists l. split; [done|]. split; [done|]. split; [|done].
      intros [Hd1 Hd2] c x q Hc Hx Hq. destruct (decide (par c = i)) as [Hpc|]; [|by eapply Hd1].
      apply lookup_lt_Some in Hx. unfold par in Hpc. lia. }
  rewrite (bind_ok _ _ _ _ _ Hsel). destruct Hprop as (Hc & x & Hx & Hbest).
  assert (Hpc : par c = i) by (unfold par; lia). assert (Hc0 : i < c) by lia.
  pose proof (lookup_lt_Some _ _ _ Hx) as Hcl.
  cbv beta iota. rewrite (bind_ok _ _ _ x (l ++ [z])) by (by apply hget_l).
  destruct (wrong b p x) eqn:Hw.
  - rewrite (bind_ok _ _ _ tt _ (hswap_l _ _ _ z _ _ Hp Hx)).
    destruct (IH b c (swp i c p x l) z) as (l' & Heq & Hperm & Hord & Hsame); [rewrite swp_length; lia..|].
    rewrite swp_length in Heq. exists l'. split; [done|]. split; [rewrite Hperm; by apply swp_perm|].
    split.
    + intros [Hd1 Hd2]. apply Hord. apply wrong_true in Hw. split.
      * intros d w q Hd0 Hpd. rewrite !swp_lookup by lia. rewrite (decide_False (P := par d = c)) by done.
        destruct (decide (d = c)) as [->|Hdc].
        { rewrite decide_True by done. intros; by simplify_eq. }
        destruct (decide (d = i)) as [->|Hdi].
        { rewrite decide_False by (unfold par; lia). intros; simplify_eq. eapply Hd2; [..|exact Hx|]; eauto. lia. }
        destruct (decide (par d = i)) as [Hpi|].
        { intros; simplify_eq. by eapply Hbest. }
        eauto.
      * intros d w q Hd0 Hc1 Hpd. rewrite !swp_lookup by lia. rewrite Hpc.
        rewrite (decide_False (P := i = c)) by lia. rewrite (decide_True (P := i = i)) by done.
        rewrite (decide_False (P := d = c)) by (unfold par in *; lia).
        rewrite (decide_False (P := d = i)) by (unfold par in *; lia).
        intros Hdw ?; simplify_eq. eapply (Hd1 d); [done| |exact Hdw|done]. lia.
    + intros Hall. exfalso. specialize (Hall c x p). assert (ord b p x) as Hb%wrong_iff by (apply Hall; [lia|done..]).
      congruence.
  - exists l. split; [done|]. split; [done|]. split; [|done]. intros [Hd1 Hd2] d w q Hd0 Hdw Hq.
    destruct (decide (par d = i)) as [Hpd|]; [|by eapply Hd1]. rewrite Hpd in Hq. simplify_eq.
    eapply ord_trans; [by apply wrong_false|by eapply Hbest].
Qed.

(** ** Removal *)
Lemma index_of_Some x h i : index_of x h = Some i -> h !! i = Some x.
Proof.
  revert i. induction h as [|y h IH]; intros i; cbn; [done|].
  case_bool_decide; [intros; by simplify_eq|]. destruct (index_of x h); cbn; [|done]. intros; simplify_eq. cbn. by apply IH.
Qed.
Lemma index_of_None x h : index_of x h = None -> x ∉ h.
Proof.
  induction h as [|y h IH]; cbn; [intros _; apply not_elem_of_nil|].
  case_bool_decide; [done|]. destruct (index_of x h); cbn; [done|]. intros _. rewrite not_elem_of_cons. split; [congruence|by apply IH].
Qed.

(** The slot left by the removal, filled with the last element. *)
Definition fits (b : bool) (h : list num) (i : nat) : Prop :=
  i = 0 \/ S i = length h \/ (forall p z, h !! par i = Some p -> last h = Some z -> ord b p z).

Lemma heap_remove_spec b x h i : index_of x h = Some i ->
  exists h', heap_remove b (PNum x) h = Ok false h' /\ h ≡ₚ x :: h' /\ (hord b h -> (hord b h' <-> fits b h i)).
Proof.
  intros Hix. pose proof (index_of_Some _ _ _ Hix) as Hi. unfold heap_remove.
  destruct (last h) as [z|] eqn:Hl; [|apply last_None in Hl as ->; done].
  apply last_Some in Hl as [l ->]. rewrite (bind_ok _ _ _ (l ++ [z]) (l ++ [z])) by done.
  rewrite app_length. cbn [length]. replace (Nat.eqb (length l + 1) 0) with false by (symmetry; apply Nat.eqb_neq; lia).
  rewrite Hix. replace (length l + 1 - 1) with (length l) by lia.
  assert (Hz : (l ++ [z]) !! length l = Some z) by (rewrite lookup_app_r, Nat.sub_diag by lia; done).
  rewrite (bind_ok _ _ _ _ _ (hswap_ok _ _ _ _ _ Hz Hi)).
  pose proof (lookup_lt_Some _ _ _ Hi) as Hil. rewrite app_length in Hil. cbn in Hil.
  set (sent := if b then NegInf else PosInf).
  destruct (decide (i = length l)) as [->|Hne].
  - assert (x = z) as -> by congruence.
    rewrite (bind_ok _ _ _ tt (l ++ [sent])).
    2:{ rewrite hput_ok by (rewrite swp_length, app_length; cbn; lia).
        unfold swp. rewrite !list_insert_insert. rewrite insert_app_r_alt, Nat.sub_diag by lia. done. }
    rewrite (bind_ok _ _ _ tt (l ++ [sent])).
    2:{ unfold rebalance. rewrite (bind_ok _ _ _ (l ++ [sent]) (l ++ [sent])) by done.
        rewrite app_length. cbn [length]. replace (length l + 1 - 1) with (length l) by lia.
        cbn [sift_down]. by rewrite Nat.ltb_irrefl. }
    exists l. split.
    { unfold bind, hpop. destruct (l ++ [sent]) eqn:E; [by destruct l|]. rewrite <- E, removelast_last. done. }
    split; [symmetry; apply Permutation_cons_append|].
    intros Hh. split; [intros _; right; left; rewrite app_length; cbn; lia|]. intros _ c w p Hc Hw Hp.
    eapply Hh; [done|by apply lookup_app_l_Some..].
  - assert (i < length l) as Hlt by lia. rewrite lookup_app_l in Hi by done.
    rewrite (bind_ok _ _ _ tt (<[i := z]> l ++ [sent])).
    2:{ rewrite hput_ok by (rewrite swp_length, app_length; cbn; lia).
        unfold swp. rewrite (list_insert_commute _ (length l) i) by lia. rewrite list_insert_insert.
        rewrite insert_app_r_alt by lia. rewrite Nat.sub_diag. by rewrite insert_app_l. }
    set (l1 := <[i := z]> l) in *.
    assert (Hlen : length l1 = length l) by apply insert_length.
    destruct (sift_down_spec (S (length (l1 ++ [sent]))) b i l1 sent) as (l' & Heq & Hp & Ho & Hs);
      [lia|rewrite app_length; cbn; lia|].
    rewrite (bind_ok _ _ _ tt (l' ++ [sent])).
    2:{ unfold rebalance. rewrite (bind_ok _ _ _ (l1 ++ [sent]) (l1 ++ [sent])) by done.
        rewrite app_length at 2. cbn [length]. replace (length l1 + 1 - 1) with (length l1) by lia. done. }
    exists l'. split.
    { unfold bind, hpop. destruct (l' ++ [sent]) eqn:E; [by destruct l'|]. rewrite <- E, removelast_last. done. }
    split.
    { rewrite Hp. unfold l1. rewrite (insert_perm _ _ _ z Hi). rewrite <- Permutation_cons_append.
      rewrite (delete_Permutation _ _ _ Hi) at 1. apply perm_swap. }
    intros Hh.
    assert (Hl1 : forall c w p, 0 < c -> c <> i -> par c <> i -> l1 !! c = Some w -> l1 !! par c = Some p -> ord b p w).
    { intros c w p Hc Hci Hpi. unfold l1. rewrite !list_lookup_insert_ne by done. intros ??.
      eapply Hh; [done|by apply lookup_app_l_Some..]. }
    assert (Hlx : forall c w p, 0 < c -> 0 < i -> par c = i -> l1 !! c = Some w -> l1 !! par i = Some p -> ord b p w).
    { intros c w p Hc Hi0 Hpc. unfold l1. rewrite !list_lookup_insert_ne by (unfold par in *; lia). intros Hw Hpp.
      eapply (ord_trans b _ x).
      - eapply (Hh i); [done|by apply lookup_app_l_Some..].
      - eapply (Hh c); [done|by apply lookup_app_l_Some|rewrite Hpc; by apply lookup_app_l_Some]. }
    assert (Hli : l1 !! i = Some z) by (by apply list_lookup_insert).
    split.
    + intros Hh'. destruct (decide (i = 0)) as [->|Hi0]; [by left|]. right; right. intros p w Hpp Hw.
      rewrite last_snoc in Hw. simplify_eq. destruct (wrong b p w) eqn:Hwr; [|by apply wrong_false].
      apply wrong_true in Hwr. rewrite lookup_app_l in Hpp by (unfold par; lia).
      assert (Hpl : l1 !! par i = Some p) by (unfold l1; rewrite list_lookup_insert_ne by (unfold par; lia); done).
      rewrite Hs in Hh'; [by eapply Hh'; [|exact Hli|exact Hpl]; lia|]. intros c u v Hc Hpc Hu Hv. simplify_eq.
      eapply ord_trans; [exact Hwr|]. eapply (Hlx c); eauto. lia.
    + intros [-> | [H | H]].
      * apply Ho. split; [|intros; lia]. intros c w p Hc Hpc. apply Hl1; [done|lia|done].
      * rewrite app_length in H. cbn in H. lia.
      * apply Ho. split; [|done]. intros c w p Hc Hpc Hw Hpp. destruct (decide (c = i)) as [->|]; [|by eapply Hl1].
        simplify_eq. apply H; [|by rewrite last_snoc]. apply lookup_app_l_Some.
        unfold l1 in Hpp. by rewrite list_lookup_insert_ne in Hpp by (unfold par; lia).
Qed.

(** ** The extrema *)
Lemma hord_top b h x : hord b h -> h !! 0 = Some x -> Forall (ord b x) h.
Proof.
  intros Hh Hx. apply Forall_lookup. intros i. induction (lt_wf i) as [i _ IH]. intros y Hy.
  destruct (decide (i = 0)) as [->|]; [simplify_eq; apply ord_refl|].
  destruct (lookup_lt_is_Some_2 h (par i)) as [p Hp]; [apply lookup_lt_Some in Hy; unfold par; lia|].
  eapply ord_trans; [eapply (IH (par i)); [unfold par; lia|exact Hp]|]. eapply Hh; [|exact Hy|exact Hp]. lia.
Qed.
Lemma hord_bottom b h : hord b h -> forall y, y ∈ h -> exists z, z ∈ drop (Nat.div (length h) 2) h /\ ord b y z.
Proof.
  intros Hh y [i Hi]%elem_of_list_lookup. remember (length h - i) as n eqn:Hn.
  revert i y Hi Hn. induction (lt_wf n) as [n _ IH]. intros i y Hi ->.
  destruct (decide (i < Nat.div (length h) 2)) as [Hlt|Hge].
  - destruct (lookup_lt_is_Some_2 h (2 * i + 1)) as [z Hz]; [lia|].
    pose proof (lookup_lt_Some _ _ _ Hi). pose proof (lookup_lt_Some _ _ _ Hz).
    destruct (IH (length h - (2 * i + 1)) ltac:(lia) (2 * i + 1) z Hz eq_refl) as (w & Hw & Ho).
    exists w. split; [done|]. eapply ord_trans; [|exact Ho]. eapply Hh; [|exact Hz|]; [lia|].
    unfold par. replace ((2 * i + 1 - 1) `div` 2)%nat with i by lia. done.
  - exists y. split; [|apply ord_refl]. apply elem_of_list_lookup. exists (i - Nat.div (length h) 2).
    rewrite lookup_drop. rewrite <- Hi. f_equal. lia.
Qed.
Lemma fold_pick b l : forall x, (fold_left (pick b) l x) ∈ x :: l /\
  Forall (ord b (fold_left (pick b) l x)) (x :: l).
Proof.
  induction l as [|y l IH]; intros x; cbn.
  { split; [by left|]. constructor; [apply ord_refl|done]. }
  destruct (IH (pick b x y)) as [H1 H2]. inversion H2 as [|? ? H3 H4]; subst. split.
  - apply elem_of_cons in H1 as [-> | H1]; [|by right; right]. destruct (pick_or b x y) as [-> | ->]; [by left|right; by left].
  - constructor; [|constructor; [|done]].
    + eapply ord_trans; [exact H3|apply pick_l].
    + eapply ord_trans; [exact H3|apply pick_r].
Qed.

Lemma get_top_spec b h x : h !! 0 = Some x -> heap_get_top b h = Ok x h.
Proof. destruct h; cbn; intros; by simplify_eq. Qed.
Lemma get_bottom_spec b h : h <> [] ->
  exists x, heap_get_bottom b h = Ok x h /\ x ∈ h /\ (hord b h -> Forall (ord (negb b) x) h).
Proof.
  intros Hne. unfold heap_get_bottom. rewrite (bind_ok _ _ h h h) by done.
  destruct (Nat.eqb_spec (length h) 0) as [H|H]; [by destruct h|].
  destruct (drop (Nat.div (length h) 2) h) as [|y l] eqn:E.
  { apply (f_equal length) in E. rewrite drop_length in E. cbn [length] in E. lia. }
  destruct (fold_pick (negb b) l y) as [H1 H2]. cbn [list_extreme].
  eexists. split; [done|]. split.
  - rewrite <- E in H1. apply elem_of_list_lookup in H1 as [k Hk]. rewrite lookup_drop in Hk. by eapply elem_of_list_lookup_2.
  - intros Hh. apply Forall_forall. intros w Hw. destruct (hord_bottom b h Hh w Hw) as (z & Hz & Ho).
    rewrite E in Hz. rewrite Forall_forall in H2. specialize (H2 z Hz).
    eapply ord_trans; [exact H2|]. destruct b; exact Ho.
Qed.

(** ** Calls *)
Lemma heap_remove_top_spec b h x : hord b h -> h !! 0 = Some x ->
  exists h', heap_remove b (PNum x) h = Ok false h' /\ h ≡ₚ x :: h' /\ hord b h'.
Proof.
  intros Hh Hx. assert (Hi : index_of x h = Some 0).
  { destruct h as [|y h]; [done|]. cbn in *. simplify_eq. by rewrite bool_decide_eq_true_2. }
  destruct (heap_remove_spec b x h 0 Hi) as (h' & H1 & H2 & H3). exists h'. split; [done|]. split; [done|].
  apply H3; [done|]. by left.
Qed.
Lemma heap_remove_member b h x : x ∈ h -> exists h', heap_remove b (PNum x) h = Ok false h' /\ h ≡ₚ x :: h'.
Proof.
  intros Hx. destruct (index_of x h) as [i|] eqn:E; [|by apply index_of_None in E].
  destruct (heap_remove_spec b x h i E) as (h' & H1 & H2 & _). eauto.
Qed.
Lemma heap_remove_absent b v h : (forall n, v = PNum n -> n ∉ h) -> heap_remove b v h = Ok true h.
Proof.
  intros Hv. unfold heap_remove. rewrite (bind_ok _ _ h h h) by done.
  destruct (Nat.eqb (length h) 0); [done|]. destruct v; try done.
  destruct (index_of n h) as [i|] eqn:E; [|done]. exfalso.
  eapply Hv; [done|]. apply index_of_Some in E. by eapply elem_of_list_lookup_2.
Qed.
Lemma heap_item_bad v : (forall n, v <> PNum n) -> heap_item v = inl (if bool_decide (v = PNone) then ValueError else TypeError).
Proof. intros H. destruct v; try done; exfalso; by eapply H. Qed.

(** What each accessor does: [b] the heap's direction. *)
Lemma top_member b h : h <> [] -> exists x, heap_get_top b h = Ok x h /\ h !! 0 = Some x.
Proof. destruct h as [|x h]; [done|]. eauto. Qed.
Lemma is_best b x h : x ∈ h -> Forall (ord b x) h -> if b then is_min x h else is_max x h.
Proof. destruct b; by split. Qed.

Global Instance hop_eq_dec : EqDecision hop.
Proof. solve_decision. Defined.
Lemma num_or_not v : (exists n, v = PNum n) \/ (forall n, v <> PNum n).
Proof. destruct v; eauto; right; done. Qed.
Lemma member_or_not v (h : list num) : (exists n, v = PNum n /\ n ∈ h) \/ (forall n, v = PNum n -> n ∉ h).
Proof.
  destruct (num_or_not v) as [[n ->]|H]; [|right; naive_solver].
  destruct (decide (n ∈ h)); [left|right]; naive_solver.
Qed.

Lemma call_weak b op h : exists h',
  (exists r, heap_call b op h = Ok r h' /\ heap_may_weak h op r h' ) \/
  (exists e, heap_call b op h = Exc e h' /\ heap_may_weak h op (HExc e) h').
Proof.
  assert (Hgetrem : forall op (g : M heap num), op = HGetMin \/ op = HGetMax \/ op = HRemoveMin \/ op = HRemoveMax ->
    (g = heap_get_top b \/ g = heap_get_bottom b) ->
    heap_call b op = (if decide (op = HGetMin \/ op = HGetMax) then bind g (fun x => ret (HVal x))
       else bind (bind g (fun m => heap_remove b (PNum m))) (fun w => ret (HRet w))) ->
    exists h',
  (exists r, heap_call b op h = Ok r h' /\ heap_may_weak h op r h' ) \/
  (exists e, heap_call b op h = Exc e h' /\ heap_may_weak h op (HExc e) h')).
  { intros o g Ho Hg Hc. destruct (decide (h = [])) as [->|Hne].
    - exists []. right. exists IndexError. split.
      + rewrite Hc. destruct (decide _), Hg as [-> | ->]; done.
      + constructor. constructor; [|done..]. rewrite !elem_of_cons. naive_solver.
    - assert (exists x, g h = Ok x h /\ x ∈ h) as (x & Hx & Hxe).
      { destruct Hg as [-> | ->].
        - destruct (top_member b h Hne) as (x & ? & ?). exists x. split; [done|]. by eapply elem_of_list_lookup_2.
        - destruct (get_bottom_spec b h Hne) as (x & ? & ? & ?). eauto. }
      destruct (decide (o = HGetMin \/ o = HGetMax)) as [Hd|Hd].
      + exists h. left. exists (HVal x). rewrite Hc. rewrite (bind_ok _ _ _ _ _ Hx). split; [done|]. by apply hw_get.
      + destruct (heap_remove_member b h x Hxe) as (h' & Hr & Hp). exists h'. left. exists (HRet false). rewrite Hc.
        rewrite (bind_ok _ _ h false h'). 2:{ by rewrite (bind_ok _ _ _ _ _ Hx). }
        split; [done|]. eapply hw_remove; [|done]. naive_solver. }
  destruct op.
  - destruct (num_or_not v) as [[n ->]|Hn'].
    + destruct (heap_insert_spec b n h) as (h' & H1 & H2 & _). exists h'. left. exists (HRet false). cbn.
      rewrite (bind_ok _ _ _ _ _ H1). split; [done|]. by do 2 constructor.
    + exists h. right. cbn. unfold heap_insert.
      rewrite (heap_item_bad v Hn'). eexists. split; [done|]. case_bool_decide; subst; by do 2 constructor.
  - destruct (member_or_not v h) as [(n & -> & Hn)|Hn'].
    + destruct (heap_remove_member b h n Hn) as (h' & H1 & H2). exists h'. left. exists (HRet false). cbn.
      rewrite (bind_ok _ _ _ _ _ H1). split; [done|]. by do 2 constructor.
    + exists h. left. exists (HRet true). cbn.
      rewrite (bind_ok _ _ _ _ _ (heap_remove_absent b v h Hn')). split; [done|]. by do 2 constructor.
  - apply (Hgetrem HRemoveMin (heap_get_min b)); [naive_solver|destruct b; auto|by rewrite decide_False by naive_solver].
  - apply (Hgetrem HRemoveMax (heap_get_max b)); [naive_solver|destruct b; auto|by rewrite decide_False by naive_solver].
  - apply (Hgetrem HGetMin (heap_get_min b)); [naive_solver|destruct b; auto|by rewrite decide_True by naive_solver].
  - apply (Hgetrem HGetMax (heap_get_max b)); [naive_solver|destruct b; auto|by rewrite decide_True by naive_solver].
  - exists h. left. cbn. unfold heap_contains.
    assert (Hc : exists r, (bind get_state (fun h => if Nat.eqb (length h) 0 then ret false else
      match v with PNum x => ret (bool_decide (x ∈ h)) | _ => ret false end)) h = Ok r h /\
      (r = true <-> exists n, v = PNum n /\ n ∈ h)).
    { rewrite (bind_ok _ _ h h h) by done. destruct (Nat.eqb_spec (length h) 0) as [E|E].
      - destruct h; [|done]. exists false. split; [done|]. split; [done|]. intros (n & _ & Hn). by apply elem_of_nil in Hn.
      - destruct v; try (exists false; split; [done|]; split; [done|naive_solver]).
        exists (bool_decide (n ∈ h)). split; [done|]. rewrite bool_decide_eq_true. naive_solver. }
    destruct Hc as (r & Hc & Hr). exists (HBool r). rewrite (bind_ok _ _ _ _ _ Hc). split; [done|]. by do 2 constructor.
  - exists h. left. eexists. split; [done|]. by do 2 constructor.
  - exists h. left. eexists. split; [done|]. do 2 constructor; [|done]. rewrite Nat.eqb_eq. by destruct h.
  - exists h. left. eexists. split; [done|]. by do 2 constructor.
  - exists []. left. eexists. split; [done|]. by do 2 constructor.
Qed.

Definition ext_op (op : hop) : bool :=
  match op with HRemoveMin | HRemoveMax | HGetMin | HGetMax => true | _ => false end.
Lemma call_exact b op h : hord b h -> top_only b op -> exists h',
  ((exists r, heap_call b op h = Ok r h' /\ heap_may h op r h' ) \/
  (exists e, heap_call b op h = Exc e h' /\ heap_may h op (HExc e) h')) /\ hord b h'.
Proof.
  intros Hh Ht.
  assert (Hnil : h = [] -> ext_op op = true ->
    heap_call b op h = Exc IndexError [] /\ heap_may h op (HExc IndexError) []).
  { intros -> Hop. split; [destruct op, b; done|]. constructor; [|done..]. rewrite !elem_of_cons. destruct op; naive_solver. }
  assert (Hbot : forall x, heap_get_bottom b h = Ok x h -> x ∈ h -> Forall (ord (negb b) x) h ->
    if b then is_max x h else is_min x h) by (intros; destruct b; by split).
  assert (Htop : forall x, h !! 0 = Some x -> if b then is_min x h else is_max x h).
  { intros x Hx. apply is_best; [by eapply elem_of_list_lookup_2|by apply hord_top]. }
  destruct (ext_op op) eqn:Hop.
  - destruct (decide (h = [])) as [Hn|Hne].
    { destruct (Hnil Hn eq_refl) as [H1 H2]. exists []. split; [right; eauto|]. intros c x p _ Hx. done. }
    destruct (top_member b h Hne) as (x & Hx1 & Hx2). specialize (Htop x Hx2).
    destruct (get_bottom_spec b h Hne) as (y & Hy1 & Hy2 & Hy3). specialize (Hbot y Hy1 Hy2 (Hy3 Hh)).
    destruct (heap_remove_top_spec b h x Hh Hx2) as (h' & Hr & Hp & Hh').
    destruct op; try done.
    + cbn in Ht. subst b. exists h'. split; [|done]. left. exists (HRet false). cbn. unfold heap_remove_min.
      rewrite (bind_ok _ _ h false h'). 2:{ by rewrite (bind_ok _ _ _ _ _ Hx1). } split; [done|]. by econstructor.
    + cbn in Ht. subst b. exists h'. split; [|done]. left. exists (HRet false). cbn. unfold heap_remove_max.
      rewrite (bind_ok _ _ h false h'). 2:{ by rewrite (bind_ok _ _ _ _ _ Hx1). } split; [done|]. by econstructor.
    + exists h. split; [|done]. left. destruct b; cbn -[heap_get_top heap_get_bottom].
      * exists (HVal x). rewrite (bind_ok _ _ h x h) by done. split; [done|by constructor].
      * exists (HVal y). rewrite (bind_ok _ _ h y h) by done. split; [done|by constructor].
    + exists h. split; [|done]. left. destruct b; cbn -[heap_get_top heap_get_bottom].
      * exists (HVal y). rewrite (bind_ok _ _ h y h) by done. split; [done|by constructor].
      * exists (HVal x). rewrite (bind_ok _ _ h x h) by done. split; [done|by constructor].
  - destruct (call_weak b op h) as (h' & Hc). exists h'. split.
    + destruct Hc as [(r & H1 & H2)|(e & H1 & H2)]; [left; exists r|right; exists e]; (split; [done|]);
        inversion H2 as [? ? ? H3|? ? ? [-> | ->]|? ? ? [-> | ->]]; subst; done.
    + destruct op; try done.
      * destruct (num_or_not v) as [[n ->]|Hn'].
        { destruct (heap_insert_spec b n h) as (h2 & H1 & _ & H3). cbn [heap_call] in Hc. unfold bind in Hc. rewrite H1 in Hc.
          destruct Hc as [(r & H4 & _)|(e & H4 & _)]; [|done]. inversion H4; subst. by apply H3. }
        cbn [heap_call] in Hc. unfold heap_insert, bind in Hc.
        rewrite (heap_item_bad v Hn') in Hc. destruct Hc as [(r & H4 & _)|(e & H4 & _)]; [done|]. by inversion H4; subst.
      * destruct Hc as [(r & H4 & _)|(e & H4 & _)].
        -- cbn in H4. unfold heap_contains, bind in H4. cbn in H4. destruct (Nat.eqb (length h) 0), v; by inversion H4; subst.
        -- exfalso. cbn in H4. unfold heap_contains, bind in H4. cbn in H4. destruct (Nat.eqb (length h) 0), v; done.
      * destruct Hc as [(r & H4 & _)|(e & H4 & _)]; by inversion H4; subst.
      * destruct Hc as [(r & H4 & _)|(e & H4 & _)]; by inversion H4; subst.
      * destruct Hc as [(r & H4 & _)|(e & H4 & _)]; by inversion H4; subst.
      * destruct Hc as [(r & H4 & _)|(e & H4 & _)]; inversion H4; subst. intros c x p _ Hx. done.
Qed.

(** The specification does not see the order of the bag. *)
Lemma heap_may_perm bag1 bag2 op r bag' : bag1 ≡ₚ bag2 -> heap_may bag1 op r bag' -> heap_may bag2 op r bag'.
Proof.
  intros Hp Hm.
  assert (Hmin : forall m, is_min m bag1 -> is_min m bag2).
  { intros m [H1 H2]. split; by rewrite <- Hp. }
  assert (Hmax : forall m, is_max m bag1 -> is_max m bag2).
  { intros m [H1 H2]. split; by rewrite <- Hp. }
  inversion Hm; subst; try (econstructor; (eassumption || (rewrite <- Hp; done) || (etrans; [eassumption|by rewrite Hp]) || eauto); fail).
  - constructor; [|by etrans]. intros n ->. rewrite <- Hp. eauto.
  - apply Permutation_nil in Hp. subst. by constructor.
  - constructor; [|by etrans]. by setoid_rewrite <- Hp.
  - rewrite Hp. constructor. by etrans.
  - constructor; [|by etrans]. rewrite H. split; intros ->; [by apply Permutation_nil|by apply Permutation_nil, symmetry].
Qed.

Lemma calls_exact b ops : forall h, hord b h -> Forall (top_only b) ops -> exists rs h',
  heap_calls b h ops = Some (rs, h') /\ heap_answers h ops rs h' /\ hord b h'.
Proof.
  induction ops as [|op ops IH]; intros h Hh Ht.
  { exists [], h. split; [done|]. split; [constructor|done]. }
  inversion Ht; subst. destruct (call_exact b op h) as (h1 & Hc & Hh1); [done..|].
  destruct (IH h1 Hh1) as (rs & h' & H3 & H4 & H5); [done|]. cbn [heap_calls].
  destruct Hc as [(r & -> & Hr)|(e & -> & Hr)]; rewrite H3; eexists _, _; (split; [done|]); (split; [|done]); by econstructor.
Qed.
Lemma calls_weak b ops : forall h, exists rs h',
  heap_calls b h ops = Some (rs, h') /\ heap_answers_weak h ops rs h'.
Proof.
  induction ops as [|op ops IH]; intros h.
  { exists [], h. split; [done|]. constructor. }
  destruct (call_weak b op h) as (h1 & Hc).
  destruct (IH h1) as (rs & h' & H3 & H4). cbn [heap_calls].
  destruct Hc as [(r & -> & Hr)|(e & -> & Hr)]; rewrite H3; eexists _, _; (split; [done|]); by econstructor.
Qed.

(** ** heapify *)
Lemma insert_all_spec b xs : forall h, exists h', insert_all b (PNum <$> xs) h = Ok tt h' /\ h' ≡ₚ xs ++ h /\ (hord b h -> hord b h').
Proof.
  induction xs as [|x xs IH]; intros h; [by exists h|].
  destruct (heap_insert_spec b x h) as (h1 & H1 & H2 & H3). destruct (IH h1) as (h2 & H4 & H5 & H6).
  exists h2. split; [cbn; by rewrite (bind_ok _ _ _ _ _ H1)|]. split; [|auto].
  rewrite H5, H2. cbn. symmetry. apply Permutation_middle.
Qed.
Lemma heapify_spec b xs : exists h, heapify b (PNum <$> xs) = Ok tt h /\ h ≡ₚ xs /\ hord b h.
Proof.
  destruct (insert_all_spec b xs []) as (h & H1 & H2 & H3). exists h. split; [done|]. rewrite app_nil_r in H2.
  split; [done|]. apply H3. intros c x p _ Hx. done.
Qed.
Lemma heapify_bad b xs v rest : (forall n, v <> PNum n) ->
  exists h, heapify b ((PNum <$> xs) ++ v :: rest) = Exc (if bool_decide (v = PNone) then ValueError else TypeError) h.
Proof.
  intros Hv. unfold heapify. generalize (@nil num) at 1. induction xs as [|x xs IH]; intros h; cbn.
  - exists h. apply bind_exc. unfold heap_insert. by rewrite heap_item_bad.
  - destruct (heap_insert_spec b x h) as (h1 & H1 & _ & _). rewrite (bind_ok _ _ _ _ _ H1). apply IH.
Qed.
Lemma answers_perm bag1 bag2 ops rs bag' : bag1 ≡ₚ bag2 -> heap_answers bag1 ops rs bag' ->
  ops <> [] -> heap_answers bag2 ops rs bag'.
Proof. intros Hp Ha Hne. inversion Ha; subst; [done|]. econstructor; [by eapply heap_may_perm|done]. Qed.

(** ** Draining sorts *)
Definition drain_ops (b : bool) : list hop := if b then [HGetMin; HRemoveMin] else [HGetMax; HRemoveMax].
Lemma drain b h n : hord b h -> length h = n -> exists ys,
  heap_calls b h (concat (replicate n (drain_ops b))) = Some (flat_map (fun y => [HVal y; HRet false]) ys, []) /\
  ys ≡ₚ h /\ StronglySorted (ord b) ys.
Proof.
  revert h. induction n as [|n IH]; intros h Hh Hl.
  - destruct h; [|done]. exists []. split; [done|]. split; [done|constructor].
  - destruct (top_member b h) as (x & Hx1 & Hx2); [by intros ->|].
    destruct (heap_remove_top_spec b h x Hh Hx2) as (h' & Hr & Hp & Hh').
    destruct (IH h' Hh') as (ys & H1 & H2 & H3); [apply Permutation_length in Hp; cbn in Hp; lia|].
    exists (x :: ys). split.
    + destruct b; cbn [replicate concat drain_ops app heap_calls heap_call].
      * rewrite (bind_ok _ _ h x h) by done. cbn [ret]. unfold heap_remove_min.
        rewrite (bind_ok _ _ h false h'). 2:{ by rewrite (bind_ok _ _ h x h). }
        cbn. cbn in H1. by rewrite H1.
      * rewrite (bind_ok _ _ h x h) by done. cbn [ret]. unfold heap_remove_max.
        rewrite (bind_ok _ _ h false h'). 2:{ by rewrite (bind_ok _ _ h x h). }
        cbn. cbn in H1. by rewrite H1.
    + split; [by rewrite H2|]. constructor; [done|]. pose proof (hord_top b h x Hh Hx2) as Hall.
      rewrite Hp in Hall. inversion Hall; subst. by rewrite H2.
Qed.

(** ** Removal, as stated *)
Lemma first_at_index h x i : first_at h x i -> index_of x h = Some i.
Proof.
  revert i. induction h as [|y h IH]; intros i [H1 H2]; [done|]. cbn.
  destruct i as [|i]; [cbn in H1; simplify_eq; by rewrite bool_decide_eq_true_2|].
  rewrite bool_decide_eq_false_2.
  - rewrite (IH i); [done|]. split; [done|]. intros j Hj. apply (H2 (S j)). lia.
  - intros ->. apply (H2 0); [lia|done].
Qed.
Lemma slot_fits_fits b h i x : h !! i = Some x -> slot_fits b h i <-> fits b h i.
Proof.
  intros Hx. unfold slot_fits, fits, ord. fold (par i). split; intros [H|[H|H]]; auto; right; right.
  - destruct H as (p & z & H1 & H2 & H3). intros; simplify_eq. by destruct b.
  - destruct (lookup_lt_is_Some_2 h (par i)) as [p Hp]; [apply lookup_lt_Some in Hx; unfold par; lia|].
    destruct (last h) as [z|] eqn:Hz; [|apply last_None in Hz as ->; done].
    exists p, z. split; [done|]. split; [done|]. specialize (H p z Hp eq_refl). by destruct b.
Qed.
Lemma remove_order b h x i : heap_ordered b h -> first_at h x i ->
  exists h', heap_remove b (PNum x) h = Ok false h' /\ h ≡ₚ x :: h' /\ (heap_ordered b h' <-> slot_fits b h i).
Proof.
  intros Hh Hf. destruct (heap_remove_spec b x h i (first_at_index _ _ _ Hf)) as (h' & H1 & H2 & H3).
  exists h'. split; [done|]. split; [done|]. rewrite <- hord_heap_ordered, (slot_fits_fits _ _ _ x (proj1 Hf)).
  apply H3. by apply hord_heap_ordered.
Qed.

(** ** Iteration *)
Definition tnode (h : list num) (n i : nat) : hnode :=
  HNode (default NegInf (h !! i)) (if Nat.ltb (2 * i + 1) n then Some (2 * i + 1) else None)
    (if Nat.ltb (2 * i + 2) n then Some (2 * i + 2) else None).
Definition tree_upto (h : list num) (n : nat) : tmem := tnode h n <$> seq 0 n.
Lemma tree_upto_lookup h n i : i < n -> tree_upto h n !! i = Some (tnode h n i).
Proof. intros H. unfold tree_upto. rewrite list_lookup_fmap, lookup_seq_lt by done. done. Qed.
Lemma tree_upto_length h n : length (tree_upto h n) = n.
Proof. unfold tree_upto. by rewrite fmap_length, seq_length. Qed.
Lemma tnode_same h n m i : (2 * i + 1 < n <-> 2 * i + 1 < m) -> (2 * i + 2 < n <-> 2 * i + 2 < m) -> tnode h n i = tnode h m i.
Proof.
  intros H1 H2. unfold tnode. repeat match goal with |- context [Nat.ltb ?a ?b] => destruct (Nat.ltb_spec a b) end; try lia; done.
Qed.
Lemma tree_upto_grow_l h k : tree_upto h (2 * k + 2) =
  <[k := HNode (default NegInf (h !! k)) (Some (2 * k + 1)) None]> (tree_upto h (2 * k + 1) ++ [HNode (default NegInf (h !! (2 * k + 1))) None None]).
Proof.
  apply list_eq. intros i. destruct (decide (i = k)) as [->|Hik].
  { rewrite list_lookup_insert by (rewrite app_length, tree_upto_length; cbn; lia). rewrite tree_upto_lookup by lia.
    unfold tnode. by rewrite (proj2 (Nat.ltb_lt _ _)), (proj2 (Nat.ltb_ge _ _)) by lia. }
  rewrite list_lookup_insert_ne by done. destruct (decide (i < 2 * k + 1)) as [Hi|Hi].
  { rewrite lookup_app_l by (rewrite tree_upto_length; lia). rewrite !tree_upto_lookup by lia. f_equal. apply tnode_same; lia. }
  rewrite lookup_app_r by (rewrite tree_upto_length; lia). rewrite tree_upto_length.
  destruct (decide (i = 2 * k + 1)) as [->|].
  - rewrite Nat.sub_diag, tree_upto_lookup by lia. cbn. unfold tnode. by rewrite !(proj2 (Nat.ltb_ge _ _)) by lia.
  - rewrite !lookup_ge_None_2; [done|cbn; lia|rewrite tree_upto_length; lia].
Qed.
Lemma tree_upto_grow_r h k : tree_upto h (2 * k + 3) =
  <[k := HNode (default NegInf (h !! k)) (Some (2 * k + 1)) (Some (2 * k + 2))]> (tree_upto h (2 * k + 2) ++ [HNode (default NegInf (h !! (2 * k + 2))) None None]).
Proof.
  apply list_eq. intros i. destruct (decide (i = k)) as [->|Hik].
  { rewrite list_lookup_insert by (rewrite app_length, tree_upto_length; cbn; lia). rewrite tree_upto_lookup by lia.
    unfold tnode. by rewrite !(proj2 (Nat.ltb_lt _ _)) by lia. }
  rewrite list_lookup_insert_ne by done. destruct (decide (i < 2 * k + 2)) as [Hi|Hi].
  { rewrite lookup_app_l by (rewrite tree_upto_length; lia). rewrite !tree_upto_lookup by lia. f_equal. apply tnode_same; lia. }
  rewrite lookup_app_r by (rewrite tree_upto_length; lia). rewrite tree_upto_length.
  destruct (decide (i = 2 * k + 2)) as [->|].
  - rewrite Nat.sub_diag, tree_upto_lookup by lia. cbn. unfold tnode. by rewrite !(proj2 (Nat.ltb_ge _ _)) by lia.
  - rewrite !lookup_ge_None_2; [done|cbn; lia|rewrite tree_upto_length; lia].
Qed.

Lemma hnode_get_ok i m n : m !! i = Some n -> hnode_get i m = Ok n m.
Proof. unfold hnode_get. by intros ->. Qed.
Lemma set_left_ok p c m n : m !! p = Some n -> set_left p c m = Ok tt (<[p := HNode (hn_data n) (Some c) (hn_right n)]> m).
Proof. intros H. unfold set_left. by rewrite (bind_ok _ _ _ _ _ (hnode_get_ok _ _ _ H)). Qed.
Lemma set_right_ok p c m n : m !! p = Some n -> set_right p c m = Ok tt (<[p := HNode (hn_data n) (hn_left n) (Some c)]> m).
Proof. intros H. unfold set_right. by rewrite (bind_ok _ _ _ _ _ (hnode_get_ok _ _ _ H)). Qed.

Lemma transform_loop_spec h fuel : forall k, 2 * k + 1 <= length h -> length h - 2 * k < fuel ->
  transform_loop fuel h (seq k (k + 1)) (2 * k + 1) (tree_upto h (2 * k + 1)) = Ok tt (tree_upto h (length h)).
Proof.
  induction fuel as [|fuel IH]; intros k Hk Hf; [lia|]. cbn [transform_loop].
  destruct (Nat.ltb_spec (2 * k + 1) (length h)) as [Hl|Hl]; [|by replace (2 * k + 1) with (length h) by lia].
  replace (k + 1) with (S k) by lia. cbn [seq].
  destruct (lookup_lt_is_Some_2 h (2 * k + 1) Hl) as [x Hx]. rewrite Hx.
  rewrite (bind_ok _ _ _ x (tree_upto h (2 * k + 1))) by done.
  rewrite (bind_ok _ _ _ (2 * k + 1) (tree_upto h (2 * k + 1) ++ [HNode x None None])).
  2:{ unfold hnew. by rewrite tree_upto_length. }
  rewrite (bind_ok _ _ _ tt (tree_upto h (2 * k + 2))).
  2:{ rewrite (set_left_ok _ _ _ (tnode h (2 * k + 1) k)).
      - rewrite tree_upto_grow_l, Hx. cbn [hn_data hn_right tnode default]. by rewrite (proj2 (Nat.ltb_ge (2 * k + 2) _)) by lia.
      - apply lookup_app_l_Some. apply tree_upto_lookup. lia. }
  destruct (Nat.ltb_spec (S (2 * k + 1)) (length h)) as [Hr|Hr].
  - replace (S (2 * k + 1)) with (2 * k + 2) in * by lia. destruct (lookup_lt_is_Some_2 h (2 * k + 2) Hr) as [y Hy]. rewrite Hy.
    rewrite (bind_ok _ _ _ y (tree_upto h (2 * k + 2))) by done.
    rewrite (bind_ok _ _ _ (2 * k + 2) (tree_upto h (2 * k + 2) ++ [HNode y None None])).
    2:{ unfold hnew. by rewrite tree_upto_length. }
    rewrite (bind_ok _ _ _ tt (tree_upto h (2 * k + 3))).
    2:{ rewrite (set_right_ok _ _ _ (tnode h (2 * k + 2) k)).
        - rewrite tree_upto_grow_r, Hy. cbn [hn_data hn_left tnode default]. by rewrite (proj2 (Nat.ltb_lt (2 * k + 1) _)) by lia.
        - apply lookup_app_l_Some. apply tree_upto_lookup. lia. }
    replace (S (2 * k + 2)) with (2 * S k + 1) by lia. replace (2 * k + 3) with (2 * S k + 1) by lia.
    replace (seq (S k) k ++ [2 * k + 1; 2 * k + 2]) with (seq (S k) (S k + 1)).
    2:{ replace (S k + 1) with (k + 2) by lia. rewrite seq_app. cbn. f_equal. f_equal; [lia|]. f_equal. lia. }
    apply IH; lia.
  - destruct fuel as [|fuel]; [lia|]. cbn [transform_loop]. rewrite (proj2 (Nat.ltb_ge _ _)) by lia.
    unfold ret. do 2 f_equal. lia.
Qed.

Lemma visit_level_spec h : forall len a, a + len <= length h ->
  visit_level (seq a len) (tree_upto h (length h)) =
    Ok (take len (drop a h), seq (2 * a + 1) (Nat.min (2 * (a + len) + 1) (length h) - (2 * a + 1))) (tree_upto h (length h)).
Proof.
  induction len as [|len IH]; intros a Ha; cbn [seq visit_level].
  { unfold ret. do 2 f_equal. replace (_ - _) with 0 by lia. done. }
  rewrite (bind_ok _ _ _ _ _ (hnode_get_ok _ _ _ (tree_upto_lookup h (length h) a ltac:(lia)))).
  rewrite (bind_ok _ _ _ _ _ (IH (S a) ltac:(lia))). unfold ret. cbn [fst snd].
  destruct (lookup_lt_is_Some_2 h a) as [x Hx]; [lia|]. f_equal. f_equal.
  - rewrite (drop_S _ _ _ Hx). cbn [take]. unfold tnode. cbn [hn_data]. by rewrite Hx.
  - unfold hchildren, tnode. cbn [hn_left hn_right].
    destruct (Nat.ltb_spec (2 * a + 1) (length h)), (Nat.ltb_spec (2 * a + 2) (length h)); unfold option_list; cbn [app option_rect]; try lia.
    + match goal with |- _ = seq _ ?n => replace n with (2 + (Nat.min (2 * (S a + len) + 1) (length h) - (2 * S a + 1))) by lia end.
      cbn [seq Nat.add]. repeat first [done | lia | f_equal].
    + replace (_ - (2 * S a + 1)) with 0 by lia. replace (_ - (2 * a + 1)) with 1 by lia. done.
    + replace (_ - (2 * S a + 1)) with 0 by lia. replace (_ - (2 * a + 1)) with 0 by lia. done.
Qed.
Lemma iter_levels_spec h fuel : forall a, length h - a < fuel ->
  iter_levels fuel (seq a (Nat.min (2 * a + 1) (length h) - a)) (tree_upto h (length h)) = Ok (drop a h) (tree_upto h (length h)).
Proof.
  induction fuel as [|fuel IH]; intros a Hf; [lia|]. cbn [iter_levels]. rewrite seq_length.
  destruct (Nat.eqb_spec (Nat.min (2 * a + 1) (length h) - a) 0) as [E|E].
  { rewrite drop_ge by lia. done. }
  rewrite (bind_ok _ _ _ _ _ (visit_level_spec h (Nat.min (2 * a + 1) (length h) - a) a ltac:(lia))). cbn [fst snd].
  set (len := Nat.min (2 * a + 1) (length h) - a) in *.
  replace (Nat.min (2 * (a + len) + 1) (length h) - (2 * a + 1)) with (Nat.min (2 * (2 * a + 1) + 1) (length h) - (2 * a + 1)).
  2:{ destruct (decide (2 * a + 1 <= length h)); [|lia]. replace (a + len) with (2 * a + 1) by lia. done. }
  rewrite (bind_ok _ _ _ _ _ (IH (2 * a + 1) ltac:(lia))). unfold ret. f_equal.
  destruct (decide (2 * a + 1 <= length h)).
  - replace (2 * a + 1) with (a + len) by lia. rewrite <- drop_drop. apply take_drop.
  - rewrite (drop_ge h (2 * a + 1)) by lia. rewrite app_nil_r. apply take_ge. rewrite drop_length. lia.
Qed.
Lemma heap_iter_spec h : h <> [] -> exists m, heap_iter h = Ok h m.
Proof.
  intros Hne. destruct h as [|x h']; [done|]. set (h := x :: h') in *.
  exists (tree_upto h (length h)). unfold heap_iter.
  rewrite (bind_ok _ _ _ 0 (tree_upto h (length h))).
  - exact (iter_levels_spec h (S (length h)) 0 ltac:(lia)).
  - unfold transform. rewrite (bind_ok _ _ _ tt []) by done. rewrite (bind_ok _ _ _ x []) by done.
    rewrite (bind_ok _ _ _ 0 [HNode x None None]) by done.
    rewrite (bind_ok _ _ _ tt (tree_upto h (length h))); [done|].
    exact (transform_loop_spec h (S (length h)) 0 ltac:(cbn; lia) ltac:(lia)).
Qed.
