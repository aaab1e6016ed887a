(** * Proofs about the printed form of SkipList *)
From Coq Require Import Sorted DecimalZ.
From Verif Require Import Base NumOrd ListModel ListRep ListPure ListCore SkipModel SkipSpec SkipThm SkipThm2 SkipThm3.
From Verif Require Import PrintModel DrawModel DrawSpec DrawThm SkipDrawModel SkipDrawSpec.
Local Open Scope py_scope.

(** ** A pointer that follows one level *)
Definition ptr (s : st) (k : nat) (C : towers) (p : option loc) : Prop :=
  exists o a g, rep CLL s o (a ++ g) /\ vals g = map PNum (up C k) /\ p = hd_loc g None.
Definition advance (here : bool) (p : option loc) : M st (option loc) :=
  match p with Some c => if here then get_next c else ret p | None => ret p end.
Lemma ptr_step s k x h C p : ptr s k ((x, h) :: C) p -> x ∉ elems C ->
  node_is (PNum x) p s = Ok (Nat.leb k h) s /\ (Nat.leb k h = true -> p <> None) /\
  exists p', advance (Nat.leb k h) p s = Ok p' s /\ ptr s k C p'.
Proof.
  intros (o & a & g & Hr & Hv & ->) Hx. rewrite up_cons in Hv. destruct (Nat.leb_spec k h) as [Hk|Hk].
  - rewrite decide_True in Hv by done. destruct g as [|n g]; [done|]. cbn in Hv. injection Hv as Hn Hv. cbn [hd_loc node_is advance].
    rewrite (bind_ok _ _ _ _ _ (get_data_ok _ _ _ _ _ Hr)), Hn. split_and!.
    + unfold ret. f_equal. cbn. by rewrite bool_decide_true.
    + done.
    + exists (hd_loc g None). split; [by eapply get_next_ok|]. exists o, (a ++ [n]), g. by rewrite <- app_assoc.
  - rewrite decide_False in Hv by lia. cbn in Hv. split_and!; [|done|].
    + destruct g as [|n g]; [done|]. cbn [hd_loc node_is]. rewrite (bind_ok _ _ _ _ _ (get_data_ok _ _ _ _ _ Hr)).
      destruct (vals_num (n :: g) (up C k) n Hv) as (y & -> & Hy); [left|]. unfold ret. f_equal. cbn. apply bool_decide_false. intros <-.
      apply Hx. apply up_in in Hy as (h' & Hin & _). unfold elems. apply elem_of_list_fmap. by exists (x, h').
    + exists (hd_loc g None). split; [by destruct g|]. by exists o, a, g.
Qed.
Lemma ptr_zero s x h C p : ptr s 0 ((x, h) :: C) p -> exists z p', p = Some z /\ get_data z s = Ok (PNum x) s /\ get_next z s = Ok p' s /\ ptr s 0 C p'.
Proof.
  intros (o & a & g & Hr & Hv & ->). rewrite up_zero in Hv. destruct g as [|n g]; [done|]. cbn in Hv. injection Hv as Hn Hv.
  exists (g_loc n), (hd_loc g None). split_and!; [done| |by eapply get_next_ok|].
  - rewrite <- Hn. by eapply get_data_ok.
  - exists o, (a ++ [n]), g. rewrite <- app_assoc, up_zero. by split_and!.
Qed.
Lemma ptr_end s p : ptr s 0 [] p -> p = None.
Proof. intros (o & a & g & Hr & Hv & ->). by destruct g. Qed.

(** ** The loops *)
Lemma represent_num text x : skip_represent text (PNum x) = num_text text x.
Proof. unfold skip_represent. by destruct x. Qed.
Definition col (text : Z -> pystr) (p : num * nat) : pystr * nat := (num_text text p.1, p.2).
Lemma passing_eq t : [c_right] ++ repeat c_right (length t + 2) ++ [c_right; c_right] = passing t.
Proof. unfold passing. change [c_right; c_right] with (repeat c_right 2). change [c_right] with (repeat c_right 1). rewrite <- !repeat_app. f_equal. lia. Qed.
Lemma nothing_eq t : [c_sp] ++ repeat c_sp (length t + 2) ++ [c_sp; c_sp] = nothing t.
Proof. unfold nothing. change [c_sp; c_sp] with (repeat c_sp 2). change [c_sp] with (repeat c_sp 1). rewrite <- !repeat_app. f_equal. lia. Qed.
Definition lower_ptr (s : st) (k : nat) (C : towers) (p : option loc) : Prop :=
  match k with 0 => p = None | S j => ptr s j C p end.
Lemma lower_step s k x h C p : lower_ptr s k ((x, h) :: C) p -> x ∉ elems C ->
  node_is (PNum x) p s = Ok (negb (Nat.eqb k 0) && Nat.leb k (S h)) s /\ (Nat.leb k h = true -> (p = None <-> k = 0)) /\
  exists p', advance (negb (Nat.eqb k 0) && Nat.leb k (S h)) p s = Ok p' s /\ lower_ptr s k C p'.
Proof.
  destruct k as [|j]; cbn [lower_ptr].
  - intros -> _. split_and!; [done|done|]. by exists None.
  - intros H Hx. destruct (ptr_step _ _ _ _ _ _ H Hx) as (E & Hn & p' & E' & Hp). cbn [Nat.eqb negb andb Nat.leb]. split_and!; [done| |by exists p'].
    intros Hle. apply (Nat.leb_le (S j) h) in Hle. split; [|done]. intros ->. exfalso. apply Hn; [|done]. apply Nat.leb_le. lia.
Qed.
Lemma print_node_ok text s k x h C z curr lower : get_data z s = Ok (PNum x) s -> ptr s k ((x, h) :: C) curr -> lower_ptr s k ((x, h) :: C) lower -> x ∉ elems C ->
  skip_print_node text curr z lower s = Ok (at_level k (col text (x, h)), under_level k (col text (x, h))) s.
Proof.
  intros Hz Hc Hl Hx. destruct (ptr_step _ _ _ _ _ _ Hc Hx) as (E & _ & _). destruct (lower_step _ _ _ _ _ _ Hl Hx) as (E' & Hn & _).
  unfold skip_print_node. rewrite (bind_ok _ _ _ _ _ Hz), represent_num. rewrite (bind_ok _ _ _ _ _ E). unfold at_level, under_level, col. cbn [fst snd].
  destruct (Nat.leb_spec k h) as [Hk|Hk].
  - specialize (Hn eq_refl). unfold ret, box, edge. destruct lower as [l|].
    + destruct (Nat.eqb_spec k 0) as [->|]; [by destruct (proj2 Hn eq_refl)|]. done.
    + destruct (Nat.eqb_spec k 0) as [->|]; [done|]. by destruct (proj1 Hn eq_refl).
  - rewrite (bind_ok _ _ _ _ _ E'). unfold ret. rewrite passing_eq, nothing_eq. unfold edge, hors.
    destruct (Nat.eqb_spec k 0) as [->|]; [lia|]. cbn [negb andb].
    destruct (Nat.eqb_spec k (S h)) as [->|]; [by rewrite Nat.leb_refl|]. destruct (Nat.leb_spec k (S h)); [lia|done].
Qed.
Lemma level_loop_ok text s k : forall C fuel zeroth curr lower mid bot, ptr s 0 C zeroth -> ptr s k C curr -> lower_ptr s k C lower -> NoDup (elems C) -> length C < fuel ->
  skip_level_loop text fuel zeroth curr lower mid bot s =
  Ok (mid ++ flat_map (at_level k) (map (col text) C), bot ++ flat_map (under_level k) (map (col text) C)) s.
Proof.
  induction C as [|[x h] C IH]; intros [|fuel] zeroth curr lower mid bot Hz Hc Hl Hnd Hf; try (cbn in Hf; lia).
  - rewrite (ptr_end _ _ Hz). cbn. by rewrite !app_nil_r.
  - unfold elems in Hnd. rewrite map_cons in Hnd. apply NoDup_cons in Hnd as [Hx Hnd]. destruct (ptr_zero _ _ _ _ _ Hz) as (z & nz & -> & Ed & En & Hz').
    cbn [skip_level_loop]. rewrite (bind_ok _ _ _ _ _ (print_node_ok text _ _ _ _ _ _ _ _ Ed Hc Hl Hx)).
    rewrite (bind_ok _ _ _ _ _ Ed). destruct (ptr_step _ _ _ _ _ _ Hc Hx) as (E & _ & c' & Ec & Hc'). destruct (lower_step _ _ _ _ _ _ Hl Hx) as (E' & _ & l' & El & Hl').
    rewrite (bind_ok _ _ _ _ _ E). unfold advance in Ec, El. rewrite (bind_ok _ _ _ _ _ Ec), (bind_ok _ _ _ _ _ E'), (bind_ok _ _ _ _ _ El), (bind_ok _ _ _ _ _ En).
    rewrite (IH fuel nz c' l') by (done || (cbn in Hf; lia)). cbn [map flat_map fst snd]. by rewrite <- !app_assoc.
Qed.
Lemma top_loop_ok text s k : forall C fuel zeroth curr top, ptr s 0 C zeroth -> ptr s k C curr -> NoDup (elems C) -> length C < fuel -> Forall (fun p => p.2 <= k) C ->
  skip_top_loop text fuel zeroth curr top s = Ok (top ++ flat_map (under_level (S k)) (map (col text) C)) s.
Proof.
  induction C as [|[x h] C IH]; intros [|fuel] zeroth curr top Hz Hc Hnd Hf Hk; try (cbn in Hf; lia).
  - rewrite (ptr_end _ _ Hz). cbn. by rewrite !app_nil_r.
  - unfold elems in Hnd. rewrite map_cons in Hnd. apply NoDup_cons in Hnd as [Hx Hnd]. apply Forall_cons in Hk as [Hh Hk]. cbn in Hh.
    destruct (ptr_zero _ _ _ _ _ Hz) as (z & nz & -> & Ed & En & Hz').
    cbn [skip_top_loop]. rewrite (bind_ok _ _ _ _ _ Ed). destruct (ptr_step _ _ _ _ _ _ Hc Hx) as (E & _ & c' & Ec & Hc').
    rewrite (bind_ok _ _ _ _ _ E). unfold advance in Ec. rewrite (bind_ok _ _ _ _ _ Ec), (bind_ok _ _ _ _ _ En).
    rewrite (IH fuel nz c') by (done || (cbn in Hf; lia)). cbn [map flat_map]. rewrite <- app_assoc. do 2 f_equal. refine (f_equal2 _ _ eq_refl).
    rewrite represent_num, nothing_eq. unfold under_level, col, edge, hors. cbn [fst snd]. destruct (Nat.leb_spec (S k) h); [lia|].
    destruct (Nat.eqb_spec (S k) (S h)) as [E1|E1]; destruct (Nat.leb_spec k h); try lia; done.
Qed.

(** ** A whole list *)
Definition full (A : towers) : towers := (NegInf, theight A - 1) :: A.
Lemma columns_full text A : columns text A = map (col text) (full A).
Proof. done. Qed.
Section print.
  Context (self : nat) (ks : kst) (r : nat) (os : list nat) (G : list (list gn)) (A : towers) (text : Z -> pystr).
  Context (HI : Inv self ks r os G A) (HG : length G = theight A).
  Lemma full_nodup : NoDup (elems (full A)).
  Proof.
    unfold full, elems. rewrite map_cons. pose proof (i_rep _ _ _ _ _ _ HI) as HR. apply NoDup_cons. split; [|apply sorted_nodup, (r_sort _ _ _ _ HR)].
    intros ([y h] & E & Hin)%elem_of_list_fmap. cbn in E. subst y. pose proof (r_neg _ _ _ _ HR) as Hn. rewrite Forall_forall in Hn. by apply (Hn _ Hin).
  Qed.
  Lemma level_head_ok k : k < theight A -> exists p, level_head self k ks = Ok p ks /\ ptr (k_st ks) k (full A) p.
  Proof.
    intros Hk. pose proof (i_rep _ _ _ _ _ _ HI) as HR. destruct (Rep_level _ _ _ _ k HR) as (o & g & Ho & Hg & Hr & Hv); [by rewrite HG|].
    unfold level_head. rewrite (bind_ok _ _ _ _ _ (level_list_ok _ _ _ _ _ _ _ _ HI Ho)). destruct (head_ok _ _ _ Hr) as (ob & Eb & Eh); [by destruct g|].
    exists (o_head ob). split.
    - apply lift_ok0. by rewrite (bind_ok _ _ _ _ _ Eb).
    - exists o, [], g. split_and!; [done| |done]. rewrite Hv. unfold full. rewrite up_cons, decide_True by lia. done.
  Qed.
  Lemma full_fuel : length (full A) < S (S (length (s_nodes (k_st ks)))).
  Proof.
    pose proof (i_rep _ _ _ _ _ _ HI) as HR. destruct (Rep_level _ _ _ _ 0 HR (r_pos _ _ _ _ HR)) as (o & g & Ho & Hg & Hr & Hv).
    apply rep_size in Hr. apply (f_equal length) in Hv. unfold lev in Hv. rewrite up_zero in Hv. cbn in Hv. unfold elems in Hv. rewrite !map_length in Hv. cbn. lia.
  Qed.
  Lemma print_level_ok k : k < theight A -> skip_print_level text self k ks =
    Ok (flat_map (at_level k) (columns text A) ++ c_nl :: flat_map (under_level k) (columns text A)) ks.
  Proof.
    intros Hk. unfold skip_print_level. rewrite (bind_ok _ _ _ _ _ (num_levels_ok _ _ _ _ _ _ HI)), HG. rewrite (proj2 (Nat.ltb_lt _ _) Hk). cbn [py_assert].
    unfold bind at 1, ret at 1. destruct (level_head_ok 0) as (z & Ez & Hz); [unfold theight; lia|]. destruct (level_head_ok k Hk) as (c & Ec & Hc).
    rewrite (bind_ok _ _ _ _ _ Ez), (bind_ok _ _ _ _ _ Ec).
    assert (exists l, match k with 0 => ret None | S j => level_head self j end ks = Ok l ks /\ lower_ptr (k_st ks) k (full A) l) as (l & El & Hl).
    { destruct k as [|j]; [by exists None|]. apply level_head_ok. lia. }
    rewrite (bind_ok _ _ _ _ _ El). erewrite bind_ok.
    2:{ apply lift_ok0. unfold get_fuel at 1, bind at 1. apply (level_loop_ok text _ k (full A)); try done; [apply full_nodup|apply full_fuel]. }
    rewrite columns_full. done.
  Qed.
  Lemma print_top_ok : skip_print_top text self ks = Ok (flat_map (under_level (theight A)) (columns text A)) ks.
  Proof.
    unfold skip_print_top. rewrite (bind_ok _ _ _ _ _ (num_levels_ok _ _ _ _ _ _ HI)), HG.
    destruct (level_head_ok 0) as (z & Ez & Hz); [unfold theight; lia|]. destruct (level_head_ok (theight A - 1)) as (c & Ec & Hc); [unfold theight; lia|].
    rewrite (bind_ok _ _ _ _ _ Ez), (bind_ok _ _ _ _ _ Ec). apply lift_ok0. unfold get_fuel at 1, bind at 1.
    rewrite (top_loop_ok text _ (theight A - 1) (full A)); try done; [|apply full_nodup|apply full_fuel|].
    - rewrite columns_full. by replace (S (theight A - 1)) with (theight A) by (unfold theight; lia).
    - unfold full. constructor; [done|]. pose proof (r_top _ _ _ _ (i_rep _ _ _ _ _ _ HI)) as Ht. eapply Forall_impl; [exact Ht|]. intros p Hp. cbn beta in Hp. lia.
  Qed.
  Definition two_lines (k : nat) : pystr := flat_map (at_level k) (columns text A) ++ c_nl :: flat_map (under_level k) (columns text A).
  Lemma print_levels_ok n : n <= theight A -> skip_print_levels text self n ks = Ok (map two_lines (rev (seq 0 n))) ks.
  Proof.
    induction n as [|n IH]; intros Hn; [done|]. cbn [skip_print_levels]. erewrite bind_ok by (apply print_level_ok; lia). erewrite bind_ok by (apply IH; lia).
    rewrite seq_S, rev_app_distr. done.
  Qed.
  Lemma join_levels n l : join s_newline (l :: map two_lines (rev (seq 0 n))) = joined (l :: level_lines n (columns text A)).
  Proof.
    revert l. induction n as [|n IH]; intros l; [done|]. rewrite seq_S, rev_app_distr. cbn [rev app map level_lines Nat.add]. specialize (IH (two_lines n)).
    change (join s_newline (l :: two_lines n :: map two_lines (rev (seq 0 n)))) with (l ++ s_newline ++ join s_newline (two_lines n :: map two_lines (rev (seq 0 n)))).
    rewrite IH. unfold two_lines at 1. cbn [joined]. unfold s_newline. cbn [app]. do 2 f_equal. fold (level_lines n (columns text A)).
    destruct (level_lines n (columns text A)); [done|]. by rewrite <- app_assoc.
  Qed.
  Lemma repr_ok : sl_repr text self ks = Ok (joined (skip_picture text A)) ks.
  Proof.
    unfold sl_repr. rewrite (bind_ok _ _ _ _ _ print_top_ok), (bind_ok _ _ _ _ _ (num_levels_ok _ _ _ _ _ _ HI)), HG. erewrite bind_ok by (by apply print_levels_ok).
    unfold ret, skip_picture. f_equal. apply join_levels.
  Qed.
End print.

Theorem history_repr text os : Forall avoids_neg_inf os ->
  exists rs s, khistory os = Some (rs, s) /\ sl_repr text 0 s = Ok (joined (skip_picture text (tafter os []))) s.
Proof. intros H. destruct (history_ok os H) as (s & E & r & o & G & HI & HG). eexists _, s. split; [exact E|]. by eapply repr_ok. Qed.

(** ** What the picture says *)
From Verif Require Import PrintSpec PrintThm.
Lemma under_length k c : length (under_level k c) = length c.1 + 5.
Proof.
  unfold under_level, edge, nothing. destruct (Nat.leb _ _); [destruct (Nat.eqb _ _)|destruct (Nat.eqb _ _)]; cbn [length app]; rewrite ?app_length, ?repeat_length; cbn; lia.
Qed.
Lemma at_length k c : length (at_level k c) = length c.1 + 5.
Proof. unfold at_level, box, passing. destruct (Nat.leb _ _); cbn [length app]; rewrite ?app_length, ?repeat_length; cbn; lia. Qed.
Lemma flat_length {T} (f g : T -> pystr) l : (forall x, length (f x) = length (g x)) -> length (flat_map f l) = length (flat_map g l).
Proof. intros H. induction l as [|x l IH]; [done|]. cbn. by rewrite !app_length, IH, H. Qed.
Lemma level_lines_length n cs : Forall (fun l => length l = length (flat_map (at_level 0) cs)) (level_lines n cs).
Proof.
  induction n as [|n IH]; [constructor|]. cbn [level_lines]. repeat constructor; [..|done]; apply flat_length; intros c; by rewrite ?under_length, ?at_length.
Qed.
Theorem skip_aligned text A : aligned (skip_picture text A).
Proof.
  apply (aligned_all (length (flat_map (at_level 0) (columns text A)))). constructor; [|apply level_lines_length].
  apply flat_length. intros c. by rewrite under_length, at_length.
Qed.
Definition free (t : pystr) : Prop := c_nl ∉ t /\ c_ver ∉ t.
Lemma columns_free text A : (forall z, plain_text (text z)) -> Forall (fun c => free c.1) (columns text A).
Proof.
  intros H. unfold columns. constructor; [cbn; split; set_solver|]. apply Forall_fmap, Forall_forall. intros [x h] _. cbn.
  destruct x as [|z|]; [split; set_solver|destruct (H z) as (? & ? & ?); done|split; set_solver].
Qed.
Lemma flat_one_line {T} (f : T -> pystr) l : Forall (fun x => one_line (f x)) l -> one_line (flat_map f l).
Proof. induction 1 as [|x l Hx _ IH]; [apply not_elem_of_nil|]. cbn. by apply DrawThm.one_line_app. Qed.
Lemma under_one_line k c : one_line (under_level k c).
Proof.
  unfold under_level, edge, nothing. assert (forall l r n, l <> 10%N -> r <> 10%N -> one_line ([l] ++ repeat c_hor n ++ [r; c_sp])) as H.
  { intros l r n Hl Hr. apply DrawThm.one_line_app; [unfold one_line; set_solver|]. apply DrawThm.one_line_app; [by apply one_line_repeat|unfold one_line, c_sp; set_solver]. }
  destruct (Nat.leb _ _); [destruct (Nat.eqb _ _); by apply H|]. destruct (Nat.eqb _ _); [by apply H|by apply one_line_repeat].
Qed.
Lemma at_one_line k c : free c.1 -> one_line (at_level k c).
Proof.
  intros [Hc _]. unfold at_level, box, passing. destruct (Nat.leb _ _); [|by apply one_line_repeat].
  apply DrawThm.one_line_app; [unfold one_line, c_bar, c_sp; set_solver|]. apply DrawThm.one_line_app; [done|unfold one_line, c_sp, c_ver, c_right; set_solver].
Qed.
Lemma picture_lines text A : (forall z, plain_text (text z)) -> Forall one_line (skip_picture text A).
Proof.
  intros H. pose proof (columns_free text A H) as HC. unfold skip_picture. constructor.
  - apply flat_one_line, Forall_forall. intros c _. apply under_one_line.
  - generalize (theight A). intros n. induction n as [|n IH]; [constructor|]. cbn [level_lines]. repeat constructor; [..|done].
    + apply flat_one_line. eapply Forall_impl; [exact HC|]. intros c. apply at_one_line.
    + apply flat_one_line, Forall_forall. intros c _. apply under_one_line.
Qed.
Lemma level_lines_len n cs : length (level_lines n cs) = 2 * n.
Proof. induction n as [|n IH]; [done|]. cbn [level_lines length]. lia. Qed.
Lemma level_lines_at n cs cs' : level_lines n cs = level_lines n cs' -> forall k, k < n -> flat_map (at_level k) cs = flat_map (at_level k) cs'.
Proof.
  induction n as [|n IH]; intros E k Hk; [lia|]. cbn [level_lines] in E. injection E as E1 E2 E3. destruct (decide (k = n)) as [->|]; [done|]. apply IH; [done|lia].
Qed.
Lemma stop_inj (x : N) (t1 t2 r1 r2 : pystr) : x ∉ t1 -> x ∉ t2 -> t1 ++ x :: r1 = t2 ++ x :: r2 -> t1 = t2 /\ r1 = r2.
Proof.
  revert t2. induction t1 as [|c t1 IH]; intros [|d t2] H1 H2 E; cbn in E.
  - by injection E.
  - injection E as E0 E. exfalso. apply H2. rewrite <- E0. by left.
  - injection E as E0 E. exfalso. apply H1. rewrite E0. by left.
  - injection E as -> E. apply not_elem_of_cons in H1 as [_ H1], H2 as [_ H2]. destruct (IH t2 H1 H2 E) as [-> ->]. done.
Qed.
Lemma boxes_inj cs : forall cs', Forall (fun c => free c.1) cs -> Forall (fun c => free c.1) cs' ->
  flat_map (at_level 0) cs = flat_map (at_level 0) cs' -> map fst cs = map fst cs'.
Proof.
  induction cs as [|c cs IH]; intros [|c' cs'] HF HF' E; [done|by cbn in E|by cbn in E|].
  apply Forall_cons in HF as [Hc HF], HF' as [Hc' HF']. cbn [flat_map] in E. unfold at_level at 1 3 in E. cbn [Nat.leb] in E. unfold box in E.
  cbn [app] in E. injection E as E.
  assert (forall t (r : pystr), (t ++ [c_sp; c_ver; c_right]) ++ r = (t ++ [c_sp]) ++ c_ver :: c_right :: r) as Hs by (intros; by rewrite <- !app_assoc).
  rewrite !Hs in E. apply stop_inj in E as [Et Er].
  - apply app_inj_tail in Et as [Et _]. injection Er as Er. cbn [map]. by rewrite Et, (IH cs').
  - destruct Hc as [_ Hc]. rewrite not_elem_of_app. split; [done|]. unfold c_sp, c_ver. set_solver.
  - destruct Hc' as [_ Hc']. rewrite not_elem_of_app. split; [done|]. unfold c_sp, c_ver. set_solver.
Qed.
Lemma levels_inj k cs : forall cs', map fst cs = map fst cs' -> flat_map (at_level k) cs = flat_map (at_level k) cs' ->
  Forall2 (fun c c' => Nat.leb k c.2 = Nat.leb k c'.2) cs cs'.
Proof.
  induction cs as [|c cs IH]; intros [|c' cs'] Ht E; try done. cbn in Ht. injection Ht as Hc Ht. cbn [flat_map] in E.
  apply app_inj_1 in E as [Ec E]; [|by rewrite !at_length, Hc]. constructor; [|by apply IH].
  unfold at_level in Ec. assert (forall t t', box t <> passing t') as Hne. { intros t t'. unfold box, passing. rewrite Nat.add_comm. cbn. by intros [=]. }
  destruct (Nat.leb k c.2), (Nat.leb k c'.2); try done; [by apply Hne in Ec|by symmetry in Ec; apply Hne in Ec].
Qed.
Lemma columns_lt text A : Forall (fun c => c.2 < theight A) (columns text A).
Proof.
  unfold columns. constructor; [cbn; unfold theight; lia|]. apply Forall_fmap, Forall_forall. intros [x h] Hin. cbn. unfold theight.
  assert (h <= max_list (map snd A)); [|lia]. apply max_list_in, elem_of_list_fmap. by exists (x, h).
Qed.
Lemma cols_inj H cs : forall cs', map fst cs = map fst cs' -> Forall (fun c => c.2 < H) cs -> Forall (fun c => c.2 < H) cs' ->
  (forall k, k < H -> flat_map (at_level k) cs = flat_map (at_level k) cs') -> cs = cs'.
Proof.
  intros cs' Ht HF HF' E. assert (forall i c c', cs !! i = Some c -> cs' !! i = Some c' -> c = c') as Hl.
  { intros i c c' Hc Hc'. assert (c.1 = c'.1) as H1. { pose proof (f_equal (fun l => l !! i) Ht) as Hi. cbn in Hi. rewrite !list_lookup_fmap, Hc, Hc' in Hi. by injection Hi. }
    rewrite Forall_forall in HF, HF'. pose proof (HF c (elem_of_list_lookup_2 _ _ _ Hc)) as L. pose proof (HF' c' (elem_of_list_lookup_2 _ _ _ Hc')) as L'. cbn in L, L'.
    assert (forall k, k < H -> Nat.leb k c.2 = Nat.leb k c'.2) as Hk.
    { intros k Hk. pose proof (levels_inj k cs cs' Ht (E k Hk)) as F2. by apply (Forall2_lookup_lr _ _ _ _ _ _ F2 Hc Hc'). }
    assert (c.2 = c'.2) as H2; [|destruct c, c'; cbn in *; congruence].
    pose proof (Hk c.2 L) as K. pose proof (Hk c'.2 L') as K'. rewrite Nat.leb_refl in K, K'. symmetry in K. apply Nat.leb_le in K, K'. lia. }
  apply stdpp.list.list_eq. intros i. destruct (cs !! i) as [c|] eqn:Ec, (cs' !! i) as [c'|] eqn:Ec'; [by rewrite (Hl i c c' Ec Ec')| | |done].
  - exfalso. apply lookup_lt_Some in Ec. apply lookup_ge_None in Ec'. apply (f_equal length) in Ht. rewrite !map_length in Ht. lia.
  - exfalso. apply lookup_lt_Some in Ec'. apply lookup_ge_None in Ec. apply (f_equal length) in Ht. rewrite !map_length in Ht. lia.
Qed.
Lemma num_text_inj text : good_text text -> forall x y, x <> NegInf -> y <> NegInf -> num_text text x = num_text text y -> x = y.
Proof.
  intros [Hp Hi] [|z|] [|z'|] Hx Hy E; try done; cbn in E.
  - by rewrite (Hi _ _ E).
  - by destruct (Hp z) as (_ & _ & ?).
  - by destruct (Hp z') as (_ & _ & ?).
Qed.
Theorem skip_picture_inj text A A' : good_text text -> NegInf ∉ elems A -> NegInf ∉ elems A' ->
  joined (skip_picture text A) = joined (skip_picture text A') -> A = A'.
Proof.
  intros Hg Hn Hn' E. apply (f_equal split_lines) in E. rewrite !split_joined in E by (try done; apply picture_lines, Hg).
  assert (theight A = theight A') as HH. { apply (f_equal length) in E. unfold skip_picture in E. cbn [length] in E. rewrite !level_lines_len in E. lia. }
  apply (f_equal tail) in E. change (level_lines (theight A) (columns text A) = level_lines (theight A') (columns text A')) in E. rewrite <- HH in E. pose proof (level_lines_at _ _ _ E) as Hl.
  assert (columns text A = columns text A') as Hc.
  { apply (cols_inj (theight A)); [|apply columns_lt|rewrite HH; apply columns_lt|done]. apply boxes_inj; [by apply columns_free, Hg..|]. apply Hl. unfold theight. lia. }
  unfold columns in Hc. injection Hc as _ Hc. clear -Hc Hg Hn Hn'. revert A' Hc Hn'. induction A as [|[x h] A IH]; intros [|[x' h'] A'] Hc Hn'; try done.
  cbn in Hc. injection Hc as Hx -> Hc. unfold elems in *. cbn [map fst] in Hn, Hn'. apply not_elem_of_cons in Hn as [H1 Hn], Hn' as [H2 Hn'].
  rewrite (num_text_inj text Hg x x'); [|by intros ->..|done]. f_equal. by apply IH.
Qed.

(** ** Decimal notation *)
Lemma digits_inj d : forall e, digits d = digits e -> d = e.
Proof. induction d; intros [] E; cbn in E; try done; injection E as E; f_equal; auto. Qed.
Lemma digits_range d c : c ∈ digits d -> (48 <= c <= 57)%N.
Proof. induction d; cbn; intros Hin; [by apply elem_of_nil in Hin|..]; (apply elem_of_cons in Hin as [->|Hin]; [lia|auto]). Qed.
Lemma str_int_range z c : c ∈ str_int z -> c = c_minus \/ (48 <= c <= 57)%N.
Proof. unfold str_int. destruct (Z.to_int z); [intros H; right; by eapply digits_range|]. intros [->|H]%elem_of_cons; [by left|right; by eapply digits_range]. Qed.
Lemma str_int_good : good_text str_int.
Proof.
  split.
  - intros z. split_and!.
    + intros [?|?]%str_int_range; [done|unfold c_nl in *; lia].
    + intros [?|?]%str_int_range; [done|unfold c_ver in *; lia].
    + intros E. assert (c_inf ∈ str_int z) as H by (rewrite E; left). apply str_int_range in H as [?|?]; [done|unfold c_inf in *; lia].
  - intros z z' E. rewrite <- (DecimalZ.of_to z), <- (DecimalZ.of_to z'). f_equal. unfold str_int in E. destruct (Z.to_int z) as [d|d], (Z.to_int z') as [e|e].
    + by rewrite (digits_inj _ _ E).
    + exfalso. assert (c_minus ∈ digits d) as H by (rewrite E; left). apply digits_range in H. unfold c_minus in H. lia.
    + exfalso. assert (c_minus ∈ digits e) as H by (rewrite <- E; left). apply digits_range in H. unfold c_minus in H. lia.
    + injection E as E. by rewrite (digits_inj _ _ E).
Qed.
