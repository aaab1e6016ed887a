(** * C10: when < mirrors >, and transitivity.  Specification: ListSpec.v. *)
From Verif Require Import Base ListModel ListSpec ListRun ListThm ListThm2 ListProps.

(** Somewhere [a] exceeds [b]. *)
Definition exceeds (a b : list pyval) : Prop :=
  exists i u v, a !! i = Some u /\ b !! i = Some v /\ py_lt v u = Some true.

Lemma not_exceeds a b : comparable a b -> ~ exceeds a b -> forall i u v, a !! i = Some u -> b !! i = Some v -> py_lt v u = Some false.
Proof.
  intros Hc Hn i u v Hu Hv. destruct (py_lt v u) as [[|]|] eqn:E; [|done|].
  - destruct Hn. by exists i, u, v.
  - exfalso. by apply (comparable_sym _ _ Hc i v u Hv Hu).
Qed.
Lemma prefix_not_exceeds a r : ~ exceeds a (a ++ r) /\ ~ exceeds (a ++ r) a.
Proof.
  assert (forall u : pyval, py_lt u u <> Some true) as Hirr.
  { intros u E. rewrite (py_lt_irrefl u u) in E; [done| |done]. by rewrite E. }
  split; intros (i & u & v & Hu & Hv & E).
  - rewrite (lookup_app_l_Some _ _ _ _ Hu) in Hv. injection Hv as <-. by apply Hirr in E.
  - rewrite (lookup_app_l_Some _ _ _ _ Hv) in Hu. injection Hu as <-. by apply Hirr in E.
Qed.

(** [a < b] and [b > a] give the same answer if and only if the lists have the same
    length, or one begins with the other, or somewhere [a] exceeds [b]. *)
Theorem C10_mirror_iff : forall k h outs w x y xs ys,
  spec_run k [] h = Some (outs, w) -> w !! x = Some (Some xs) -> w !! y = Some (Some ys) ->
  comparable xs ys ->
  exists s env o o', model_run k conf0 h = Some (outs, (s, env)) /\ env !! x = Some o /\ env !! y = Some o' /\
    (list_lt o o' s = list_gt o' o s <->
     length xs = length ys \/ xs `prefix_of` ys \/ ys `prefix_of` xs \/ exceeds xs ys).
Proof.
  intros k h outs w x y xs ys Hh Hx Hy Hc.
  destruct (order_exact k h outs w x y xs ys Hh Hx Hy Hc) as (s & env & o & o' & lt & le & gt & ge & Hm & Ho & Ho' & Hlt & Ilt & _).
  destruct (order_exact k h outs w y x ys xs Hh Hy Hx (comparable_sym _ _ Hc)) as (s1 & env1 & o1 & o1' & lt1 & le1 & gt1 & ge1 & Hm1 & Ho1 & Ho1' & _ & _ & _ & _ & _ & _ & Hgt & Igt).
  rewrite Hm in Hm1. injection Hm1 as <- <-. rewrite Ho' in Ho1. injection Ho1 as <-. rewrite Ho in Ho1'. injection Ho1' as <-.
  exists s, env, o, o'. split; [done|]. split; [done|]. split; [done|]. rewrite Hlt, Hgt.
  assert (lt = gt1 <-> (below xs ys /\ xs <> ys <-> (exists r, r <> [] /\ ys = xs ++ r) \/
    (length ys <= length xs /\ (forall i u v, ys !! i = Some u -> xs !! i = Some v -> py_lt u v = Some false) /\ ~ exists r, xs = ys ++ r))) as Hiff.
  { rewrite <- Ilt, <- Igt. destruct lt, gt1; split; try done; intros [H1 H2]; naive_solver. }
  transitivity (lt = gt1); [split; [by intros [=]|by intros ->]|]. rewrite Hiff. clear Hiff Hlt Hgt Ilt Igt.
  split.
  - intros HE. destruct (decide (length xs = length ys)) as [|Hl]; [by left|right].
    assert ({xs `prefix_of` ys} + {~ xs `prefix_of` ys}) as [|Hp] by apply prefix_dec; [by left|right].
    assert ({ys `prefix_of` xs} + {~ ys `prefix_of` xs}) as [|Hq] by apply prefix_dec; [by left|right].
    assert (exceeds xs ys \/ ~ exceeds xs ys) as [|Hn]; [|done|exfalso].
    { destruct (decide (Exists (fun i => match xs !! i, ys !! i with Some u, Some v => bool_decide (py_lt v u = Some true) | _, _ => false end = true) (seq 0 (length xs)))) as [He|He].
      - left. apply Exists_exists in He as (i & _ & Hi). destruct (xs !! i) as [u|] eqn:Hu; [|done]. destruct (ys !! i) as [v|] eqn:Hv; [|done]. apply bool_decide_eq_true in Hi. by exists i, u, v.
      - right. intros (i & u & v & Hu & Hv & E). apply He, Exists_exists. exists i. rewrite Hu, Hv. split; [|by apply bool_decide_eq_true].
        apply elem_of_seq. apply lookup_lt_Some in Hu. lia. }
    pose proof (not_exceeds _ _ Hc Hn) as HP. destruct (Nat.lt_ge_cases (length xs) (length ys)) as [Hlt|Hge].
    + destruct (proj1 HE) as [(r & _ & ->)|(Hl' & _)]; [|by apply Hp, prefix_app_r|lia].
      split; [split; [lia|done]|]. intros ->. lia.
    + destruct (proj2 HE) as [[Hb _] _]; [|lia]. right. split; [lia|]. split; [intros i u v Hu Hv; by eapply HP|].
      intros [r ->]. by apply Hq, prefix_app_r.
  - intros HC. split.
    + intros [[Hl Hp] Hne]. destruct HC as [Hl'|[[r ->]|[[r ->]|(i & u & v & Hu & Hv & E)]]].
      * right. split; [lia|]. split; [intros i u v Hu Hv; by eapply Hp|]. intros [r ->]. rewrite app_length in Hl'.
        destruct r; [by rewrite app_nil_r in Hne|cbn in Hl'; lia].
      * left. exists r. split; [|done]. intros ->. by rewrite app_nil_r in Hne.
      * exfalso. rewrite app_length in Hl. destruct r; [by rewrite app_nil_r in Hne|cbn in Hl; lia].
      * exfalso. pose proof (Hp i u v Hu Hv). congruence.
    + intros [(r & Hr & ->)|(Hl & Hp & Hno)].
      * split; [|intros E; apply (f_equal length) in E; rewrite app_length in E; destruct r; [done|cbn in E; lia]].
        split; [rewrite app_length; lia|]. apply not_exceeds; [done|apply prefix_not_exceeds].
      * destruct HC as [Hl'|[[r ->]|[[r ->]|(i & u & v & Hu & Hv & E)]]].
        -- split; [split; [lia|intros i u v Hu Hv; by eapply Hp]|]. intros ->. apply Hno. exists []. by rewrite app_nil_r.
        -- exfalso. rewrite app_length in Hl. destruct r; [|cbn in Hl; lia]. apply Hno. exists []. by rewrite !app_nil_r.
        -- exfalso. apply Hno. by exists r.
        -- exfalso. pose proof (Hp i v u Hv Hu). congruence.
Qed.
Print Assumptions C10_mirror_iff.

(** <= is transitive, and so are < and >=. *)
Lemma py_lt_false_trans a b c : py_lt b a = Some false -> py_lt c b = Some false -> py_lt c a = Some false.
Proof.
  destruct a as [|n|u| | |], b as [|m|v| | |], c as [|o|w| | |]; cbn; try done.
  - intros [= H1] [= H2]. f_equal. destruct n, m, o; cbn in *; try done. apply Z.ltb_ge in H1, H2. apply Z.ltb_ge. lia.
  - intros [= H1] [= H2]. f_equal. revert v w H1 H2. induction u as [|a u IH]; intros [|b v] [|c w]; cbn; try done.
    destruct (N.ltb_spec b a); [done|]. destruct (N.ltb_spec c b); [done|].
    destruct (N.ltb_spec c a); [lia|]. destruct (N.ltb_spec a b), (N.ltb_spec b c), (N.ltb_spec a c); try done; try lia.
    intros G1 G2. by apply (IH v).
Qed.
Lemma below_trans a b c : below a b -> below b c -> below a c.
Proof.
  intros [L1 H1] [L2 H2]. split; [lia|]. intros i x z Hx Hz. destruct (lookup_lt_is_Some_2 b i) as [y Hy]; [apply lookup_lt_Some in Hx; lia|].
  eapply py_lt_false_trans; [by eapply H1|by eapply H2].
Qed.
Theorem C10_transitive : forall k h outs w x y z xs ys zs,
  spec_run k [] h = Some (outs, w) -> w !! x = Some (Some xs) -> w !! y = Some (Some ys) -> w !! z = Some (Some zs) ->
  comparable xs ys -> comparable ys zs -> comparable xs zs ->
  exists s env a b c, model_run k conf0 h = Some (outs, (s, env)) /\ env !! x = Some a /\ env !! y = Some b /\ env !! z = Some c /\
    (list_le a b s = Ok true s -> list_le b c s = Ok true s -> list_le a c s = Ok true s) /\
    (list_lt a b s = Ok true s -> list_le b c s = Ok true s -> list_lt a c s = Ok true s) /\
    (list_le a b s = Ok true s -> list_lt b c s = Ok true s -> list_lt a c s = Ok true s) /\
    (list_ge a b s = Ok true s -> list_ge b c s = Ok true s -> list_ge a c s = Ok true s).
Proof.
  intros k h outs w x y z xs ys zs Hh Hx Hy Hz C1 C2 C3.
  destruct (order_exact k h outs w x y xs ys Hh Hx Hy C1) as (s & env & a & b & lt1 & le1 & gt1 & ge1 & Hm & Ha & Hb & E1 & I1 & E2 & I2 & E3 & I3 & _).
  destruct (order_exact k h outs w y z ys zs Hh Hy Hz C2) as (s' & env' & b' & c & lt2 & le2 & gt2 & ge2 & Hm' & Hb' & Hc & F1 & J1 & F2 & J2 & F3 & J3 & _).
  rewrite Hm in Hm'. injection Hm' as <- <-. rewrite Hb in Hb'. injection Hb' as <-.
  destruct (order_exact k h outs w x z xs zs Hh Hx Hz C3) as (s' & env' & a' & c' & lt3 & le3 & gt3 & ge3 & Hm' & Ha' & Hc' & G1 & K1 & G2 & K2 & G3 & K3 & _).
  rewrite Hm in Hm'. injection Hm' as <- <-. rewrite Ha in Ha'. injection Ha' as <-. rewrite Hc in Hc'. injection Hc' as <-.
  exists s, env, a, b, c. split; [done|]. split; [done|]. split; [done|]. split; [done|]. rewrite E1, E2, E3, F1, F2, F3, G1, G2, G3.
  split_and!.
  - intros [= ->] [= ->]. f_equal. apply K2. eapply below_trans; [by apply I2|by apply J2].
  - intros [= ->] [= ->]. f_equal. apply K1. destruct (proj1 I1 eq_refl) as [Hab Hne]. assert (below ys zs) as Hbc by by apply J2.
    split; [by eapply below_trans|]. intros ->. apply Hne. by apply below_antisym.
  - intros [= ->] [= ->]. f_equal. apply K1. destruct (proj1 J1 eq_refl) as [Hbc Hne]. assert (below xs ys) as Hab by by apply I2.
    split; [by eapply below_trans|]. intros ->. apply Hne. by apply below_antisym.
  - intros [= ->] [= ->]. f_equal. apply K3. eapply below_trans; [by apply J3|by apply I3].
Qed.
Print Assumptions C10_transitive.

(** Three lists that meet the hypotheses: [1, 2] <= [1, 3, 1] <= [2, 3, 1]. *)
Example C10_three : exists outs w xs ys zs,
  spec_run Singly [] [LNew [one; two]; LNew [one; three; one]; LNew [two; three; one]] = Some (outs, w) /\
  w !! 0 = Some (Some xs) /\ w !! 1 = Some (Some ys) /\ w !! 2 = Some (Some zs) /\
  comparable xs ys /\ comparable ys zs /\ comparable xs zs /\ below xs ys /\ below ys zs /\
  ~ (length xs = length ys \/ xs `prefix_of` ys \/ ys `prefix_of` xs \/ exceeds xs ys).
Proof.
  do 5 eexists. split; [vm_compute; reflexivity|]. do 3 (split; [reflexivity|]).
  assert (forall a b : list pyval, Forall2 (fun x y => py_lt y x = Some false /\ py_lt x y <> None) (take (length b) a) (take (length a) b) -> comparable a b /\ ~ exceeds a b /\ (length a <= length b -> below a b)) as HF.
  { intros a b H. rewrite Forall2_lookup in H.
    assert (forall i x y, a !! i = Some x -> b !! i = Some y -> py_lt y x = Some false /\ py_lt x y <> None) as HP.
    { intros i x y Hx Hy. specialize (H i). rewrite !lookup_take, Hx, Hy in H; [by inversion H|by eapply lookup_lt_Some|by eapply lookup_lt_Some]. }
    split; [intros i x y Hx Hy; by eapply HP|]. split; [intros (i & u & v & Hu & Hv & E); destruct (HP i u v Hu Hv); congruence|].
    intros Hl. split; [done|]. intros i x y Hx Hy. by eapply HP. }
  destruct (HF [one; two] [one; three; one]) as (H1 & H2 & H3); [repeat constructor; vm_compute; done|].
  destruct (HF [one; three; one] [two; three; one]) as (H4 & H5 & H6); [repeat constructor; vm_compute; done|].
  destruct (HF [one; two] [two; three; one]) as (H7 & H8 & H9); [repeat constructor; vm_compute; done|].
  split; [done|]. split; [done|]. split; [done|]. split; [apply H3; cbn; lia|]. split; [apply H6; cbn; lia|].
  intros [H|[H|[H|H]]]; [done| | |done]; apply (bool_decide_pack _) in H; vm_compute in H; done.
Qed.
