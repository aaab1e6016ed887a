(** * How far the calls on linked lists walk: bounds *)
From Verif Require Import Base ListSpec ListRep ListCore ListCore2 ListOps ListOps2 ListRun ListOps3 ListModel WalkModel WalkSpec WalkThm.
Local Open Scope py_scope.

Section steps.
  Context {S : Type}.
  Implicit Types s : S.
  Lemma tk_bind {A B} s (c : M (S * nat) A) (f : A -> M (S * nat) B) a b :
    takes s c a -> (forall x s' k k', c (s, k) = Ok x (s', k') -> takes s' (f x) b) -> takes s (bind c f) (a + b).
  Proof.
    intros [Hm Hl] Hf. split; intros k; unfold bind; pose proof (Hm k) as Hmk; pose proof (Hl k) as Hlk;
      destruct (c (s, k)) as [x [s' k']|e [s' k']|] eqn:E; cbn in *; try done; try lia;
      destruct (Hf _ _ _ _ E) as [Hm' Hl']; [specialize (Hm' k')|specialize (Hl' k')]; destruct (f x (s', k')) as [? []|? []|]; cbn in *; try done; lia.
  Qed.
  Lemma tk_bind0 {A B} s (c : M (S * nat) A) (f : A -> M (S * nat) B) a :
    takes s c a -> (forall x s' k k', c (s, k) = Ok x (s', k') -> takes s' (f x) 0) -> takes s (bind c f) a.
  Proof. intros. rewrite <- (Nat.add_0_r a). by eapply tk_bind. Qed.
  Lemma tk_eq {A} s (c : M (S * nat) A) n m : takes s c n -> n = m -> takes s c m.
  Proof. by intros H <-. Qed.
  Lemma am_bind {A B} s (c : M (S * nat) A) (f : A -> M (S * nat) B) a b :
    at_most s c a -> (forall x s' k k', c (s, k) = Ok x (s', k') -> at_most s' (f x) b) -> at_most s (bind c f) (a + b).
  Proof.
    intros Hm Hf k; unfold bind; pose proof (Hm k) as Hmk;
      destruct (c (s, k)) as [x [s' k']|e [s' k']|] eqn:E; cbn in *; try done; try lia.
    specialize (Hf _ _ _ _ E k'). destruct (f x (s', k')) as [? []|? []|]; cbn in *; try done; lia.
  Qed.
  Lemma al_bind {A B} s (c : M (S * nat) A) (f : A -> M (S * nat) B) a b :
    at_least s c a -> (forall x s' k k', c (s, k) = Ok x (s', k') -> at_least s' (f x) b) -> at_least s (bind c f) (a + b).
  Proof.
    intros Hm Hf k; unfold bind; pose proof (Hm k) as Hmk;
      destruct (c (s, k)) as [x [s' k']|e [s' k']|] eqn:E; cbn in *; try done; try lia.
    specialize (Hf _ _ _ _ E k'). destruct (f x (s', k')) as [? []|? []|]; cbn in *; try done; lia.
  Qed.
  Lemma lf_ok {A} (m : M S A) s k x s' k' : lf m (s, k) = Ok x (s', k') -> m s = Ok x s' /\ k' = k.
  Proof. unfold lf. cbn. destruct (m s); intros [= -> -> ->]; done. Qed.
  Lemma tk_lf {A} (m : M S A) s : takes s (lf m) 0.
  Proof. split; intros k; unfold lf; cbn; destruct (m s); cbn; try done; lia. Qed.
  Lemma tk_lfb {A B} (m : M S A) (f : A -> M (S * nat) B) s n :
    (forall x s', m s = Ok x s' -> takes s' (f x) n) -> takes s (let! x := lf m in f x) n.
  Proof.
    intros Hf. change n with (0 + n). eapply tk_bind; [apply tk_lf|]. intros x s' k k' [E _]%lf_ok. by apply Hf.
  Qed.
  Lemma am_lfb {A B} (m : M S A) (f : A -> M (S * nat) B) s n :
    (forall x s', m s = Ok x s' -> at_most s' (f x) n) -> at_most s (let! x := lf m in f x) n.
  Proof.
    intros Hf. change n with (0 + n). eapply am_bind; [apply tk_lf|]. intros x s' k k' [E _]%lf_ok. by apply Hf.
  Qed.
  Lemma al_lfb {A B} (m : M S A) (f : A -> M (S * nat) B) s n :
    (forall x s', m s = Ok x s' -> at_least s' (f x) n) -> at_least s (let! x := lf m in f x) n.
  Proof.
    intros Hf. change n with (0 + n). eapply al_bind; [apply tk_lf|]. intros x s' k k' [E _]%lf_ok. by apply Hf.
  Qed.
  Lemma tk_ret {A} (a : A) s : takes s (ret a) 0.
  Proof. split; intros k; cbn; lia. Qed.
  Lemma tk_raise {A} e s n : takes s (A := A) (raise e) n.
  Proof. split; intros k; cbn; [lia|done]. Qed.
  Lemma tk_tick {A} (c : M (S * nat) A) s n : takes s c n -> takes s (tick ;; c) (Datatypes.S n).
  Proof.
    intros [Hm Hl]. split; intros k; [specialize (Hm (Datatypes.S k))|specialize (Hl (Datatypes.S k))];
      unfold bind, tick; cbn; destruct (c (s, Datatypes.S k)) as [? []|? []|]; cbn in *; try done; lia.
  Qed.
  Lemma am_le {A} (c : M (S * nat) A) s n m : at_most s c n -> n <= m -> at_most s c m.
  Proof. intros H Hn k. specialize (H k). destruct (c (s, k)); try done; lia. Qed.
  Lemma al_le {A} (c : M (S * nat) A) s n m : at_least s c n -> m <= n -> at_least s c m.
  Proof. intros H Hn k. specialize (H k). destruct (c (s, k)); try done; lia. Qed.
  Lemma al_0 {A} (c : M (S * nat) A) m s : counts c m -> (forall s, at_least s c 0) -> at_least s c 0.
  Proof. done. Qed.
  (** A run of the counted program is a run of the program. *)
  Lemma co_ok {A} (c : M (S * nat) A) m s k x s' k' : counts c m -> c (s, k) = Ok x (s', k') -> m s = Ok x s'.
  Proof. intros H E. specialize (H s k). by rewrite E in H. Qed.
End steps.

(** ** Lists *)
Lemma tk_get_node_loop : forall i p c s, takes s (get_node_loop_c i p c) i.
Proof.
  induction i; intros; cbn [get_node_loop_c]; [apply tk_ret|]. apply tk_tick.
  apply tk_lfb. intros. apply tk_lfb. intros. apply IHi.
Qed.
Lemma tk_back_loop : forall i c s, takes s (back_loop_c i c) i.
Proof.
  induction i; intros; cbn [back_loop_c]; [apply tk_ret|]. apply tk_tick.
  apply tk_lfb. intros. apply tk_lfb. intros. apply IHi.
Qed.
Lemma get_obj_inv o s ob' s' : get_obj o s = Ok ob' s' -> s_objs s !! o = Some ob' /\ s' = s.
Proof. unfold get_obj. destruct (s_objs s !! o); [|done]. by intros [= -> ->]. Qed.
(** Reads [get_obj] of the list known from [H]. *)
Ltac tobj H := apply tk_lfb; let E1 := fresh in let E2 := fresh in
  intros ? ? [E1 E2]%get_obj_inv; rewrite H in E1; injection E1 as <-; subst.
Lemma tk_ll_get_node o i s : takes s (ll_get_node_c o i) i.
Proof. unfold ll_get_node_c. apply tk_lfb. intros. apply tk_get_node_loop. Qed.
Lemma tk_get_node o i s k n : a_list s o k n -> takes s (get_node_c o i) (walk k n i).
Proof.
  intros (ob & Hob & Hk & Hn). unfold get_node_c. tobj Hob. unfold walk.
  destruct (o_cls ob); try apply tk_ll_get_node. unfold dll_get_node_c. tobj Hob.
  destruct (Nat.leb _ _); [apply tk_ll_get_node|].
  eapply tk_bind0; [apply tk_back_loop|]. intros.
  apply tk_lfb. intros. apply tk_lfb. intros. apply tk_ret.
Qed.
Lemma tk_insert_at o i v s k n : a_list s o k n -> takes s (insert_at_c o i v) (walk k n i).
Proof.
  intros H. unfold insert_at_c. eapply tk_bind0; [by apply tk_get_node|].
  intros. apply tk_lf.
Qed.
Lemma tk_insert_node_at o i v s k n : a_list s o k n -> takes s (insert_node_at_c o i v) (walk k n i).
Proof.
  intros H. unfold insert_node_at_c. eapply tk_bind0; [by apply tk_get_node|].
  intros. apply tk_lf.
Qed.
Lemma tk_end {A B} s (c : M (st * nat) A) (b : B) n : takes s c n -> takes s (c ;; ret b) n.
Proof. intros H. eapply tk_bind0; [done|]. intros. apply tk_ret. Qed.
Lemma check_index_inv o i a b s x s' : check_index o i a b s = Ok x s' -> s' = s.
Proof. unfold check_index, bind. destruct (get_obj o s) eqn:E; try done. apply get_obj_inv in E as [_ ->]. case_match; [done|]. by intros [= _ ->]. Qed.
Lemma check_item_inv v s x s' : check_item v s = Ok x s' -> s' = s.
Proof. unfold check_item. case_match; [done|]. by intros [= _ ->]. Qed.
Lemma py_assert_inv b (s : st) x s' : py_assert b s = Ok x s' -> s' = s.
Proof. destruct b; [|done]. by intros [= _ ->]. Qed.
Ltac tsame := apply tk_lfb; let E := fresh in
  intros ? ? E; first [apply check_index_inv in E|apply check_item_inv in E|apply py_assert_inv in E]; subst.

Lemma tk_add_front o v s k n : a_list s o k n -> takes s (add_front_c o v) 0.
Proof. 
  intros H. unfold add_front_c. tsame. apply tk_end. replace 0 with (walk k n 0) at 2; [by apply tk_insert_at|].
  destruct k; try done; cbn. 
Qed.
Lemma tk_add_end o v s k n : a_list s o k n -> takes s (add_end_c o v) (walk k n n).
Proof.
  intros H. unfold add_end_c. tsame. pose proof H as (ob & Hob & Hk & Hn). apply tk_lfb. unfold ll_len, bind, get_obj. rewrite Hob.
  intros ? ? [= <- <-]. apply tk_end. rewrite Hn. by apply tk_insert_at.
Qed.
Lemma tk_insert o z v s k n : a_list s o k n -> takes s (insert_c o (IInt z) v) (walk k n (place k (S n) z)).
Proof.
  intros H. pose proof H as (ob & Hob & Hk & Hn). unfold insert_c. tobj Hob. tsame. tsame. apply tk_end.
  unfold place. cbn [Nat.eqb]. rewrite Nat2Z.inj_succ. unfold Z.succ.
  replace (Z.to_nat (if is_cll (o_cls ob) then _ else z)) with (if is_cll (o_cls ob) then Z.to_nat (z mod (Z.of_nat (o_len ob) + 1)) else Z.to_nat z) by (by destruct (is_cll _)).
  by apply tk_insert_at.
Qed.
Lemma tk_replace o i v s k n : a_list s o k n -> takes s (replace_value_c o i v) (walk k n i).
Proof.
  intros H. unfold replace_value_c. tsame. eapply tk_bind0; [by apply tk_get_node|].
  intros. apply tk_lfb. intros. apply tk_lf.
Qed.
Lemma tk_remove_idx o i s k n : a_list s o k n -> takes s (remove_idx_c o i) (walk k n i).
Proof.
  intros H. unfold remove_idx_c. eapply tk_bind0; [by apply tk_get_node|].
  intros. apply tk_lfb. intros. apply tk_lf.
Qed.
Lemma tk_setitem o z v s k n : a_list s o k n -> takes s (setitem_c o (IInt z) v) (walk k n (place k n z)).
Proof.
  intros H. pose proof H as (ob & Hob & Hk & Hn). unfold setitem_c. tobj Hob. tsame. unfold place.
  destruct (is_cll (o_cls ob)).
  - destruct (Nat.eqb (o_len ob) 0); by apply tk_replace.
  - destruct (Z.eqb _ _); [apply tk_raise|]. tsame. by apply tk_replace.
Qed.
Lemma walk_0 k n : walk k n 0 = 0.
Proof. by destruct k. Qed.
Lemma tk_delitem o z s k n : a_list s o k n -> takes s (delitem_c o (IInt z)) (walk k n (place k n z)).
Proof.
  intros H. pose proof H as (ob & Hob & Hk & Hn). unfold delitem_c. tobj Hob. tsame. unfold place.
  destruct (is_cll (o_cls ob)).
  - destruct (Nat.eqb (o_len ob) 0); [rewrite walk_0; apply tk_ret|by apply tk_remove_idx].
  - destruct (Z.eqb _ _); [apply tk_raise|]. by apply tk_remove_idx.
Qed.
Lemma place_0 k n : place k n 0 = 0.
Proof. unfold place. rewrite Zmod_0_l. by destruct (is_cll k), (Nat.eqb n 0). Qed.
Lemma tk_remove_front o s k n : a_list s o k n -> takes s (remove_front_c o) 0.
Proof.
  intros H. unfold remove_front_c. apply tk_lfb. intros e s' E. assert (s' = s) as ->.
  { destruct H as (ob & Hob & _). unfold ll_is_empty, bind, get_obj in E. rewrite Hob in E. by injection E. }
  destruct e; [apply tk_ret|]. pose proof (tk_delitem o 0 s k n H) as Ht. by rewrite place_0, walk_0 in Ht.
Qed.
Lemma tk_remove_end o s k n : a_list s o k n -> takes s (remove_end_c o) (walk k n (n - 1)).
Proof.
  intros H. pose proof H as (ob & Hob & Hk & Hn). unfold remove_end_c. apply tk_lfb.
  unfold ll_is_empty, bind at 1, get_obj. rewrite Hob. intros ? ? [= <- <-].
  destruct (Nat.eqb_spec (o_len ob) 0) as [E|E].
  { rewrite <- Hn, E, walk_0. apply tk_ret. }
  apply tk_lfb. unfold ll_len, bind at 1, get_obj. rewrite Hob. intros ? ? [= <- <-].
  pose proof (tk_delitem o (Z.of_nat (o_len ob) - 1) s k n H) as Ht. rewrite Hn in *.
  replace (place k n (Z.of_nat n - 1)) with (n - 1) in Ht; [done|]. unfold place.
  destruct (is_cll k); [|lia]. rewrite (proj2 (Nat.eqb_neq n 0) E), Z.mod_small; lia.
Qed.
Lemma tk_ll_getitem o z s k n : a_list s o k n ->
  takes s (ll_getitem_c o (IInt z)) (walk k n (Z.to_nat (if (z <? 0)%Z then z + Z.of_nat n else z))).
Proof.
  intros H. pose proof H as (ob & Hob & Hk & Hn). unfold ll_getitem_c. tobj Hob. tsame.
  destruct (Z.eqb _ _); [apply tk_raise|].
  replace (Z.leb z (-1)) with (z <? 0)%Z by (destruct (Z.ltb_spec z 0), (Z.leb_spec z (-1)); lia).
  eapply tk_bind0; [by apply tk_get_node|].
  intros. apply tk_lfb. intros. apply tk_lfb. intros. apply tk_ret.
Qed.
Lemma tk_getitem o z s k n : a_list s o k n ->
  takes s (getitem_c o (IInt z)) (walk k n (place k n (if (z <? 0)%Z then z + Z.of_nat n else z))).
Proof.
  intros H. pose proof H as (ob & Hob & Hk & Hn). unfold getitem_c. tobj Hob.
  pose proof (tk_ll_getitem o z s _ _ H) as Hl. unfold place. destruct (o_cls ob) eqn:Ek; try exact Hl. cbn [is_cll].
  unfold cll_getitem_c. tobj Hob. tsame. destruct (Nat.eqb_spec (o_len ob) 0) as [E|E]; [apply tk_raise|].
  pose proof (tk_ll_getitem o (z mod Z.of_nat (o_len ob)) s _ _ H) as Ht.
  pose proof (Z.mod_pos_bound z (Z.of_nat (o_len ob))). destruct (Z.ltb_spec (z mod Z.of_nat (o_len ob)) 0); [lia|].
  destruct (Z.ltb_spec z 0); [|done]. replace ((z + Z.of_nat (o_len ob)) mod Z.of_nat (o_len ob))%Z with (z mod Z.of_nat (o_len ob))%Z; [done|].
  replace (z + Z.of_nat (o_len ob))%Z with (z + 1 * Z.of_nat (o_len ob))%Z by lia. by rewrite Z_mod_plus_full.
Qed.
Lemma tk_split_loop d : forall n p c s, takes s (split_loop_c d n p c) n.
Proof.
  induction n; intros; cbn [split_loop_c]; [apply tk_ret|]. apply tk_tick.
  do 4 (apply tk_lfb; intros). apply IHn.
Qed.
Lemma tk_split_at o i s k n : a_list s o k n -> i <= n -> takes s (split_at_c o i) n.
Proof.
  intros (ob & Hob & Hk & Hn) Hi. unfold split_at_c. tobj Hob. do 2 (apply tk_lfb; intros).
  destruct (Nat.eqb_spec (o_len ob) 0) as [E|E]; [rewrite E; apply tk_ret|].
  eapply (tk_eq _ _ (i + (o_len ob - i))); [|lia]. eapply tk_bind; [apply tk_split_loop|].
  intros. apply tk_end. apply tk_split_loop.
Qed.
Lemma tk_split o z s k n : a_list s o k n -> takes s (split_c o (IInt z)) n.
Proof.
  intros H. pose proof H as (ob & Hob & Hk & Hn). unfold split_c. tobj Hob.
  apply tk_lfb. intros [] s' E. pose proof E as ->%check_index_inv. eapply tk_split_at; [done|].
  unfold check_index, bind, get_obj in E. rewrite Hob in E. unfold validate_index in E.
  destruct (o_cls ob) eqn:Ek; cbn [is_cll] in *.
  3: { destruct (Nat.eqb_spec (o_len ob) 0) as [E0|E0]; [lia|]. pose proof (Z.mod_pos_bound z (Z.of_nat (o_len ob))). lia. }
  all: cbn in E; repeat case_match; simplify_eq; lia.
Qed.

(** ** extend and rotate *)
Definition kept {A} (o : oid) (m : M st A) : Prop := forall s x s', m s = Ok x s' -> s_objs s' !! o = s_objs s !! o.
Lemma kept_bind {A B} o (m : M st A) (f : A -> M st B) : kept o m -> (forall x, kept o (f x)) -> kept o (bind m f).
Proof.
  intros Hm Hf s x s'. unfold bind. destruct (m s) as [y s1|?|] eqn:E; try done. intros E'.
  apply Hf in E'. apply Hm in E. congruence.
Qed.
Lemma kept_ret {A} o (a : A) : kept o (ret a).
Proof. by intros s x s' [= -> ->]. Qed.
Lemma kept_raise {A} o e : kept o (raise (A := A) e).
Proof. done. Qed.
Lemma kept_get_obj o p : kept o (get_obj p).
Proof. intros s x s' [_ ->]%get_obj_inv. done. Qed.
Lemma kept_get_cell o p : kept o (get_cell p).
Proof. intros s x s'. unfold get_cell. case_match; [|done]. by intros [= -> ->]. Qed.
Lemma kept_put_cell o p c : kept o (put_cell p c).
Proof. by intros s x s' [= _ <-]. Qed.
Lemma kept_alloc_cell o c : kept o (alloc_cell c).
Proof. by intros s x s' [= _ <-]. Qed.
Lemma kept_put_obj o p c : o <> p -> kept o (put_obj p c).
Proof. intros Hne s x s' [= _ <-]. cbn. by rewrite list_lookup_insert_ne. Qed.
Ltac kp := repeat first [ apply kept_ret | apply kept_raise | apply kept_get_obj | apply kept_get_cell
  | apply kept_put_cell | apply kept_alloc_cell | (apply kept_put_obj; done) | apply kept_bind; [|intros ?] | case_match ].
Lemma kept_set_next o l n : kept o (set_next l n).
Proof. unfold set_next. kp. Qed.
Lemma kept_cll_insert o p q l : o <> p -> kept o (cll_insert_node p q l).
Proof.
  intros. unfold cll_insert_node, get_next, get_data, set_data_raw, deref. kp.
  all: try apply kept_set_next. all: unfold bind; kp.
Qed.
Lemma kept_new_node o b v : kept o (new_node b v).
Proof. unfold new_node. kp. Qed.
Lemma get_data_same l s x s' : get_data l s = Ok x s' -> s' = s.
Proof. unfold get_data, bind, get_cell. destruct (s_nodes s !! l); [|done]. by intros [= _ ->]. Qed.
Lemma tk_cll_extend_loop o p oo : o <> p -> forall f i c q s, s_objs s !! p = Some oo -> i <= o_len oo ->
  takes s (cll_extend_loop_c f o p i c q) (o_len oo - i).
Proof.
  intros Hne. induction f as [|f IH]; intros i c q s Hp Hi; cbn [cll_extend_loop_c]; tobj Hp;
    (destruct (Nat.ltb_spec i (o_len oo)); [|eapply tk_eq; [apply tk_ret|lia]]).
  { by split; intros k. }
  eapply (tk_eq _ _ (S (o_len oo - S i))); [apply tk_tick|lia].
  apply tk_lfb. intros l s1 E1. assert (s1 = s) as ->. { destruct c; [|done]. by injection E1. }
  apply tk_lfb. intros d s2 ->%get_data_same. apply tk_lfb. intros ob s3 [Hob ->]%get_obj_inv.
  apply tk_lfb. intros nw s4 E4. apply (kept_new_node p) in E4.
  apply tk_lfb. intros r s5 E5. apply (kept_cll_insert p o) in E5; [|done].
  apply tk_lfb. intros nx s6 E6. apply IH; [|lia].
  assert (s6 = s5) as ->. { unfold get_next, bind, get_cell in E6. destruct (s_nodes s5 !! l); [|done]. by injection E6. }
  congruence.
Qed.
Lemma get_node_loop_same : forall i p c s x s', get_node_loop i p c s = Ok x s' -> s' = s.
Proof.
  induction i as [|i IH]; intros p c s x s'; cbn [get_node_loop]; [by intros [= _ ->]|].
  unfold bind at 1. destruct c as [l|]; [|done]. cbn [deref ret]. unfold bind, get_next, get_cell.
  unfold bind. destruct (s_nodes s !! l); [|done]. cbn. apply IH.
Qed.
Lemma tk_extend o p s k n m : a_list s o k n -> a_list s p k m -> o <> p ->
  takes s (extend_c o p) (extend_steps k n m).
Proof.
  intros H (oo & Hoo & Hk' & Hm) Hne. pose proof H as (ob & Hob & Hk & Hn). unfold extend_c.
  apply tk_lfb. intros ob' s' [E ->]%get_obj_inv. rewrite Hob in E. injection E as <-.
  apply tk_lfb. intros oo' s' [E ->]%get_obj_inv. rewrite Hoo in E. injection E as <-.
  rewrite Hk, Hk'. replace (is_instance k k) with true by (by destruct k). subst n m.
  unfold extend_steps. destruct k.
  - unfold ll_extend_c. tobj Hoo. destruct (Nat.eqb (o_len oo) 0); [apply tk_ret|]. tobj Hob.
    destruct (Nat.eqb_spec (o_len ob) 0) as [->|E]; [apply tk_lf|].
    eapply tk_bind0; [exact (tk_get_node o (o_len ob) s _ _ H)|]. intros.
    apply tk_lfb; intros. apply tk_lfb; intros. apply tk_lfb; intros. apply tk_lfb; intros. apply tk_lf.
  - destruct (Nat.eqb _ 0); apply tk_lf.
  - unfold cll_extend_c. tobj Hoo. destruct (Nat.eqb_spec (o_len oo) 0) as [E0|E0]; [apply tk_ret|]. tobj Hob.
    destruct (Nat.eqb_spec (o_len ob) 0) as [E|E].
    + eapply (tk_eq _ _ (0 + (o_len oo - 0))); [|lia]. eapply tk_bind; [apply tk_ret|].
      intros x s' k k' [= <- <- <-]. apply tk_cll_extend_loop; [done|done|lia].
    + eapply (tk_eq _ _ ((o_len ob - 1) + (o_len oo - 0))); [|lia]. eapply tk_bind; [apply tk_get_node_loop|].
      intros x s' j j' E1. apply (co_ok _ _ _ _ _ _ _ (co_get_node_loop _ _ _)) in E1.
      apply get_node_loop_same in E1 as ->. apply tk_cll_extend_loop; [done|done|lia].
Qed.

Lemma rep_a_list k s o g : rep k s o g -> a_list s o k (length g).
Proof. intros Hr. destruct (obj_eq Hr) as (ob & Hob & Hk & Hlen & _). by exists ob. Qed.
Lemma rotate_steps k s o g d r : rep (mcls k) s o g ->
  at_least s (rotate_c o d r) (length g) /\ at_most s (rotate_c o d r) (2 * length g).
Proof.
  intros Hr. pose proof (rep_a_list _ _ _ _ Hr) as Hl. pose proof Hl as (ob & Hob & Hk & Hn). unfold rotate_c.
  assert (forall x s' j j', split_c o (IInt (calibrate (o_len ob) d r)) (s, j) = Ok x (s', j') ->
    exists b, b <= length g /\ takes s' (extend_c (snd x) (fst x) ;; ret (snd x)) b) as Hx.
  { intros x s' j j' E. apply (co_ok _ _ _ _ _ _ _ (co_split _ _)) in E.
    set (z := calibrate (o_len ob) d r) in *.
    destruct (bad_index k (length g) (AInt z)) as [e|] eqn:Eb.
    { pose proof (split_exc k s o g (AInt z) e Hr Eb) as E'. cbn in E'. congruence. }
    pose proof (split_ok k s o g (AInt z) Hr Eb) as Hw. cbv zeta in Hw. unfold wp in Hw. cbn [mix] in Hw. rewrite E in Hw.
    destruct Hw as (g1 & g2 & Hr1 & Hv1 & Hr2 & Hv2 & _ & _ & Hne & _).
    exists (extend_steps (mcls k) (length g2) (length g1)). split.
    - apply (f_equal length) in Hv1, Hv2. rewrite take_length in Hv1. rewrite drop_length in Hv2.
      rewrite !map_length in Hv1, Hv2. set (t := Z.to_nat _) in *. unfold extend_steps.
      destruct (Nat.eqb_spec (length g1) 0); [lia|]. destruct (mcls k); lia.
    - apply tk_end. apply tk_extend; [by apply rep_a_list|by apply rep_a_list|done]. }
  split.
  - apply al_lfb. intros ob' s' [E ->]%get_obj_inv. rewrite Hob in E. injection E as <-.
    rewrite <- (Nat.add_0_r (length g)). eapply al_bind; [apply (tk_split _ _ _ _ _ Hl)|].
    intros x s' j j' E. destruct (Hx _ _ _ _ E) as (b & _ & _ & Hb). eapply al_le; [exact Hb|lia].
  - apply am_lfb. intros ob' s' [E ->]%get_obj_inv. rewrite Hob in E. injection E as <-.
    replace (2 * length g) with (length g + length g) by lia. eapply am_bind; [apply (tk_split _ _ _ _ _ Hl)|].
    intros x s' j j' E. destruct (Hx _ _ _ _ E) as (b & Hle & Hb & _). eapply am_le; [exact Hb|lia].
Qed.
Lemma check_distance_inv d s x s' : check_distance d s = Ok x s' -> s' = s.
Proof. unfold check_distance. repeat case_match; try done; by intros [= _ ->]. Qed.
Lemma rotate_new_steps k s o g d r : rep (mcls k) s o g ->
  at_least s (rotate_new_c o d r) (length g) /\ at_most s (rotate_new_c o d r) (2 * length g).
Proof.
  intros Hr. unfold rotate_new_c. split; [apply al_lfb|apply am_lfb]; intros z s' ->%check_distance_inv; by eapply rotate_steps.
Qed.
Lemma rotate_inplace_steps k s o g d r : rep (mcls k) s o g ->
  at_least s (rotate_inplace_c o d r) (length g) /\ at_most s (rotate_inplace_c o d r) (2 * length g).
Proof.
  intros Hr. unfold rotate_inplace_c. rewrite <- (Nat.add_0_r (length g)) at 1. rewrite <- (Nat.add_0_r (2 * length g)).
  split; [apply al_lfb|apply am_lfb]; intros z s' ->%check_distance_inv; [eapply al_bind|eapply am_bind];
    try (by eapply rotate_steps); intros; repeat (apply tk_lfb; intros); apply tk_lf.
Qed.
