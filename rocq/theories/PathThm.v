(** * Proofs about Tree.from_path *)
From Coq Require Import Sorted ssreflect.
From Verif Require Import Base TreeModel TreeSpec TreeThm PrintModel PathModel SuffixSpec SuffixThm3 PathSpec.
Local Open Scope N_scope.

Fixpoint fs_ind' (P : fs -> Prop) (HF : P File) (HD : forall es, Forall (fun e => P (snd e)) es -> P (Dir es)) (x : fs) : P x :=
  match x with
  | File => HF
  | Dir es => HD es ((fix go (l : list (pystr * fs)) : Forall (fun e => P (snd e)) l :=
      match l with [] => Forall_nil_2 _ | e :: l' => Forall_cons_2 _ _ _ (fs_ind' P HF HD (snd e)) (go l') end) es)
  end.

(** ** Strings *)
Definition pathstr (k : nat) (ns : list pystr) : pystr := repeat slash k ++ join [slash] ns.
Lemma join_cons2 (x y : pystr) l : join [slash] (x :: y :: l) = x ++ slash :: join [slash] (y :: l).
Proof. done. Qed.
Lemma join_snoc ns a : ns <> [] -> join [slash] (ns ++ [a]) = join [slash] ns ++ slash :: a.
Proof.
  induction ns as [|x ns IH]; [done|]. intros _. destruct ns as [|y ns]; [done|]. change ((x :: y :: ns) ++ [a]) with (x :: y :: (ns ++ [a])).
  rewrite !join_cons2. change (y :: ns ++ [a]) with ((y :: ns) ++ [a]). rewrite IH //. by rewrite -app_assoc.
Qed.
Lemma split_slash_app s r : slash ∉ s -> split_slash (s ++ slash :: r) = s :: split_slash r.
Proof.
  induction s as [|c s IH]; intros H; [done|]. apply not_elem_of_cons in H as [H1 H2]. cbn. rewrite IH //.
  destruct (N.eqb_spec c slash); [congruence|done].
Qed.
Lemma split_slash_one s : slash ∉ s -> split_slash s = [s].
Proof.
  induction s as [|c s IH]; intros H; [done|]. apply not_elem_of_cons in H as [H1 H2]. cbn. rewrite IH //.
  destruct (N.eqb_spec c slash); [congruence|done].
Qed.
Lemma split_slash_join ns : ns <> [] -> Forall (fun n => slash ∉ n) ns -> split_slash (join [slash] ns) = ns.
Proof.
  intros Hn HF. induction HF as [|x l Hx HF IH]; [done|]. destruct l as [|y l]; [by apply split_slash_one|].
  rewrite join_cons2 split_slash_app //. f_equal. by apply IH.
Qed.
Lemma split_slash_pathstr k ns : Forall (fun n => slash ∉ n) ns ->
  split_slash (pathstr k ns) = repeat [] k ++ (match ns with [] => [[]] | _ => ns end).
Proof.
  intros H. unfold pathstr. induction k as [|k IH]; cbn.
  - destruct ns as [|a ns]; [done|]. by apply split_slash_join.
  - by rewrite IH.
Qed.
Lemma proper_slash ns : Forall proper_name ns -> Forall (fun n => slash ∉ n) ns.
Proof. intros HF. eapply Forall_impl; [exact HF|]. by intros n (_ & H & _). Qed.
Lemma rep_snoc k : repeat slash (S k) = repeat slash k ++ [slash].
Proof. induction k as [|k IH]; [done|]. cbn. by rewrite -IH. Qed.
Lemma rev_rep k : rev (repeat slash k) = repeat slash k.
Proof. induction k as [|k IH]; [done|]. cbn [repeat rev]. by rewrite IH -rep_snoc. Qed.
Lemma ends_app a b : b <> [] -> ends_with_slash (a ++ b) = ends_with_slash b.
Proof. intros H. unfold ends_with_slash. rewrite rev_app_distr. destruct (exists_last H) as (b' & c & ->). by rewrite rev_app_distr. Qed.
Lemma ends_name b : slash ∉ b -> ends_with_slash b = false.
Proof.
  intros H. unfold ends_with_slash. destruct (rev b) as [|c r] eqn:E; [done|]. cbn. apply N.eqb_neq. intros ->. apply H.
  apply elem_of_list_In. apply in_rev. rewrite E. by left.
Qed.
Lemma starts_name b : slash ∉ b -> starts_with_slash b = false.
Proof. destruct b as [|c b]; [done|]. intros H. apply not_elem_of_cons in H as [H _]. apply N.eqb_neq. by intros ->. Qed.
Lemma pathstr_ends k ns : Forall proper_name ns -> ns <> [] -> ends_with_slash (pathstr k ns) = false.
Proof.
  intros HF Hn. destruct (exists_last Hn) as (ns' & a & ->). apply Forall_app in HF as [HF Ha]. apply Forall_singleton in Ha as (Ha & Hs & _).
  unfold pathstr. destruct ns' as [|b ns'].
  - cbn [app join]. rewrite ends_app //. by apply ends_name.
  - rewrite join_snoc // (cons_middle slash) app_assoc. rewrite !app_assoc. rewrite ends_app //. by apply ends_name.
Qed.
Lemma pathstr_snoc k ns a : pathstr (S k) (ns ++ [a]) = (match ns with [] => repeat slash (S k) | _ => pathstr (S k) ns ++ [slash] end) ++ a.
Proof.
  unfold pathstr. destruct ns as [|b ns]; [done|]. rewrite join_snoc // (cons_middle slash). by rewrite !app_assoc.
Qed.
Lemma pathstr_join k ns a : Forall proper_name ns -> proper_name a -> path_join (pathstr (S k) ns) a = pathstr (S k) (ns ++ [a]).
Proof.
  intros HF (Ha & Hs & _). unfold path_join. rewrite starts_name //. rewrite bool_decide_eq_false_2; [done|]. cbn [orb].
  rewrite pathstr_snoc. destruct ns as [|b ns].
  - assert (ends_with_slash (pathstr (S k) []) = true) as ->.
    { unfold pathstr, ends_with_slash. by rewrite app_nil_r rev_rep. }
    unfold pathstr. by rewrite app_nil_r.
  - rewrite pathstr_ends //. by rewrite -app_assoc.
Qed.
Lemma pathstr_join_root k : path_join (pathstr (S k) []) [] = pathstr (S k) [].
Proof.
  unfold path_join. cbn [starts_with_slash]. rewrite bool_decide_eq_false_2; [done|]. cbn [orb].
  assert (ends_with_slash (pathstr (S k) []) = true) as ->.
  { unfold pathstr, ends_with_slash. by rewrite app_nil_r rev_rep. }
  by rewrite app_nil_r.
Qed.
Lemma cut_last_app P a : ends_with_slash P = true -> slash ∉ a -> forall tl, cut_last (rev (P ++ a)) tl = (P, a ++ tl).
Proof.
  intros HP. induction a as [|c a IH] using rev_ind; intros Ha tl.
  - rewrite app_nil_r. unfold ends_with_slash in HP. destruct (rev P) as [|d r] eqn:E; [done|]. cbn in HP |- *. rewrite HP.
    change (rev r ++ [d]) with (rev (d :: r)). rewrite -E rev_involutive. done.
  - apply not_elem_of_app in Ha as [Ha Hc]. apply not_elem_of_cons in Hc as [Hc _]. rewrite app_assoc rev_app_distr. cbn.
    destruct (N.eqb_spec c slash); [congruence|]. rewrite IH //. by rewrite -app_assoc.
Qed.
Lemma rep_all k s : repeat slash k ++ s = repeat slash (length (repeat slash k ++ s)) -> forall c, c ∈ s -> c = slash.
Proof.
  rewrite app_length repeat_app repeat_length. intros H c Hc. apply app_inv_head in H. rewrite H in Hc. apply elem_of_list_In, repeat_spec in Hc. done.
Qed.
Lemma path_split_snoc k ns a : Forall proper_name ns -> proper_name a -> path_split (pathstr (S k) (ns ++ [a])) = (pathstr (S k) ns, a).
Proof.
  intros HF (Ha & Hs & _). unfold path_split. rewrite pathstr_snoc. destruct ns as [|b ns].
  - rewrite cut_last_app //; [by rewrite /ends_with_slash rev_rep|]. rewrite app_nil_r. cbv beta iota.
    rewrite repeat_length (bool_decide_eq_true_2 (repeat slash (S k) = repeat slash (S k))) // orb_true_r. unfold pathstr. by rewrite app_nil_r.
  - rewrite cut_last_app //; [by rewrite ends_app|]. rewrite app_nil_r. cbv beta iota.
    rewrite bool_decide_eq_false_2; [by intros ?%app_eq_nil; naive_solver|]. rewrite bool_decide_eq_false_2; cbn [orb].
    { intros H. unfold pathstr in H. rewrite -app_assoc in H. pose proof (rep_all _ _ H) as HA.
      apply Forall_cons in HF as [(Hb & Hbs & _) _]. destruct b as [|d b]; [done|]. apply Hbs. rewrite (HA d); [|by left].
      destruct ns as [|e ns]; cbn [join]; apply elem_of_app; left; [by left|]. apply elem_of_app. left. by left. }
    f_equal. rewrite rev_app_distr. cbn [rev app strip_rev]. rewrite N.eqb_refl.
    pose proof (pathstr_ends (S k) (b :: ns) HF ltac:(done)) as HE. unfold ends_with_slash in HE.
    assert (strip_rev (rev (pathstr (S k) (b :: ns))) = rev (pathstr (S k) (b :: ns))) as ->; [|by rewrite rev_involutive].
    destruct (rev (pathstr (S k) (b :: ns))) as [|c r]; [done|]. cbn in HE |- *. by rewrite HE.
Qed.
Lemma path_split_root k : path_split (pathstr (S k) []) = (pathstr (S k) [], []).
Proof.
  unfold path_split. assert (cut_last (rev (pathstr (S k) [])) [] = (pathstr (S k) [], [])) as ->.
  { rewrite -{1}(app_nil_r (pathstr (S k) [])) cut_last_app //; [|set_solver]. by rewrite /pathstr app_nil_r /ends_with_slash rev_rep. }
  cbv beta iota. rewrite (bool_decide_eq_true_2 (_ = repeat slash _)); [by rewrite /pathstr app_nil_r repeat_length|]. by rewrite orb_true_r.
Qed.

(** ** The file system *)
Lemma reach_app x ns1 ns2 : reach x (ns1 ++ ns2) = match reach x ns1 with Some y => reach y ns2 | None => None end.
Proof. revert x. induction ns1 as [|n ns1 IH]; intros x; [done|]. cbn. destruct x as [|es]; [done|]. destruct (entry n es); [apply IH|done]. Qed.
Lemma entry_elem n es x : entry n es = Some x -> (n, x) ∈ es.
Proof.
  induction es as [|[m y] es IH]; cbn; [done|]. case_bool_decide as H; [|intros; right; auto]. intros [= ->]. subst. by left.
Qed.
Lemma elem_entry n es x : NoDup (map fst es) -> (n, x) ∈ es -> entry n es = Some x.
Proof.
  induction es as [|[m y] es IH]; cbn; [set_solver|]. intros HN H. apply NoDup_cons in HN as [H1 H2]. apply elem_of_cons in H as [[= -> ->]|H].
  - by rewrite bool_decide_eq_true_2.
  - rewrite bool_decide_eq_false_2; [|by apply IH]. intros ->. apply H1. apply elem_of_list_fmap. by exists (n, x).
Qed.
Lemma proper_entry n es x : proper (Dir es) -> entry n es = Some x -> proper_name n /\ proper x.
Proof. intros H E. inversion H as [|? H1 H2]; subst. rewrite Forall_forall in H2. apply (H2 (n, x)). by apply entry_elem. Qed.
Lemma proper_reach x ns y : proper x -> reach x ns = Some y -> Forall proper_name ns /\ proper y.
Proof.
  revert x. induction ns as [|n ns IH]; intros x Hx E; cbn in E; [injection E as ->; by split|]. destruct x as [|es]; [done|].
  destruct (entry n es) as [z|] eqn:Ez; [|done]. destruct (proper_entry n es z Hx Ez) as [H1 H2]. destruct (IH z H2 E). split; [by constructor|done].
Qed.
Lemma depth_entry n es x : entry n es = Some x -> (fs_depth x < fs_depth (Dir es))%nat.
Proof.
  intros E. apply entry_elem in E. cbn. apply Nat.lt_succ_r. induction es as [|e es IH]; [set_solver|]. cbn.
  apply elem_of_cons in E as [<-|E]; [cbn; lia|]. specialize (IH E). lia.
Qed.
Lemma depth_reach x ns y : reach x ns = Some y -> (fs_depth y <= fs_depth x)%nat.
Proof.
  revert x. induction ns as [|n ns IH]; intros x E; cbn in E; [by injection E as ->|]. destruct x as [|es]; [done|].
  destruct (entry n es) as [z|] eqn:Ez; [|done]. apply depth_entry in Ez. specialize (IH z E). lia.
Qed.
Lemma walk_names ns : forall above x y, Forall proper_name ns -> reach x ns = Some y -> walk above x ns = Some (rev (map fst above) ++ ns, y).
Proof.
  induction ns as [|n ns IH]; intros above x y HF E; cbn in E |- *; [injection E as ->; by rewrite app_nil_r|].
  apply Forall_cons in HF as [(H1 & H2 & H3 & H4) HF]. destruct x as [|es]; [done|]. rewrite !bool_decide_eq_false_2 //. cbn [orb].
  destruct (entry n es) as [z|] eqn:Ez; [|done]. rewrite (IH _ _ _ HF E). cbn. by rewrite -app_assoc.
Qed.
Lemma walk_empties k es cs : walk [] (Dir es) (repeat [] k ++ cs) = walk [] (Dir es) cs.
Proof. induction k as [|k IH]; [done|]. exact IH. Qed.
Lemma resolve_pathstr root cwd k ns y : is_dir root -> Forall proper_name ns -> reach root ns = Some y ->
  resolve root cwd (pathstr (S k) ns) = Some (ns, y).
Proof.
  intros [es ->] HF E. unfold resolve. unfold pathstr at 1. cbn [repeat app]. rewrite N.eqb_refl.
  change (slash :: repeat slash k ++ join [slash] ns) with (pathstr (S k) ns). rewrite split_slash_pathstr; [by apply proper_slash|].
  rewrite walk_empties. destruct ns as [|n ns].
  - injection E as <-. done.
  - by rewrite (walk_names _ _ _ _ HF E).
Qed.
Fixpoint above_ok (root : fs) (above : list (pystr * fs)) (cur : fs) : Prop :=
  match above with
  | [] => cur = root
  | (n, up) :: above' => (exists es, up = Dir es /\ entry n es = Some cur) /\ above_ok root above' up
  end.
Lemma above_reach root above : forall cur, above_ok root above cur -> reach root (rev (map fst above)) = Some cur.
Proof.
  induction above as [|[n up] above IH]; intros cur H; cbn in *; [by subst|]. destruct H as [(es & -> & E) H].
  rewrite reach_app (IH _ H). cbn. by rewrite E.
Qed.
Lemma walk_norm root (HP : proper root) comps : forall above cur ns y, above_ok root above cur ->
  walk above cur comps = Some (ns, y) -> norm_comps (map fst above) comps = ns /\ reach root ns = Some y.
Proof.
  induction comps as [|c comps IH]; intros above cur ns y HA E.
  - cbn in E |- *. injection E as <- <-. split; [done|]. by apply above_reach.
  - cbn [walk] in E. destruct cur as [|es]; [done|]. cbn [norm_comps].
    destruct (bool_decide (c = []) || bool_decide (c = s_dot)); [by eapply IH|].
    pose proof (above_reach _ _ _ HA) as HR. destruct (proper_reach _ _ _ HP HR) as [HF HD].
    assert (bool_decide (head (map fst above) = Some s_dotdot) = false) as ->.
    { apply bool_decide_eq_false. intros H. destruct above as [|[n up] above]; [done|]. cbn in H. injection H as ->.
      cbn in HF. apply Forall_app in HF as [_ HF]. apply Forall_singleton in HF as (_ & _ & _ & HF). done. }
    rewrite orb_false_r. case_bool_decide as Hdd; cbn [negb].
    + destruct above as [|[n up] above]; [by apply (IH [] (Dir es))|]. destruct HA as [_ HA]. by apply (IH above up).
    + destruct (entry c es) as [x|] eqn:Ex; [|done]. apply (IH ((c, Dir es) :: above) x); [|done]. split; [by eexists|done].
Qed.

(** ** abspath *)
Lemma split_slash_ne a : split_slash a <> [].
Proof. destruct a as [|c a]; [done|]. cbn. destruct (N.eqb c slash); [done|]. by destruct (split_slash a). Qed.
Lemma split_slash_two a b : split_slash (a ++ slash :: b) = split_slash a ++ split_slash b.
Proof.
  induction a as [|c a IH]; [done|]. cbn. rewrite IH. destruct (N.eqb c slash); [done|]. pose proof (split_slash_ne a). by destruct (split_slash a).
Qed.
Lemma abspath_spec root cwd d p ns y : proper root -> is_dir root -> reach root cwd = Some d -> Forall proper_name cwd ->
  resolve root cwd p = Some (ns, y) ->
  exists k, abspath cwd p = pathstr (S k) ns /\ reach root ns = Some y.
Proof.
  intros HP [es ->] Hc HF E. unfold resolve in E. destruct p as [|c p]; [done|].
  assert (exists cs, walk [] (Dir es) cs = Some (ns, y) /\
    norm_comps [] (split_slash (if starts_with_slash (c :: p) then c :: p else path_join (getcwd cwd) (c :: p))) = norm_comps [] cs) as (cs & Ew & Es).
  { cbn [starts_with_slash]. destruct (N.eqb_spec c slash) as [->|Hne]; [by eexists|]. eexists. split; [exact E|].
    unfold path_join. cbn [starts_with_slash]. apply N.eqb_neq in Hne. rewrite Hne. rewrite bool_decide_eq_false_2; [done|]. cbn [orb].
    destruct (decide (cwd = [])) as [->|Hw].
    - cbn [getcwd join app]. change (split_slash (slash :: c :: p)) with ([] :: split_slash (c :: p)). done.
    - change (getcwd cwd) with (pathstr 1 cwd). rewrite pathstr_ends //. cbn [app]. rewrite split_slash_two split_slash_pathstr; [by apply proper_slash|].
      destruct cwd as [|w cwd]; [done|]. cbn [repeat app norm_comps]. rewrite (bool_decide_eq_true_2 ([] = [])) //. }
  unfold abspath, normpath. rewrite Es. destruct (walk_norm (Dir es) HP cs [] (Dir es) ns y) as [EN HR]; [done|done|]. cbn [map] in EN. rewrite EN.
  assert (forall s, exists k, initial_slashes s = S k) as HK.
  { intros s. unfold initial_slashes. repeat case_match; eauto. }
  destruct (HK (if starts_with_slash (c :: p) then c :: p else path_join (getcwd cwd) (c :: p))) as [k ->]. by exists k.
Qed.

(** ** sorted *)
Lemma insert_str_perm x l : insert_str x l ≡ₚ x :: l.
Proof. induction l as [|y l IH]; cbn; [done|]. destruct (str_ltb x y); [done|]. by rewrite IH Permutation_swap. Qed.
Lemma insert_str_sorted x l : x ∉ l -> StronglySorted lex_lt l -> StronglySorted lex_lt (insert_str x l).
Proof.
  intros Hx HS. induction HS as [|y l HS IH HF]; cbn; [by repeat constructor|]. apply not_elem_of_cons in Hx as [Hxy Hx].
  destruct (str_ltb x y) eqn:E.
  - apply str_ltb_lex in E. constructor; [by constructor|]. constructor; [done|]. eapply Forall_impl; [done|]. intros z Hz. by eapply lex_trans.
  - constructor; [by apply IH|]. rewrite insert_str_perm. constructor; [|done].
    destruct (lex_total x y) as [H|[H|H]]; [|done|done]. apply str_ltb_lex in H. congruence.
Qed.
Lemma sorted_str_spec l : NoDup l -> sorted_str l ≡ₚ l /\ StronglySorted lex_lt (sorted_str l).
Proof.
  unfold sorted_str. assert (forall l acc, NoDup (acc ++ l) -> StronglySorted lex_lt acc ->
    fold_left (fun acc x => insert_str x acc) l acc ≡ₚ acc ++ l /\ StronglySorted lex_lt (fold_left (fun acc x => insert_str x acc) l acc)) as H.
  { clear l. induction l as [|x l IH]; intros acc HN HS; cbn; [by rewrite app_nil_r|].
    assert (NoDup (insert_str x acc ++ l)) as HN'. { rewrite insert_str_perm. cbn. by rewrite Permutation_middle. }
    destruct (IH (insert_str x acc) HN') as [H1 H2].
    { apply insert_str_sorted; [|done]. apply NoDup_app in HN as (_ & HD & _). intros Hx. apply (HD x Hx). by left. }
    split; [|done]. by rewrite H1 insert_str_perm -Permutation_middle. }
  intros HN. apply (H l []); [done|constructor].
Qed.

(** ** The tree *)
Lemma form_ok root cwd k (HD : is_dir root) : forall fuel parent folder ns y,
  path_join parent folder = pathstr (S k) ns -> Forall proper_name ns -> reach root ns = Some y -> proper y -> (fs_depth y <= fuel)%nat ->
  exists t, form_tree fuel root cwd parent folder = Some t /\ mirrors folder y t.
Proof.
  induction fuel as [|fuel IH]; intros parent folder ns y EJ HF HR HP Hf; [destruct y; cbn in Hf; lia|].
  cbn [form_tree]. rewrite EJ (resolve_pathstr root cwd k ns y HD HF HR). destruct y as [|es].
  { eexists. split; [done|]. constructor. }
  inversion HP as [|? HN HE]; subst. rewrite Forall_forall in HE. destruct (sorted_str_spec _ HN) as [HSp HSs].
  set (names := sorted_str (map fst es)) in *.
  assert (forall n, n ∈ names -> exists x, entry n es = Some x) as Hn.
  { intros n Hn. rewrite HSp in Hn. apply elem_of_list_fmap in Hn as ([m x] & -> & Hx). exists x. by apply elem_entry. }
  assert (exists cs, mapM (form_tree fuel root cwd (pathstr (S k) ns)) names = Some cs /\
    Forall2 (fun n t => exists x, entry n es = Some x /\ mirrors n x t) names cs) as (cs & EM & HM).
  { clearbody names. clear HSs HSp. induction names as [|n names IHn]; [by exists []|].
    destruct (Hn n) as [x Hx]; [by left|]. destruct IHn as (cs & E1 & E2); [intros m Hm; apply Hn; by right|].
    destruct (HE (n, x) (entry_elem _ _ _ Hx)) as [Hpn Hpx]. cbn in Hpn, Hpx.
    destruct (IH (pathstr (S k) ns) n (ns ++ [n]) x) as (t & Et & Hm).
    - by apply pathstr_join.
    - apply Forall_app. split; [done|]. by apply Forall_singleton.
    - rewrite reach_app HR. cbn. by rewrite Hx.
    - done.
    - apply depth_entry in Hx. lia.
    - exists (t :: cs). split; [|constructor; eauto]. cbn. by rewrite Et /= E1. }
  rewrite EM. eexists. split; [done|].
  set (es' := map (fun n => (n, default File (entry n es))) names).
  apply (m_dir folder es es' cs).
  - apply NoDup_Permutation.
    + apply (NoDup_fmap_1 fst). unfold es'. rewrite -list_fmap_compose. change (fst ∘ _) with (@id pystr). rewrite list_fmap_id HSp. done.
    + by apply (NoDup_fmap_1 fst).
    + intros [n x]. unfold es'. rewrite elem_of_list_fmap. split.
      * intros (m & [= -> ->] & Hm). destruct (Hn m Hm) as [z Hz]. rewrite Hz. by apply entry_elem.
      * intros Hx. exists n. rewrite (elem_entry n es x HN Hx). split; [done|]. rewrite HSp. apply elem_of_list_fmap. by exists (n, x).
  - unfold es'. clear -HSs. induction HSs as [|n l HS IH HFl]; cbn; constructor; [done|]. rewrite Forall_map. by eapply Forall_impl.
  - unfold es'. apply Forall2_fmap_l. eapply Forall2_impl; [done|]. intros n t (x & Ex & Hm). cbn. by rewrite Ex.
Qed.
Lemma from_path_spec root cwd d p : proper root -> is_dir root -> reach root cwd = Some d ->
  match resolve root cwd p with
  | None => from_path root cwd (PStr p) = inl ValueError
  | Some (ns, x) => exists t, from_path root cwd (PStr p) = inr (Some t) /\ mirrors (default [] (last ns)) x t
  end.
Proof.
  intros HP HD Hc. destruct (proper_reach _ _ _ HP Hc) as [HF _]. cbn [from_path]. destruct (resolve root cwd p) as [[ns x]|] eqn:E; [|done].
  destruct (abspath_spec root cwd d p ns x HP HD Hc HF E) as (k & -> & HR). destruct (proper_reach _ _ _ HP HR) as [HFn HPx].
  pose proof (depth_reach _ _ _ HR) as HL.
  destruct (decide (ns = [])) as [->|Hn].
  - rewrite path_split_root. cbv beta iota.
    destruct (form_ok root cwd k HD (fs_depth root) (pathstr (S k) []) [] [] x) as (t & Et & Hm); [by apply pathstr_join_root|done|done|done|done|]. exists t. by rewrite Et.
  - destruct (exists_last Hn) as (ns' & a & ->). apply Forall_app in HFn as [H1 H2]. rewrite Forall_singleton in H2. rewrite (path_split_snoc k ns' a H1 H2).
    destruct (form_ok root cwd k HD (fs_depth root) (pathstr (S k) ns') a (ns' ++ [a]) x) as (t & Et & Hm);
      [by apply pathstr_join|apply Forall_app; split; [done|by apply Forall_singleton]|done|done|done|]. exists t. by rewrite Et last_snoc.
Qed.
