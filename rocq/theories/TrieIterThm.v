(** * Loops over tries: runs, and loops over tries whose nodes do not change *)
From stdpp Require Import gmap.
From Verif Require Import Base TrieModel TrieRep TrieSpec TrieSpec2 TrieThm TrieThm2 TrieThm3 TrieProps SuffixModel TrieThm4 SuffixSpec SuffixThm LevelModel TrieThm5 TrieThm6 TrieProps2 TrieIterModel TrieIterSpec.
Local Open Scope py_scope.

(** ** The store is closed: a child is always a node *)
Definition cl (s : ts) : Prop := forall i n k c, t_nodes s !! i = Some n -> (k, c) ∈ n_children n -> c < length (t_nodes s).
Definition ext_of (s s' : ts) : Prop := cl s' /\ length (t_nodes s) <= length (t_nodes s').
Definition kp {A} (s0 : ts) (r : res ts A) (Q : A -> ts -> Prop) : Prop :=
  match r with Ok a s' => ext_of s0 s' /\ Q a s' | Exc _ s' => ext_of s0 s' | Diverge => True end.
Lemma kp_bind {A B} s0 (m : M ts A) (f : A -> M ts B) s P Q :
  kp s0 (m s) P -> (forall a s', ext_of s0 s' -> P a s' -> kp s0 (f a s') Q) -> kp s0 (bind m f s) Q.
Proof. unfold bind. destruct (m s) as [a s'|e s'|]; cbn; [|done..]. intros [H HP] Hf. by apply Hf. Qed.
Lemma kp_weaken {A} s0 (r : res ts A) (P Q : A -> ts -> Prop) : kp s0 r P -> (forall a s', ext_of s0 s' -> P a s' -> Q a s') -> kp s0 r Q.
Proof. destruct r; cbn; naive_solver. Qed.
Lemma kp_ret {A} s0 (a : A) s (Q : A -> ts -> Prop) : ext_of s0 s -> Q a s -> kp s0 (ret a s) Q.
Proof. done. Qed.
Lemma ext_trans s1 s2 s3 : ext_of s1 s2 -> ext_of s2 s3 -> ext_of s1 s3.
Proof. intros [? ?] [? ?]. split; [done|lia]. Qed.

Lemma kp_rd s0 i s : ext_of s0 s -> kp s0 (rd i s) (fun n s' => s' = s /\ t_nodes s !! i = Some n).
Proof. intros H. unfold rd. destruct (t_nodes s !! i); cbn; [|done]. done. Qed.
Lemma kp_wr s0 i n s : ext_of s0 s -> (forall k c, (k, c) ∈ n_children n -> c < length (t_nodes s)) ->
  kp s0 (wr i n s) (fun _ s' => length (t_nodes s') = length (t_nodes s)).
Proof.
  intros [Hc Hl] Hn. unfold wr. cbn. unfold ext_of. cbn [t_nodes]. rewrite insert_length. split_and!; [|done|done].
  intros j m k c Hj Hin. cbn [t_nodes] in *. rewrite insert_length. apply list_lookup_insert_Some in Hj as [(<- & <- & _)|[_ Hj]]; [by eapply Hn|by eapply Hc].
Qed.
Lemma kp_new s0 d s : ext_of s0 s -> kp s0 (new_node d s) (fun c s' => c < length (t_nodes s') /\ length (t_nodes s) <= length (t_nodes s')).
Proof.
  intros [Hc Hl]. unfold new_node. cbn. unfold ext_of. cbn [t_nodes]. rewrite app_length. cbn. split_and!; try lia.
  intros j m k c Hj Hin. cbn [t_nodes] in *. rewrite app_length. cbn. apply lookup_app_Some in Hj as [Hj|[_ Hj]].
  - pose proof (Hc _ _ _ _ Hj Hin). lia.
  - apply list_lookup_singleton_Some in Hj as [_ <-]. by apply elem_of_nil in Hin.
Qed.
Lemma kp_count s0 z s : ext_of s0 s -> kp s0 (add_count z s) (fun _ s' => t_nodes s' = t_nodes s).
Proof. intros [Hc Hl]. unfold add_count. cbn. done. Qed.
Lemma dset_sub ch x d k c : (k, c) ∈ dset ch x d -> c = x \/ (k, c) ∈ d.
Proof.
  induction d as [|[k' v] d IH]; cbn; [intros [= -> ->]%elem_of_list_singleton; by left|].
  destruct (N.eqb k' ch); rewrite !elem_of_cons; [intros [[= -> ->]|?]; auto|]. intros [[= -> ->]|?]; [by right; left|]. naive_solver.
Qed.
Lemma ddel_sub ch d k c : (k, c) ∈ ddel ch d -> (k, c) ∈ d.
Proof.
  induction d as [|[k' v] d IH]; cbn; [done|]. destruct (N.eqb k' ch); rewrite ?elem_of_cons; naive_solver.
Qed.
Lemma kp_deref s0 (o : option nat) s : ext_of s0 s -> kp s0 (deref o s) (fun i s' => s' = s /\ o = Some i).
Proof. intros H. by destruct o. Qed.
Lemma kp_set_child s0 i ch c s : ext_of s0 s -> c < length (t_nodes s) ->
  kp s0 (set_child i ch c s) (fun _ s' => length (t_nodes s') = length (t_nodes s)).
Proof.
  intros H Hc. unfold set_child. eapply kp_bind; [by apply kp_rd|]. intros n s1 H1 [-> Hn].
  eapply kp_bind; [apply kp_wr; [done|]|].
  { cbn. intros k x [->|Hin]%dset_sub; [done|]. by eapply H. }
  cbn beta. intros _ s2 H2 E2. eapply kp_bind; [by apply kp_rd|]. intros m s3 H3 [-> Hm].
  eapply kp_weaken; [apply kp_wr; [done|]|].
  - cbn. intros k x Hin. by eapply H2.
  - cbn. intros _ s4 _ ->. done.
Qed.
Lemma kp_set_word s0 i b s : ext_of s0 s -> kp s0 (set_word i b s) (fun _ s' => length (t_nodes s') = length (t_nodes s)).
Proof.
  intros H. unfold set_word. eapply kp_bind; [by apply kp_rd|]. intros n s1 H1 [-> Hn].
  apply kp_wr; [done|]. cbn. intros k x Hin. by eapply H.
Qed.
Lemma kp_set_data s0 i b s : ext_of s0 s -> kp s0 (set_data i b s) (fun _ s' => length (t_nodes s') = length (t_nodes s)).
Proof.
  intros H. unfold set_data. eapply kp_bind; [by apply kp_rd|]. intros n s1 H1 [-> Hn].
  apply kp_wr; [done|]. cbn. intros k x Hin. by eapply H.
Qed.
Lemma kp_get_child s0 i ch s : ext_of s0 s -> kp s0 (get_child i ch s) (fun o s' => s' = s /\ forall c, o = Some c -> c < length (t_nodes s)).
Proof.
  intros H. unfold get_child. eapply kp_bind; [by apply kp_rd|]. intros n s1 H1 [-> Hn]. apply kp_ret; [done|]. split; [done|].
  intros c E%dget_in. by eapply H.
Qed.
Lemma kp_data_or s0 o d s : ext_of s0 s -> kp s0 (data_or o d s) (fun _ s' => s' = s).
Proof.
  intros H. destruct o as [c|]; cbn [data_or]; [|by apply kp_ret]. eapply kp_bind; [by apply kp_rd|]. intros n s1 H1 [-> Hn]. by apply kp_ret.
Qed.
Lemma kp_follow_loop s0 fuel : forall curr w s, ext_of s0 s -> kp s0 (follow_loop fuel curr w s) (fun _ s' => s' = s).
Proof.
  induction fuel as [|fuel IH]; intros curr w s H; [done|]. cbn [follow_loop]. destruct w as [|ch w]; [by apply kp_ret|].
  eapply kp_bind; [by apply kp_deref|]. intros i s1 H1 [-> _]. eapply kp_bind; [by apply kp_get_child|]. intros o s2 H2 [-> _].
  eapply kp_bind; [by apply kp_data_or|]. cbn beta. intros d s3 H3 ->. case_bool_decide; [by apply IH|by apply kp_ret].
Qed.
Lemma kp_follow s0 w s : ext_of s0 s -> kp s0 (follow_path w s) (fun _ s' => s' = s).
Proof. intros H. unfold follow_path. eapply kp_bind; [by apply (kp_ret s0 s s (fun a s' => a = s /\ s' = s))|]. intros a s1 H1 [-> ->]. by apply kp_follow_loop. Qed.
Lemma kp_insert_loop s0 rest : forall curr s, ext_of s0 s -> kp s0 (insert_loop curr rest s) (fun _ _ => True).
Proof.
  induction rest as [|ch rest IH]; intros curr s H; cbn [insert_loop]; [by apply kp_ret|].
  eapply kp_bind; [by apply kp_new|]. intros c s1 H1 [Hc _]. eapply kp_bind; [by apply kp_deref|]. intros i s2 H2 [-> _].
  eapply kp_bind; [by apply kp_set_child|]. intros _ s3 H3 _. eapply kp_bind; [by apply kp_count|]. intros _ s4 H4 _. by apply IH.
Qed.
Lemma kp_validate s0 v b s : ext_of s0 s -> kp s0 (trie_validate v b s) (fun _ s' => s' = s).
Proof. intros H. unfold trie_validate. destruct v; try done. by destruct (negb b && blank s1). Qed.
Lemma kp_insert s0 v s : ext_of s0 s -> kp s0 (trie_insert v s) (fun _ _ => True).
Proof.
  intros H. unfold trie_insert. eapply kp_bind; [by apply kp_validate|]. cbn beta. intros w s1 H1 ->.
  eapply kp_bind; [by apply kp_follow|]. cbn beta. intros [l r] s2 H2 ->. eapply kp_bind; [by apply kp_insert_loop|]. intros o s3 H3 _.
  eapply kp_bind; [by apply kp_deref|]. intros i s4 H4 [-> _]. eapply kp_weaken; [by apply kp_set_word|done].
Qed.
Lemma kp_radix_loop s0 fuel : forall curr newn rest s, ext_of s0 s -> kp s0 (radix_loop fuel curr newn rest s) (fun _ _ => True).
Proof.
  induction fuel as [|fuel IH]; intros curr newn rest s H; [done|]. cbn [radix_loop]. destruct rest as [|ch rest]; [by apply kp_ret|].
  eapply kp_bind; [by apply kp_deref|]. intros i s1 H1 [-> _]. eapply kp_bind; [by apply kp_get_child|]. intros o s2 H2 [-> Ho].
  eapply kp_bind; [by apply kp_data_or|]. cbn beta. intros d s3 H3 ->.
  destruct (Nat.eqb _ 0).
  { eapply kp_bind; [by apply kp_new|]. intros c s1' H1' [Hc _].
    eapply kp_bind; [by apply kp_set_child|]. intros _ s3' H3' _. eapply kp_bind; [by apply kp_count|]. intros _ s4 H4 _. by apply IH. }
  destruct ((_ <=? _) && _).
  - eapply kp_bind; [by apply kp_new|]. intros n s1' H1' [Hn Hle]. eapply kp_bind; [by apply kp_deref|]. intros c s2' H2' [-> Hc].
    specialize (Ho _ Hc). eapply kp_bind; [by apply kp_set_data|]. cbn beta. intros _ s4 H4 E4.
    eapply kp_bind; [instantiate (1 := fun _ s' => s' = s4); by destruct (d !! _)|]. cbn beta. intros kc s5 H5 ->.
    eapply kp_bind; [apply kp_set_child; [done|lia]|]. cbn beta. intros _ s6 H6 E6.
    eapply kp_bind; [instantiate (1 := fun _ s' => s' = s6); by destruct d|]. cbn beta. intros k0 s7 H7 ->.
    eapply kp_bind; [apply kp_set_child; [done|lia]|]. cbn beta. intros _ s8 H8 E8.
    eapply kp_bind; [by apply kp_count|]. intros _ s9 H9 _. by apply IH.
  - destruct newn; [by apply IH|done].
Qed.
Lemma kp_radix_insert s0 v s : ext_of s0 s -> kp s0 (radix_insert v s) (fun _ _ => True).
Proof.
  intros H. unfold radix_insert. eapply kp_bind; [by apply kp_validate|]. cbn beta. intros w s1 H1 ->.
  eapply kp_bind; [|intros ? ? ? _; by apply (kp_ret s0 tt _ (fun _ _ => True))].
  unfold radix_insert_node. eapply kp_bind; [instantiate (1 := fun _ s' => s' = s)|].
  { unfold py_assert. by destruct (negb _). }
  cbn beta. intros _ s2 H2 ->. eapply kp_bind; [by apply kp_follow|]. cbn beta. intros [l r] s2 H2' ->.
  eapply kp_bind; [by apply kp_radix_loop|]. intros o s3 H3 _. eapply kp_bind; [by apply kp_deref|]. intros i s4 H4 [-> _].
  eapply kp_bind; [by apply kp_set_word|]. intros _ s5 H5 _. by apply (kp_ret s0 i _ (fun _ _ => True)).
Qed.
Lemma kp_remove_loop s0 fuel : forall i s, ext_of s0 s -> kp s0 (remove_loop fuel i s) (fun _ _ => True).
Proof.
  induction fuel as [|fuel IH]; intros i s H; [done|]. cbn [remove_loop]. eapply kp_bind; [by apply kp_rd|]. intros n s1 H1 [-> Hn].
  destruct (negb _ && _); [|by apply kp_ret]. eapply kp_bind; [instantiate (1 := fun _ s' => s' = s); by destruct (n_data n)|].
  cbn beta. intros ch s2 H2 ->. eapply kp_bind; [by apply kp_deref|]. intros p s3 H3 [-> _].
  eapply kp_bind; [by apply kp_rd|]. intros pn s4 H4 [-> Hp]. destruct (dget ch (n_children pn)); [|done].
  eapply kp_bind; [apply kp_wr; [done|]|].
  { cbn. intros k x Hin%ddel_sub. by eapply H. }
  intros _ s5 H5 _. eapply kp_bind; [by apply kp_count|]. intros _ s6 H6 _. by apply IH.
Qed.
Lemma kp_remove s0 v s : ext_of s0 s -> kp s0 (trie_remove v s) (fun _ _ => True).
Proof.
  intros H. unfold trie_remove. destruct v as [| |w| | |]; try done. destruct w as [|ch w]; [done|].
  eapply kp_bind; [by apply kp_follow|]. cbn beta. intros [l r] s2 H2 ->. destruct r; [|done].
  eapply kp_bind; [by apply kp_deref|]. intros i s4 H4 [-> _]. eapply kp_bind; [by apply kp_set_word|]. intros _ s5 H5 _.
  eapply kp_bind; [by apply (kp_ret s0 s5 s5 (fun _ s' => s' = s5))|]. cbn beta. intros a s6 H6 ->.
  eapply kp_bind; [by apply kp_remove_loop|]. intros _ s7 H7 _. by apply (kp_ret s0 false _ (fun _ _ => True)).
Qed.
Lemma kp_call c o s : cl s -> kp s (trie_call c o s) (fun _ _ => True).
Proof.
  intros H. assert (ext_of s s) as H0 by done. destruct o as [v|v|]; cbn [trie_call].
  - destruct c; [by apply kp_insert|by apply kp_radix_insert].
  - eapply kp_bind; [by apply kp_remove|]. intros. by apply (kp_ret s tt _ (fun _ _ => True)).
  - unfold trie_clear, trie_init. cbn. unfold ext_of. cbn [t_nodes]. rewrite app_length. cbn. split; [|done]. split; [|lia].
    intros j m k x Hj Hin. cbn [t_nodes] in *. rewrite app_length. cbn. apply lookup_app_Some in Hj as [Hj|[_ Hj]].
    + pose proof (H _ _ _ _ Hj Hin). lia.
    + apply list_lookup_singleton_Some in Hj as [_ <-]. by apply elem_of_nil in Hin.
Qed.

(** ** Generators and calls that look always return and change nothing *)
Definition gcl (s : ts) (g : zgen) : Prop :=
  match g with ZGAt cur rest next => forall i, i ∈ cur :: rest ++ next -> i < length (t_nodes s) | _ => True end.
Lemma zchildren_ok s i : i < length (t_nodes s) -> zchildren i s = Ok (kids s i) s.
Proof.
  intros [n Hn]%lookup_lt_is_Some. unfold zchildren. rewrite (bind_ok _ _ _ _ _ (rd_eq _ _ _ Hn)). unfold kids. by rewrite Hn.
Qed.
Lemma zg_yield_ok s i rest next : i < length (t_nodes s) -> zg_yield i rest next s = Ok (ZVal (datum s i), ZGAt i rest next) s.
Proof.
  intros [n Hn]%lookup_lt_is_Some. unfold zg_yield. rewrite (bind_ok _ _ _ _ _ (rd_eq _ _ _ Hn)). unfold datum. by rewrite Hn.
Qed.
Lemma kids_lt s i j : cl s -> j ∈ kids s i -> j < length (t_nodes s).
Proof.
  intros H. unfold kids. destruct (t_nodes s !! i) as [n|] eqn:E; [|by intros ?%elem_of_nil].
  intros ([k c] & -> & Hin)%elem_of_list_fmap. by eapply H.
Qed.
Lemma zg_level_total s l : (forall i, i ∈ l -> i < length (t_nodes s)) -> exists r g', zg_level l s = Ok (r, g') s /\ gcl s g'.
Proof.
  intros Hl. destruct l as [|i l]; [by eexists _, _|]. cbn [zg_level]. rewrite zg_yield_ok by (apply Hl; left).
  eexists _, _. split; [done|]. cbn [gcl]. intros j. rewrite app_nil_r. apply Hl.
Qed.
Lemma zg_total s L g : rep s L -> cl s -> gcl s g -> exists r g', zg_next g s = Ok (r, g') s /\ gcl s g'.
Proof.
  intros R Hc Hg. destruct g as [|cur rest next|]; cbn [zg_next]; [| |by eexists _, _].
  - rewrite (bind_ok _ _ _ (Z.eqb (t_count s) 1) s) by done. destruct (Z.eqb _ _); [by eexists _, _|].
    rewrite (bind_ok _ _ _ s s) by done. rewrite (bind_ok _ _ _ _ _ (zchildren_ok s (t_root s) (rep_lt _ _ _ _ R (r_root _ _ R)))).
    apply zg_level_total. intros i. by apply kids_lt.
  - cbn [gcl] in Hg. rewrite (bind_ok _ _ _ _ _ (zchildren_ok s cur ltac:(apply Hg; left))). destruct rest as [|i rest].
    + apply zg_level_total. intros i [Hi|Hi]%elem_of_app; [apply Hg; by right|by eapply kids_lt].
    + rewrite zg_yield_ok by (apply Hg; right; left). eexists _, _. split; [done|]. cbn [gcl]. intros j Hj.
      rewrite app_assoc, app_comm_cons in Hj. apply elem_of_app in Hj as [Hj|Hj]; [apply Hg; by right|by eapply kids_lt].
Qed.

(** What every reachable state satisfies. *)
Definition okst (c : trie_cls) (s : ts) : Prop := cl s /\ exists L W, trep s L W /\ (c = CTrie -> single s L).
Lemma okst_new c : okst c trie_new.
Proof.
  split.
  - intros [|i] n k x H Hin; cbn in H; [|done]. injection H as <-. by apply elem_of_nil in Hin.
  - destruct trep_new. by eexists _, _.
Qed.
Lemma okst_call c o s : okst c s -> exists s', after (trie_call c o s) = Some s' /\ okst c s' /\ length (t_nodes s) <= length (t_nodes s').
Proof.
  intros (Hc & L & W & T & Hs). pose proof (kp_call c o s Hc) as Hk.
  assert (exists s', after (trie_call c o s) = Some s' /\ exists L W, trep s' L W /\ (c = CTrie -> single s' L)) as (s' & E & H).
  { destruct c.
    - destruct (trie_run_ok [o] s L W T (Hs eq_refl)) as (s' & L' & E & T' & Hs'). cbn [trie_run] in E.
      destruct (after (trie_call CTrie o s)) as [s1|]; [|done]. injection E as ->. exists s'. split; [done|]. by eexists _, _.
    - destruct (radix_run_any [o] s L W T) as (s' & L' & W' & E & T'). cbn [trie_run] in E.
      destruct (after (trie_call CRadix o s)) as [s1|]; [|done]. injection E as ->. exists s'. split; [done|]. by eexists _, _. }
  exists s'. split; [done|]. destruct (trie_call c o s) as [a s1|e s1|]; [| |done]; cbn in E; injection E as ->; cbn in Hk.
  - destruct Hk as [[? ?] _]. by split_and!.
  - destruct Hk as [? ?]. by split_and!.
Qed.
Lemma okst_look c l s : okst c s -> (exists a, look_call c l s = Ok a s) \/ (exists e, look_call c l s = Exc e s).
Proof.
  intros (Hc & L & W & T & Hs). destruct l as [v|v|v| |]; cbn [look_call].
  - assert ((exists b, trie_contains v s = Ok b s) \/ (exists e, trie_contains v s = Exc e s)) as [[b E]|[e E]].
    + destruct v as [| |w| | |]; try (left; by eexists). destruct (contains_ok s L W w T) as [->|[-> _]]; [left|right]; by eexists.
    + left. eexists. by rewrite (bind_ok _ _ _ _ _ E).
    + right. eexists. by rewrite (bind_exc _ _ _ _ _ E).
  - assert ((exists b, trie_has_prefix v s = Ok b s) \/ (exists e, trie_has_prefix v s = Exc e s)) as [[b E]|[e E]].
    + destruct v as [| |w| | |]; try (left; by eexists). destruct (has_prefix_ok s L W w T) as [(b & -> & _)|(q & r & _ & ->)]; [left; by eexists|].
      destruct r; [left|right]; by eexists.
    + left. eexists. by rewrite (bind_ok _ _ _ _ _ E).
    + right. eexists. by rewrite (bind_exc _ _ _ _ _ E).
  - assert ((exists b, auto_complete_call c v s = Ok b s) \/ (exists e, auto_complete_call c v s = Exc e s)) as [[b E]|[e E]].
    + destruct v as [| |w| | |]; try (right; by destruct c; eexists). destruct c; cbn [auto_complete_call].
      * destruct (trie_complete_ok s L W w T (Hs eq_refl)) as [(o & -> & _)|[-> _]]; [left|right]; by eexists.
      * destruct (radix_complete_ok s L W w T) as [(o & -> & _)|[-> _]]; [left|right]; by eexists.
    + left. eexists. by rewrite (bind_ok _ _ _ _ _ E).
    + right. eexists. by rewrite (bind_exc _ _ _ _ _ E).
  - left. by eexists.
  - left. destruct (levels_any s L W T) as (_ & _ & _ & E). eexists. by rewrite (bind_ok _ _ _ _ _ E).
Qed.
Lemma gcl_mono s s' g : length (t_nodes s) <= length (t_nodes s') -> gcl s g -> gcl s' g.
Proof. destruct g as [|cur rest next|]; cbn [gcl]; [done| |done]. intros H Hg i Hi. specialize (Hg i Hi). lia. Qed.

(** ** Runs *)
Definition okz (c : trie_cls) (q : zconf) : Prop := okst c q.1 /\ Forall (gcl q.1) q.2.
(** One statement: it ends; the state is that of the call, or unchanged. *)
Lemma zstep_ok c s gs t n : okz c (s, gs) -> n = length gs -> (forall i, t = ZNext i -> i < n) ->
  exists o s' gs', model_zstep c (s, gs) t = Some (o, (s', gs')) /\ okz c (s', gs') /\
    match t with
    | ZCall op => after (trie_call c op s) = Some s' /\ gs' = gs /\ (exists e, o = ZDid e) /\ forall gs1, model_zstep c (s, gs1) t = Some (o, (s', gs1))
    | ZLook l => s' = s /\ gs' = gs /\ (exists a, o = ZSaw a) /\ forall gs1, model_zstep c (s, gs1) t = Some (o, (s', gs1))
    | ZIter => s' = s /\ gs' = gs ++ [ZGNew] /\ o = ZNew
    | ZNext i => s' = s /\ exists g r g', gs !! i = Some g /\ zg_next g s = Ok (r, g') s /\ o = ZGot r /\ gs' = <[i := g']> gs
    end.
Proof.
  intros [Hs Hg] -> Hi. cbn [fst snd] in *. destruct t as [op|l| |i]; cbn [model_zstep fst snd].
  - destruct (okst_call c op s Hs) as (s' & E & Hs' & Hl).
    assert (okz c (s', gs)) as Hz. { split; [done|]. cbn [fst snd]. eapply Forall_impl; [done|]. intros g. by apply gcl_mono. }
    destruct (trie_call c op s) as [a s1|e s1|]; [| |done]; injection E as ->; eexists _, s', gs; split_and!; try done; by eexists.
  - destruct (okst_look c l s Hs) as [[a ->]|[e ->]]; eexists _, s, gs; split_and!; try done; by eexists.
  - eexists _, s, _. split; [done|]. split; [|done]. split; [done|]. cbn [fst snd]. apply Forall_app. split; [done|by apply Forall_singleton].
  - specialize (Hi i eq_refl). apply lookup_lt_is_Some in Hi as [g E]. pose proof (Forall_lookup_1 _ _ _ _ Hg E) as Hgi.
    destruct Hs as (Hc & L & W & T & Hsg). destruct (zg_total s L g (x_rep _ _ _ _ T) Hc Hgi) as (r & g' & En & Hg').
    rewrite E. cbn [mbind option_bind]. rewrite En. eexists _, s, _. split; [done|]. split.
    + split; [split; [done|by eexists _, _]|]. cbn [fst snd]. by apply Forall_insert.
    + split; [done|]. by eexists g, r, g'.
Qed.
Fixpoint ziters (ts : list zstmt) : nat :=
  match ts with [] => 0 | ZIter :: ts' => S (ziters ts') | _ :: ts' => ziters ts' end.
Lemma zmade_cons n t ts : zmade n (t :: ts) -> (forall i, t = ZNext i -> i < n) /\ zmade (n + ziters [t]) ts.
Proof. destruct t; cbn [zmade ziters]; rewrite ?Nat.add_0_r, ?Nat.add_1_r; intros H; (split; [|tauto]); intros j [= <-]; tauto. Qed.
Lemma zstep_len c s gs t o s' gs' : model_zstep c (s, gs) t = Some (o, (s', gs')) -> length gs' = length gs + ziters [t].
Proof.
  destruct t as [op|l| |i]; cbn [model_zstep fst snd ziters]; rewrite ?Nat.add_0_r.
  - by destruct (trie_call c op s) as [a s1|e s1|]; [| |done]; intros [= <- <- <-].
  - by destruct (look_call c l s) as [a s1|e s1|]; [| |done]; intros [= <- <- <-].
  - intros [= <- <- <-]. by rewrite app_length.
  - destruct (gs !! i) as [g|]; [|done]. cbn [mbind option_bind].
    by destruct (zg_next g s) as [[r g'] s1|e s1|]; [| |done]; intros [= <- <- <-]; rewrite insert_length.
Qed.
Lemma zrun_total c ts : forall s gs, okz c (s, gs) -> zmade (length gs) ts ->
  exists outs s' gs', model_zrun c (s, gs) ts = Some (outs, (s', gs')) /\ okz c (s', gs') /\ length outs = length ts /\
    length gs' = length gs + ziters ts /\ trie_run c (updates ts) s = Some s' /\
    forall gs1, model_zrun c (s, gs1) (without_iterators ts) = Some (without_answers outs, (s', gs1)).
Proof.
  induction ts as [|t ts IH]; intros s gs Hz Hm.
  { exists [], s, gs. split_and!; try done; cbn; lia. }
  destruct (zmade_cons _ _ _ Hm) as [Hi Hm'].
  destruct (zstep_ok c s gs t _ Hz eq_refl Hi) as (o & s1 & gs1 & E & Hz1 & Ht). pose proof (zstep_len _ _ _ _ _ _ _ E) as Hl.
  rewrite <- Hl in Hm'. destruct (IH s1 gs1 Hz1 Hm') as (outs & s2 & gs2 & E2 & Hz2 & Hl2 & Hg2 & Hr & Hw).
  exists (o :: outs), s2, gs2. cbn [model_zrun]. rewrite E. cbn [mbind option_bind]. rewrite E2. split_and!; try done.
  - cbn. by rewrite Hl2.
  - rewrite Hg2, Hl. destruct t; cbn [ziters]; lia.
  - destruct t as [op|l| |i]; cbn in Ht |- *.
    + destruct Ht as (Ha & _). change (updates (ZCall op :: ts)) with (op :: updates ts). cbn [trie_run]. by rewrite Ha.
    + by destruct Ht as (-> & _).
    + by destruct Ht as (-> & _).
    + by destruct Ht as (-> & _).
  - intros gs3. destruct t as [op|l| |i].
    + destruct Ht as (_ & _ & [e ->] & Ht). change (without_iterators (ZCall op :: ts)) with (ZCall op :: without_iterators ts).
      change (model_zrun c (s, gs3) (ZCall op :: without_iterators ts)) with ('(o, q1) ← model_zstep c (s, gs3) (ZCall op); '(os, q2) ← model_zrun c q1 (without_iterators ts); Some (o :: os, q2)).
      rewrite Ht. cbn [mbind option_bind]. by rewrite Hw.
    + destruct Ht as (_ & _ & [e ->] & Ht). change (without_iterators (ZLook l :: ts)) with (ZLook l :: without_iterators ts).
      change (model_zrun c (s, gs3) (ZLook l :: without_iterators ts)) with ('(o, q1) ← model_zstep c (s, gs3) (ZLook l); '(os, q2) ← model_zrun c q1 (without_iterators ts); Some (o :: os, q2)).
      rewrite Ht. cbn [mbind option_bind]. by rewrite Hw.
    + destruct Ht as (-> & _ & ->). by apply Hw.
    + destruct Ht as (-> & g & r & g' & _ & _ & -> & _). by apply Hw.
Qed.
