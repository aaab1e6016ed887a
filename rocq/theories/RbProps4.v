(** * get_black_height() in every state (C48)

    Model: BalModel.v.  Specification: [blacks_to_nil] in BstSpec.v. *)
From Verif Require Import Base NumOrd TreeModel BstModel BalModel BstSpec.

Lemma snapshot_left k : forall p t s s', snapshot k p s = Ok t s' -> forall m acc, k <= m ->
  s' = s /\ exists d n, blacks_to_nil t (replicate d false) = Some n /\ black_loop m p acc s = Ok (acc + n) s.
Proof.
  induction k as [|k IH]; intros p t s s' E m acc Hm; destruct p as [i|]; cbn in E; try done.
  - injection E as <- <-. split; [done|]. exists 0, 1. split; [done|]. by destruct m.
  - unfold bind in E. destruct (rd i s) as [c s1| |] eqn:Er; try done. assert (s1 = s) as ->. { unfold rd in Er. destruct (t_nodes s !! i); [|done]. by injection Er as _ <-. }
    destruct (snapshot k (c_left c) s) as [l s1| |] eqn:El; try done. destruct m as [|m]; [lia|].
    destruct (IH _ _ _ _ El m (if is_red (p_color (c_pay c)) then acc else acc + 1) ltac:(lia)) as (-> & d & n & Hd & Hb).
    destruct (snapshot k (c_right c) s) as [r s1| |] eqn:Err; try done. destruct (IH _ _ _ _ Err m 0 ltac:(lia)) as (-> & _). injection E as <- <-. split; [done|].
    exists (S d), (match p_color (c_pay c) with Red => n | Black => S n end). cbn. rewrite Hd. split; [done|].
    unfold get_color, get_left, bind. rewrite Er. cbn. rewrite Er. cbn. rewrite Hb. f_equal. destruct (p_color (c_pay c)); cbn; lia.
  - injection E as <- <-. split; [done|]. exists 0, 1. split; [done|]. by destruct m.
Qed.

(** In every state in which the nodes form a tree at all: on the empty tree AttributeError,
    otherwise the black nodes on the way from the left child of the root always to the left,
    and no other.  Nothing changes. *)
Theorem C48_exact s t : shape s = Some t ->
  match t with
  | Nil => rb_black_height s = Exc AttributeError s
  | Bin l _ _ => exists d n, blacks_to_nil l (replicate d false) = Some n /\ rb_black_height s = Ok n s
  end.
Proof.
  unfold shape, tree_pays, bind, get_root, get_fuel. destruct (snapshot (S (length (t_nodes s))) (t_root s) s) as [t' s'| |] eqn:E; [|done|done]. intros [= <-].
  destruct t' as [|l x r].
  - cbn in E. unfold rb_black_height, bind, get_root. destruct (t_root s) as [i|]; [|done]. exfalso.
    unfold bind in E. destruct (rd i s); [|done..]. destruct (snapshot _ _ _); [|done..]. by destruct (snapshot _ _ _).
  - cbn in E. unfold rb_black_height, bind, get_root, get_fuel. destruct (t_root s) as [i|]; [|done]. cbn.
    unfold bind in E. destruct (rd i s) as [c s1| |] eqn:Er; try done. assert (s1 = s) as ->. { unfold rd in Er. destruct (t_nodes s !! i); [|done]. by injection Er as _ <-. }
    destruct (snapshot (length (t_nodes s)) (c_left c) s) as [l' s1| |] eqn:El; try done.
    destruct (snapshot_left _ _ _ _ _ El (S (length (t_nodes s))) 0 ltac:(lia)) as (-> & d & n & Hd & Hb). destruct (snapshot _ (c_right c) s) as [r' s1| |] eqn:Err; try done. injection E as <- <- <- <-.
    exists d, n. split; [done|]. unfold get_left, bind. rewrite Er. cbn in Hb |- *. exact Hb.
Qed.
Print Assumptions C48_exact.
(** So on a non-empty tree the answer is right exactly when there is a right one: when all
    ways down from the root have equally many black nodes. *)
Theorem C48_right_iff s l x r : shape s = Some (Bin l x r) ->
  exists k, rb_black_height s = Ok k s /\
  ((forall (b : bool) p n, blacks_to_nil (if b then r else l) p = Some n -> n = k) <->
   (forall (b b' : bool) p p' n n', blacks_to_nil (if b then r else l) p = Some n -> blacks_to_nil (if b' then r else l) p' = Some n' -> n = n')).
Proof.
  intros H. destruct (C48_exact _ _ H) as (d & k & Hd & E). exists k. split; [done|]. split.
  - intros HA b b' p p' n n' H1 H2. by rewrite (HA _ _ _ H1), (HA _ _ _ H2).
  - intros HA b p n H1. by eapply (HA b false).
Qed.
Print Assumptions C48_right_iff.
(** The tree of C33 after 8 insertions: another way down has another number. *)
Example C48_exact_example : exists rs s l x r, history CRB (inserts (map Fin [50; 20; 80; 10; 30; 5; 35; 40]%Z)) = Some (rs, s) /\ shape s = Some (Bin l x r) /\
  exists k b p n, rb_black_height s = Ok k s /\ blacks_to_nil (if b : bool then r else l) p = Some n /\ n <> k.
Proof.
  eexists _, _, _, _, _. split; [by vm_compute|]. split; [by vm_compute|]. eexists.
  first [ exists true, [false]; eexists; split; [by vm_compute|]; split; [by vm_compute|]; done
        | exists true, [true]; eexists; split; [by vm_compute|]; split; [by vm_compute|]; done
        | exists true, [false; false]; eexists; split; [by vm_compute|]; split; [by vm_compute|]; done
        | exists true, [true; true]; eexists; split; [by vm_compute|]; split; [by vm_compute|]; done
        | exists false, [true]; eexists; split; [by vm_compute|]; split; [by vm_compute|]; done
        | exists false, [true; true]; eexists; split; [by vm_compute|]; split; [by vm_compute|]; done
        | exists false, [true; false]; eexists; split; [by vm_compute|]; split; [by vm_compute|]; done
        | exists false, [true; true; true]; eexists; split; [by vm_compute|]; split; [by vm_compute|]; done ].
Qed.
