(** Proofs about account nonces. *)
From Verif Require Import Base BaseProofs ChainModel UndoCacheModel NonceModel NonceSpec.
Local Open Scope N_scope.

Definition last_used (l : list N) : option N := head l.
Definition view_is (v : account_type -> option N) (u : account_type -> list N) : Prop :=
  forall a, v a = last_used (u a) /\ sequential (u a) /\ N.of_nat (length (u a)) <= U64_MAX + 1.

Fixpoint views_are (cs : list nonce_cache) (db : gmap account_type N) (ls : list (account_type -> list N)) (u0 : account_type -> list N) : Prop :=
  match cs, ls with
  | [], [] => view_is (fun a => db !! a) u0
  | c :: cs', u :: ls' => view_is (nonce_view (c :: cs') db) u /\ views_are cs' db ls' u0
  | _, _ => False
  end.

Lemma sequential_cons n l : sequential l -> n = N.of_nat (length l) -> sequential (n :: l).
Proof.
  unfold sequential. intros H ->. cbn [length]. rewrite seq_S, fmap_app, reverse_cons, H. done.
Qed.
Lemma sequential_tail n l : sequential (n :: l) -> n = N.of_nat (length l) /\ sequential l.
Proof.
  unfold sequential. cbn [length]. rewrite seq_S, fmap_app, reverse_cons. cbn. intros H.
  apply app_inj_2 in H as [H1 H2]; [|done]. injection H2 as ->. done.
Qed.

Lemma view_flush c p cs db a : nonce_view (flush_nonces c p :: cs) db a = nonce_view (c :: p :: cs) db a \/ exists n, c !! a = Some (OpRead n).
Proof.
  cbn. unfold get_nonce, flush_nonces. rewrite lookup_merge. unfold diag_None.
  destruct (c !! a) as [[n|n|]|], (p !! a); eauto.
Qed.

(** [Read] entries never occur *)
Definition no_read (c : nonce_cache) : Prop := forall a n, c !! a <> Some (OpRead n).
Definition inv (st : nonce_stack) (h : list (account_type -> list N) * (account_type -> list N)) : Prop :=
  views_are (ns_caches st) (ns_db st) h.1 h.2 /\ Forall no_read (ns_caches st).

Lemma view_ext v v' u : (forall a, v' a = v a) -> view_is v u -> view_is v' u.
Proof. intros H Hv a. rewrite H. apply Hv. Qed.

Lemma no_read_insert c a o : no_read c -> (forall n, o <> OpRead n) -> no_read (<[a := o]> c).
Proof.
  intros Hc Ho a' n. destruct (decide (a' = a)) as [->|]; [rewrite lookup_insert; intros [= E]; by eapply Ho|].
  rewrite lookup_insert_ne by done. apply Hc.
Qed.

Lemma top_set c cs db u a l o :
  view_is (nonce_view (c :: cs) db) u -> op_get o = last_used l -> sequential l -> N.of_nat (length l) <= U64_MAX + 1 ->
  view_is (nonce_view (<[a := o]> c :: cs) db) (set_used u a l).
Proof.
  intros Hv Ho Hl Hn a'. cbn. unfold get_nonce, set_used. destruct (decide (a' = a)) as [->|Hne].
  - rewrite lookup_insert. by split_and!.
  - rewrite lookup_insert_ne by done. apply Hv.
Qed.

Lemma spend_spec c cs db u a n :
  view_is (nonce_view (c :: cs) db) u ->
  spend_account (nonce_view cs db) c n a =
    if decide (n = N.of_nat (length (u a)) /\ n <= U64_MAX) then Ok (<[a := OpWrite n]> c)
    else Err (if (U64_MAX <? N.of_nat (length (u a))) then FailedToIncrementAccountNonce
              else NonceIsNotIncremental a (N.of_nat (length (u a))) n).
Proof.
  intros Hv. destruct (Hv a) as (H1 & H2 & H3). cbn in H1. unfold spend_account. rewrite H1.
  destruct (u a) as [|m l]; cbn [last_used head].
  - cbn [rbind length N.of_nat]. unfold ensure. destruct (N.eqb_spec 0 n) as [<-|Hne].
    + rewrite decide_True; [done|]. split; [done|]. unfold U64_MAX. lia.
    + rewrite decide_False by (intros [? _]; congruence). done.
  - destruct (sequential_tail _ _ H2) as [-> _]. cbn [length] in *. unfold checked_add, ensure.
    destruct (N.leb_spec (N.of_nat (length l) + 1) U64_MAX) as [Hle|Hgt]; cbn [ok_or rbind].
    + rewrite (proj2 (N.ltb_ge _ _)) by lia. destruct (N.eqb_spec (N.of_nat (length l) + 1) n) as [<-|Hne]; cbn [rbind].
      * rewrite decide_True by lia. done.
      * rewrite decide_False by lia. repeat f_equal. lia.
    + rewrite (proj2 (N.ltb_lt _ _)) by lia. rewrite decide_False; [done|]. intros [-> ?]. lia.
Qed.

Lemma unspend_spec c cs db u a :
  view_is (nonce_view (c :: cs) db) u ->
  unspend_account (nonce_view cs db) c a =
    match u a with
    | [] => Err (MissingTransactionNonce a)
    | _ :: l => Ok (<[a := match l with [] => OpErase | m :: _ => OpWrite m end]> c)
    end.
Proof.
  intros Hv. destruct (Hv a) as (H1 & H2 & H3). cbn in H1. unfold unspend_account. rewrite H1.
  destruct (u a) as [|m l]; [done|]. cbn. destruct (sequential_tail _ _ H2) as [-> Hl]. unfold checked_sub.
  destruct l as [|m l]; [done|]. destruct (sequential_tail _ _ Hl) as [-> _]. cbn [length].
  rewrite (proj2 (N.leb_le _ _)) by lia. repeat f_equal. lia.
Qed.

Lemma accepted_inv ks st : accepted ks st -> exists h, history ks = Some h /\ inv st h.
Proof.
  revert st. induction ks as [|k ks IH]; cbn; intros st.
  - intros ->. eexists. split; [done|]. split; [|constructor]. cbn. intros a. rewrite lookup_empty. split_and!; [done|done|cbn; lia].
  - intros (st0 & Hacc & Hrun). destruct (IH _ Hacc) as ([ls u0] & -> & [Hv Hr]). destruct st0 as [cs db]. cbn [ns_caches ns_db fst snd] in *.
    destruct k as [a n|a| | |]; cbn [nonce_run ns_caches ns_db] in Hrun.
    + destruct cs as [|c cs]; [done|]. destruct ls as [|u ls]; [done|]. destruct Hv as [Hv Hvs]. apply Forall_cons in Hr as [Hr Hrs].
      rewrite (spend_spec _ _ _ _ _ _ Hv) in Hrun. destruct (decide _) as [[-> Hle]|]; [|done]. injection Hrun as <-.
      eexists. split; [done|]. split; cbn; [|constructor; [by apply no_read_insert|done]]. split; [|done].
      destruct (Hv a) as (H1 & H2 & H3). apply top_set; [done|done|by apply sequential_cons|]. cbn. lia.
    + destruct cs as [|c cs]; [done|]. destruct ls as [|u ls]; [done|]. destruct Hv as [Hv Hvs]. apply Forall_cons in Hr as [Hr Hrs].
      rewrite (unspend_spec _ _ _ _ _ Hv) in Hrun. destruct (Hv a) as (H1 & H2 & H3). destruct (u a) as [|m l] eqn:Eu; [done|]. injection Hrun as <-.
      eexists. split; [done|]. split; cbn; [|constructor; [apply no_read_insert; [done|by destruct l]|done]]. split; [|done].
      destruct (sequential_tail _ _ H2) as [_ Hl]. apply top_set; [done|by destruct l|done|]. cbn in H3. lia.
    + injection Hrun as <-. destruct ls as [|u ls], cs as [|c cs]; try done; eexists; (split; [done|]).
      * split; cbn; [|repeat constructor; intros ??; by rewrite lookup_empty]. split; [|done].
        eapply view_ext; [|exact Hv]. intros a. unfold get_nonce. by rewrite lookup_empty.
      * split; cbn; [|constructor; [intros ??; by rewrite lookup_empty|done]]. destruct Hv as [Hv Hvs]. split; [|by split].
        eapply view_ext; [|exact Hv]. intros a. cbn. unfold get_nonce at 1. by rewrite lookup_empty.
    + destruct cs as [|c [|p cs]]; [done|..].
      * destruct ls as [|u [|u' ls]]; [done| |by destruct Hv]. injection Hrun as <-. eexists. split; [done|]. split; [|constructor]. cbn.
        destruct Hv as [Hv _]. apply Forall_cons in Hr as [Hr _]. eapply view_ext; [|exact Hv]. intros a. cbn. unfold get_nonce, store_nonces.
        rewrite lookup_merge. unfold diag_None. specialize (Hr a). destruct (c !! a) as [[n|n|]|], (db !! a); try done; by destruct (Hr n).
      * destruct ls as [|u [|u' ls]]; [done|by destruct Hv|]. injection Hrun as <-. eexists. split; [done|].
        destruct Hv as (Hv & _ & Hvs). apply Forall_cons in Hr as [Hr Hrs]. apply Forall_cons in Hrs as [Hrp Hrs]. split; cbn [ns_caches ns_db fst snd].
        -- split; [|done]. eapply view_ext; [|exact Hv]. intros a. destruct (view_flush c p cs db a) as [->|[n Hn]]; [done|]. by destruct (Hr a n).
        -- constructor; [|done]. intros a n. unfold flush_nonces. rewrite lookup_merge. unfold diag_None. specialize (Hr a). specialize (Hrp a).
           destruct (c !! a) as [[m|m|]|], (p !! a) as [q|]; try done; naive_solver.
    + destruct cs as [|c cs]; [done|]. destruct ls as [|u ls]; [done|]. injection Hrun as <-. eexists. split; [done|].
      apply Forall_cons in Hr as [Hr Hrs]. destruct Hv. by split.
Qed.
