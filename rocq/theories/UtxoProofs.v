(** Proofs about the UTXO cache. *)
From Verif Require Import Base BaseProofs AmountModel OrdersModel PrimModel ChainModel LayeredModel LayeredSpec LayeredProofs
  UtxoModel UtxoSpec.
Local Open Scope N_scope.

(** What one cache entry says about its outpoint, given what the parent shows ([pk]) and what the cache shows ([sk]). *)
Definition entry_ok (pk : option utxo) (oe : option entry) (sk : option utxo) : Prop :=
  match oe with
  | None => sk = pk
  | Some (Entry u f d) =>
      sk = u /\ (f = true -> pk = None) /\ (d = false -> pk = u) /\
      match u with Some _ => f = true -> d = true | None => f = false /\ d = true end
  end.
Definition uinv (p : utxo_state) (c : cache) (s : utxo_state) : Prop :=
  (forall k, entry_ok (us_map p k) (c_utxos c !! k) (us_map s k)) /\ default (us_best p) (c_best c) = us_best s.

Lemma upd_eq m k o : upd m k o k = o.
Proof. unfold upd. rewrite decide_True; reflexivity. Qed.
Lemma upd_ne m k o k' : k <> k' -> upd m k o k' = m k'.
Proof. intros. unfold upd. rewrite decide_False; auto. Qed.

Lemma uinv_ext p c s s' : uinv p c s -> (forall k, us_map s k = us_map s' k) -> us_best s = us_best s' -> uinv p c s'.
Proof. intros [H1 H2] He Hb. split; [intros k; rewrite <- He; apply H1|congruence]. Qed.

Lemma uinv_put p c s k e o : uinv p c s -> entry_ok (us_map p k) (Some e) o ->
  uinv p (put c k e) (set_map s (upd (us_map s) k o)).
Proof.
  intros [H1 H2] He. split; [|exact H2]. intros k'. cbn. destruct (decide (k = k')) as [<-|Hne].
  - rewrite lookup_insert, upd_eq. exact He.
  - rewrite lookup_insert_ne, upd_ne by exact Hne. apply H1.
Qed.
Lemma uinv_drop p c s k : uinv p c s -> uinv p (drop_key c k) (set_map s (upd (us_map s) k (us_map p k))).
Proof.
  intros [H1 H2]. split; [|exact H2]. intros k'. cbn. destruct (decide (k = k')) as [<-|Hne].
  - rewrite lookup_delete, upd_eq. reflexivity.
  - rewrite lookup_delete_ne, upd_ne by exact Hne. apply H1.
Qed.

Lemma reads_cache P p c s : utxo_reads P p -> uinv p c s -> utxo_reads (cache_view P c) s.
Proof.
  intros [HP1 HP2] [H1 H2]. split; [|cbn; rewrite HP2; exact H2].
  intros k. cbn. specialize (H1 k). destruct (c_utxos c !! k) as [[u f d]|]; cbn in *.
  - symmetry. apply H1.
  - rewrite HP1. symmetry. exact H1.
Qed.
Lemma uinv_empty p : uinv p cache_new p.
Proof. split; [|reflexivity]. intros k. cbn. rewrite lookup_empty. reflexivity. Qed.

Lemma add_inv p c s k u ow : uinv p c s -> (ow = false -> us_map s k = None) ->
  exists c', add_utxo c k u ow = (c', Ok tt) /\ uinv p c' (set_map s (upd (us_map s) k (Some u))).
Proof.
  intros Hi Hk. pose proof (proj1 Hi k) as He. unfold add_utxo.
  destruct (c_utxos c !! k) as [[u0 f d]|] eqn:E; cbn [entry_ok e_spent e_dirty e_fresh e_utxo] in *.
  - destruct He as (Hs & Hf & Hd & Hv). destruct ow; cbn [negb on_ok].
    + unfold entry_new. rewrite orb_true_r. cbn [on_ok]. eexists. split; [reflexivity|].
      apply uinv_put; [exact Hi|]. cbn. repeat split; auto; discriminate.
    + specialize (Hk eq_refl). rewrite Hk in Hs. subst u0. destruct Hv as [-> ->]. cbn.
      eexists. split; [reflexivity|]. apply uinv_put; [exact Hi|]. cbn. repeat split; auto; discriminate.
  - cbn [on_ok]. unfold entry_new. rewrite orb_true_r. cbn [on_ok]. eexists. split; [reflexivity|].
    apply uinv_put; [exact Hi|]. cbn. repeat split; auto; try discriminate.
    destruct ow; [discriminate|]. intros _. rewrite <- He. apply Hk. reflexivity.
Qed.

Lemma spend_inv P p c s k : utxo_reads P p -> uinv p c s ->
  match us_map s k with
  | Some u => exists c', spend_utxo P c k = (c', Ok u) /\ uinv p c' (set_map s (upd (us_map s) k None))
  | None => exists c' e, spend_utxo P c k = (c', Err e) /\ coarse e = NotThere /\ uinv p c' s
  end.
Proof.
  intros HP Hi. pose proof (proj1 Hi k) as He. unfold spend_utxo, fetch_utxo_entry.
  destruct (c_utxos c !! k) as [[u f d]|] eqn:E; cbn [entry_ok] in He.
  - destruct He as (Hs & Hf & Hd & Hv). rewrite Hs. cbn [sbind on_ok ok_or e_fresh e_utxo].
    destruct u as [u|].
    + destruct f; cbn.
      * eexists. split; [reflexivity|]. rewrite <- (Hf eq_refl). apply uinv_drop, Hi.
      * eexists. split; [reflexivity|]. apply uinv_put; [exact Hi|]. cbn. repeat split; auto; discriminate.
    + destruct Hv as [-> ->]. cbn. do 2 eexists. split; [reflexivity|]. split; [reflexivity|].
      apply (uinv_ext _ _ (set_map s (upd (us_map s) k None))); [|intros k'; cbn|reflexivity].
      * apply uinv_put; [exact Hi|]. cbn. repeat split; auto; discriminate.
      * destruct (decide (k = k')) as [<-|Hne]; [rewrite upd_eq; congruence|rewrite upd_ne; auto].
  - rewrite (proj1 HP k), He. destruct (us_map p k) as [u|] eqn:Ep; cbn.
    + eexists. split; [reflexivity|].
      assert (Hi' : uinv p (put c k (Entry (Some u) false false)) (set_map s (upd (us_map s) k (Some u)))).
      { apply uinv_put; [exact Hi|]. cbn. repeat split; auto; discriminate. }
      apply (uinv_ext _ _ _ (set_map s (upd (us_map s) k None))) with
        (1 := uinv_put _ _ _ k (Entry None false true) None Hi' ltac:(cbn; repeat split; auto; discriminate)).
      * intros k'. cbn. unfold upd. repeat case_decide; reflexivity.
      * reflexivity.
    + do 2 eexists. split; [reflexivity|]. split; [reflexivity|exact Hi].
Qed.

Lemma uncache_inv p c s k : uinv p c s -> uinv p (uncache c k).1 s.
Proof.
  intros Hi. pose proof (proj1 Hi k) as He. unfold uncache.
  destruct (c_utxos c !! k) as [[u f d]|] eqn:E; [|exact Hi]. cbn [entry_ok] in He. destruct He as (Hs & Hf & Hd & Hv).
  cbn [e_fresh e_dirty]. destruct f, d; cbn; try exact Hi.
  apply (uinv_ext _ _ (set_map s (upd (us_map s) k (us_map p k)))); [apply uinv_drop, Hi| |reflexivity].
  intros k'. cbn. destruct (decide (k = k')) as [<-|Hne]; [rewrite upd_eq, Hs; auto|rewrite upd_ne; auto].
Qed.

(** *** Lists of keys *)
Lemma enumerate_keys_ne {A} (l : list A) i j x : (j, x) ∈ enumerate_from i l -> i <= j.
Proof.
  revert i. induction l as [|y l IH]; intros i H; cbn in H; [apply elem_of_nil in H; contradiction|].
  apply elem_of_cons in H as [H|H]; [injection H; lia|]. apply IH in H. lia.
Qed.
Lemma created_keys src i outs k o : (k, o) ∈ created_from src i outs -> k.1 = src /\ i <= k.2.
Proof.
  revert i. induction outs as [|y outs IH]; intros i H; cbn in H; [apply elem_of_nil in H; contradiction|].
  destruct (spendable y).
  - apply elem_of_cons in H as [H|H]; [injection H as -> ->; cbn; split; [reflexivity|lia]|].
    apply IH in H as [H1 H2]. split; [exact H1|lia].
  - apply IH in H as [H1 H2]. split; [exact H1|lia].
Qed.
Lemma created_nodup src i outs : NoDup (map fst (created_from src i outs)).
Proof.
  revert i. induction outs as [|y outs IH]; intros i; cbn; [constructor|].
  destruct (spendable y); [|apply IH]. cbn. constructor; [|apply IH].
  intros H. apply elem_of_list_fmap in H as ([k o] & H1 & H2). cbn in H1. subst k.
  apply created_keys in H2 as [_ H2]. cbn in H2. lia.
Qed.
Lemma reward_keys_nodup b i (outs : list tx_output) :
  NoDup (map fst (map (fun io => ((FromReward b, io.1), io.2)) (enumerate_from i outs))).
Proof.
  revert i. induction outs as [|y outs IH]; intros i; cbn; [constructor|].
  constructor; [|apply IH]. intros H. rewrite map_map in H. apply elem_of_list_fmap in H as ([j o] & H1 & H2). cbn in H1.
  injection H1 as <-. apply enumerate_keys_ne in H2. lia.
Qed.
Lemma included_spendable o : should_include_in_utxo_set o = spendable o.
Proof. destruct o; reflexivity. Qed.

Lemma created_filter src i outs :
  map (fun io => ((src, io.1), io.2)) (filter (fun io => Is_true (should_include_in_utxo_set io.2)) (enumerate_from i outs))
  = created_from src i outs.
Proof.
  revert i. induction outs as [|y outs IH]; intros i; [reflexivity|]. cbn [enumerate_from created_from].
  rewrite <- included_spendable. destruct (should_include_in_utxo_set y) eqn:E.
  - rewrite filter_cons_True by (cbn; rewrite E; exact I). cbn [map fst snd]. rewrite IH. reflexivity.
  - rewrite filter_cons_False by (cbn; rewrite E; auto). apply IH.
Qed.
Lemma created_all src i outs : forallb spendable outs = true ->
  map (fun io => ((src, io.1), io.2)) (enumerate_from i outs) = created_from src i outs.
Proof.
  revert i. induction outs as [|y outs IH]; intros i H; [reflexivity|]. cbn in *.
  apply andb_true_iff in H as [-> H]. rewrite IH by exact H. reflexivity.
Qed.

Lemma put_all_other m src l k : k ∉ map fst l -> put_all m src l k = m k.
Proof.
  revert m. induction l as [|[k0 o] l IH]; intros m H; [reflexivity|]. cbn in *.
  rewrite IH; [|intros Hk; apply H; right; exact Hk]. apply upd_ne. intros ->. apply H. left.
Qed.
Lemma put_all_at m src l k o : NoDup (map fst l) -> (k, o) ∈ l -> put_all m src l k = Some (Utxo o src).
Proof.
  revert m. induction l as [|[k0 o0] l IH]; intros m Hn H; [apply elem_of_nil in H; contradiction|]. cbn in *.
  apply NoDup_cons in Hn as [Hn0 Hn]. apply elem_of_cons in H as [H|H].
  - injection H as -> ->. rewrite put_all_other by exact Hn0. apply upd_eq.
  - apply IH; assumption.
Qed.
Lemma put_all_some m src l k : k ∈ map fst l -> exists u, put_all m src l k = Some u.
Proof.
  revert m. induction l as [|[k0 o0] l IH]; intros m H; [apply elem_of_nil in H; contradiction|]. cbn in *.
  destruct (decide (k ∈ map fst l)) as [Hi|Hi]; [apply IH, Hi|].
  rewrite put_all_other by exact Hi. apply elem_of_cons in H as [->|H]; [|contradiction].
  rewrite upd_eq. eauto.
Qed.

Lemma take_all_spec m ks m' : take_all m ks = Some m' ->
  NoDup ks /\ (forall k, k ∈ ks -> m' k = None /\ exists u, m k = Some u) /\ (forall k, k ∉ ks -> m' k = m k).
Proof.
  revert m m'. induction ks as [|k0 ks IH]; intros m m' H; cbn in H.
  - injection H as <-. split; [constructor|]. split; [intros k Hk; apply elem_of_nil in Hk; contradiction|reflexivity].
  - destruct (m k0) as [u|] eqn:E; [|discriminate]. apply IH in H as (Hn & Hin & Hout).
    assert (Hk0 : k0 ∉ ks). { intros Hk. apply Hin in Hk as [_ [u' Hu']]. rewrite upd_eq in Hu'. discriminate. }
    split; [constructor; assumption|]. split.
    + intros k Hk. apply elem_of_cons in Hk as [->|Hk].
      * rewrite Hout by exact Hk0. rewrite upd_eq. eauto.
      * destruct (Hin k Hk) as [H1 [u' H2]]. split; [exact H1|]. exists u'. rewrite <- H2. symmetry. apply upd_ne.
        intros ->. contradiction.
    + intros k Hk. rewrite not_elem_of_cons in Hk. destruct Hk as [H1 H2]. rewrite Hout by exact H2. apply upd_ne. auto.
Qed.
Lemma take_all_none m ks k : k ∈ ks -> m k = None -> take_all m ks = None.
Proof.
  revert m. induction ks as [|k0 ks IH]; intros m Hk Hm; [apply elem_of_nil in Hk; contradiction|]. cbn.
  apply elem_of_cons in Hk as [->|Hk]; [rewrite Hm; reflexivity|].
  destruct (m k0); [|reflexivity]. apply IH; [exact Hk|]. unfold upd. case_decide; auto.
Qed.

(** *** Composite operations *)
Section ops.
Context (P : utxo_view) (p : utxo_state) (HP : utxo_reads P p).

(** Adding a list of outputs, each with an overwrite flag that is right when its turn comes. *)
Lemma fold_add {X} (f : cache -> X -> cache * res utxo_err unit) (key : X -> outpoint) (out : X -> tx_output) src l c s :
  (forall c s x, uinv p c s -> x ∈ l -> us_map s (key x) = None ->
     exists c', f c x = (c', Ok tt) /\ uinv p c' (set_map s (upd (us_map s) (key x) (Some (Utxo (out x) src))))) ->
  uinv p c s -> NoDup (map key l) -> (forall x, x ∈ l -> us_map s (key x) = None) ->
  exists c', try_fold f l c = (c', Ok tt) /\
    uinv p c' (set_map s (put_all (us_map s) src (map (fun x => (key x, out x)) l))).
Proof.
  revert c s. induction l as [|x l IH]; intros c s Hf Hi Hn Ha.
  - exists c. split; [reflexivity|]. destruct s. exact Hi.
  - cbn [map] in Hn. apply NoDup_cons in Hn as [Hn0 Hn].
    destruct (Hf c s x Hi ltac:(left) (Ha x ltac:(left))) as (c1 & E & Hi1). cbn [try_fold]. rewrite E.
    destruct (IH c1 _ (fun c s x H1 H2 => Hf c s x H1 ltac:(right; exact H2)) Hi1 Hn) as (c2 & E2 & Hi2).
    + intros y Hy. cbn. rewrite upd_ne; [apply Ha; right; exact Hy|]. intros Heq. apply Hn0. rewrite Heq.
      apply elem_of_list_fmap. eauto.
    + exists c2. split; [exact E2|]. exact Hi2.
Qed.
(** Adding where overwriting is always allowed or checked. *)
Lemma fold_add_over {X} (f : cache -> X -> cache * res utxo_err unit) (key : X -> outpoint) (out : X -> tx_output) src l c s :
  (forall c s x, uinv p c s ->
     exists c', f c x = (c', Ok tt) /\ uinv p c' (set_map s (upd (us_map s) (key x) (Some (Utxo (out x) src))))) ->
  uinv p c s ->
  exists c', try_fold f l c = (c', Ok tt) /\
    uinv p c' (set_map s (put_all (us_map s) src (map (fun x => (key x, out x)) l))).
Proof.
  revert c s. induction l as [|x l IH]; intros c s Hf Hi.
  - exists c. split; [reflexivity|]. destruct s. exact Hi.
  - destruct (Hf c s x Hi) as (c1 & E & Hi1). cbn [try_fold]. rewrite E.
    destruct (IH c1 _ Hf Hi1) as (c2 & E2 & Hi2). exists c2. split; [exact E2|exact Hi2].
Qed.

Lemma has_utxo_spec c s k : uinv p c s -> has_utxo P c k = match us_map s k with Some _ => true | None => false end.
Proof. intros Hi. unfold has_utxo. rewrite (proj1 (reads_cache _ _ _ _ HP Hi) k). reflexivity. Qed.

Lemma add_tx_inv c s tx src chk : uinv p c s ->
  (chk = false -> absent (us_map s) (created (FromTx (tx_id tx)) (tx_outputs tx))) ->
  exists c', add_utxos_from_tx P c tx src chk = (c', Ok tt) /\
    uinv p c' (set_map s (put_all (us_map s) src (created (FromTx (tx_id tx)) (tx_outputs tx)))).
Proof.
  intros Hi Ha. unfold add_utxos_from_tx, created, enumerate. rewrite <- created_filter.
  destruct chk.
  - apply (fold_add_over _ (fun io => (FromTx (tx_id tx), io.1)) snd); [|exact Hi].
    intros c1 s1 x H1. apply add_inv; [exact H1|]. rewrite (has_utxo_spec _ s1) by exact H1. cbn.
    destruct (us_map s1 (FromTx (tx_id tx), x.1)); [discriminate|reflexivity].
  - assert (Hk : forall (l : list (N * tx_output)) src', map (fun io => (src', io.1)) l =
      map fst (map (fun io : N * tx_output => ((src' : source_id, io.1), io.2)) l)) by (intros; rewrite map_map; reflexivity).
    apply (fold_add _ (fun io => (FromTx (tx_id tx), io.1)) snd); [|exact Hi| |].
    + intros c1 s1 x H1 _ H2. apply add_inv; [exact H1|]. intros _. exact H2.
    + rewrite Hk, created_filter. apply created_nodup.
    + intros x Hx. apply (Ha eq_refl) with (o := x.2). unfold created. rewrite <- created_filter.
      apply elem_of_list_fmap. eauto.
Qed.

Lemma add_reward_inv c s outs src b chk : uinv p c s ->
  exists c', add_utxos_from_block_reward P c outs src b chk = (c', Ok tt) /\
    uinv p c' (set_map s (put_all (us_map s) src (map (fun io => ((FromReward b, io.1), io.2)) (enumerate outs)))).
Proof.
  intros Hi. unfold add_utxos_from_block_reward. apply (fold_add_over _ (fun io => (FromReward b, io.1)) snd); [|exact Hi].
  intros c1 s1 x H1. apply add_inv; [exact H1|]. destruct chk; [|discriminate].
  rewrite (has_utxo_spec _ s1) by exact H1. destruct (us_map s1 (FromReward b, x.1)); [discriminate|reflexivity].
Qed.

(** Spending a list of outpoints, collecting what was there. *)
Lemma spend_list c s ks : uinv p c s ->
  match take_all (us_map s) ks with
  | Some m => exists c' us, try_map (spend_utxo P) ks c = (c', Ok us) /\ uinv p c' (set_map s m) /\
      Forall2 (fun k u => us_map s k = Some u) ks us
  | None => exists c' e, try_map (spend_utxo P) ks c = (c', Err e) /\ coarse e = NotThere
  end.
Proof.
  revert c s. induction ks as [|k ks IH]; intros c s Hi; cbn [take_all try_map].
  - exists c, []. split; [reflexivity|]. split; [destruct s; exact Hi|constructor].
  - pose proof (spend_inv P p c s k HP Hi) as Hs. destruct (us_map s k) as [u|] eqn:E.
    + destruct Hs as (c1 & E1 & Hi1). rewrite E1. cbn [sbind]. specialize (IH c1 _ Hi1). cbn in IH.
      destruct (take_all (upd (us_map s) k None) ks) as [m|] eqn:Et.
      * destruct IH as (c2 & us & E2 & Hi2 & Hus). rewrite E2. cbn [sbind]. exists c2, (u :: us).
        split; [reflexivity|]. split; [exact Hi2|]. constructor; [exact E|].
        apply take_all_spec in Et as (_ & Hin & _).
        eapply Forall2_impl; [exact Hus|]. intros k' u' H. cbn in H.
        rewrite upd_ne in H; [exact H|]. intros ->. rewrite upd_eq in H. discriminate.
      * destruct IH as (c2 & e & E2 & He). rewrite E2. cbn. eauto.
    + destruct Hs as (c1 & e & E1 & He & _). rewrite E1. cbn. eauto.
Qed.

(** Inputs of a transaction and the undo list, position by position. *)
Definition undo_matches (m : outpoint -> option utxo) (i : tx_input) (u : option utxo) : Prop :=
  match i with InUtxo k => m k = u /\ exists x, u = Some x | _ => u = None end.

Lemma spend_inputs c s ins : uinv p c s ->
  let f := (fun c i => match i with
                       | InUtxo k => let (c, r) := spend_utxo P c k in (c, rmap Some r)
                       | _ => (c, Ok None)
                       end) in
  match take_all (us_map s) (spent_by ins) with
  | Some m => exists c' us, try_map f ins c = (c', Ok us) /\ uinv p c' (set_map s m) /\
      Forall2 (undo_matches (us_map s)) ins us
  | None => exists c' e, try_map f ins c = (c', Err e) /\ coarse e = NotThere
  end.
Proof.
  intros Hi f. revert c s Hi. induction ins as [|i ins IH]; intros c s Hi.
  - exists c, []. split; [reflexivity|]. split; [destruct s; exact Hi|constructor].
  - destruct i as [k|n d a|n cmd|cmd].
    2-4: cbn [spent_by try_map f sbind]; specialize (IH c s Hi); destruct (take_all (us_map s) (spent_by ins)) as [m|];
      [destruct IH as (c2 & us & E2 & Hi2 & Hus); rewrite E2; cbn [sbind]; exists c2, (None :: us);
       split; [reflexivity|]; split; [exact Hi2|]; constructor; [reflexivity|exact Hus]
      |destruct IH as (c2 & e & E2 & He); rewrite E2; cbn; eauto].
    cbn [spent_by take_all try_map]. unfold f at 1 3.
    pose proof (spend_inv P p c s k HP Hi) as Hs. destruct (us_map s k) as [u|] eqn:E.
    + destruct Hs as (c1 & E1 & Hi1). rewrite E1. cbn [rmap sbind]. specialize (IH c1 _ Hi1). cbn in IH.
      destruct (take_all (upd (us_map s) k None) (spent_by ins)) as [m|] eqn:Et.
      * destruct IH as (c2 & us & E2 & Hi2 & Hus). fold f. rewrite E2. cbn [sbind]. exists c2, (Some u :: us).
        split; [reflexivity|]. split; [exact Hi2|]. constructor; [cbn; eauto|].
        eapply Forall2_impl; [exact Hus|]. intros i' u' H. destruct i' as [k'| | |]; cbn in *; auto.
        destruct H as [H1 [x ->]].
        rewrite upd_ne in H1; [eauto|]. intros ->. rewrite upd_eq in H1. discriminate.
      * destruct IH as (c2 & e & E2 & He). fold f. rewrite E2. cbn. eauto.
    + destruct Hs as (c1 & e & E1 & He & _). rewrite E1. cbn. eauto.
Qed.

(** Removing every outpoint of a list that is there. *)
Lemma spend_present {X} (f : cache -> X -> cache * res utxo_err unit) (key : X -> option outpoint) l c s :
  (forall c x, f c x = match key x with
                       | Some k => let (c, r) := spend_utxo P c k in (c, rmap (fun _ => tt) r)
                       | None => (c, Ok tt) end) ->
  uinv p c s -> NoDup (omap key l) -> (forall k, k ∈ omap key l -> is_Some (us_map s k)) ->
  exists c' m, try_fold f l c = (c', Ok tt) /\ uinv p c' (set_map s m) /\
    (forall k, k ∈ omap key l -> m k = None) /\ (forall k, k ∉ omap key l -> m k = us_map s k).
Proof.
  intros Hf. revert c s. induction l as [|x l IH]; intros c s Hi Hn Ha.
  - exists c, (us_map s). split; [reflexivity|]. split; [destruct s; exact Hi|].
    split; [intros k Hk; apply elem_of_nil in Hk; contradiction|reflexivity].
  - cbn [try_fold]. rewrite Hf. cbn [omap list_omap] in *. destruct (key x) as [k|] eqn:Ek.
    + apply NoDup_cons in Hn as [Hn0 Hn].
      pose proof (spend_inv P p c s k HP Hi) as Hs. destruct (Ha k ltac:(left)) as [u Hu]. rewrite Hu in Hs.
      destruct Hs as (c1 & E1 & Hi1). rewrite E1. cbn [rmap].
      destruct (IH c1 _ Hi1 Hn) as (c2 & m & E2 & Hi2 & Hin & Hout).
      { intros k' Hk'. cbn. rewrite upd_ne; [apply Ha; right; exact Hk'|]. intros ->. contradiction. }
      exists c2, m. split; [exact E2|]. split; [exact Hi2|]. split.
      * intros k' Hk'. destruct (decide (k' ∈ omap key l)) as [Hd|Hd]; [apply Hin, Hd|].
        rewrite Hout by exact Hd. apply elem_of_cons in Hk' as [->|Hk']; [cbn; apply upd_eq|contradiction].
      * intros k' Hk'. rewrite not_elem_of_cons in Hk'. destruct Hk' as [H1 H2]. rewrite Hout by exact H2. cbn.
        apply upd_ne. auto.
    + apply IH; assumption.
Qed.

(** Putting spent outputs back. *)
Lemma restore_inputs c s ins us m0 : uinv p c s -> Forall2 (undo_matches m0) ins us ->
  NoDup (spent_by ins) -> (forall k, k ∈ spent_by ins -> us_map s k = None) ->
  exists c' m, try_fold (fun c iu => match iu with
                             | (_, None) => (c, Ok tt)
                             | (InUtxo k, Some u) => add_utxo c k u false
                             | (_, Some _) => (c, Err TxInputAndUndoMismatch)
                             end) (zip ins us) c = (c', Ok tt) /\ uinv p c' (set_map s m) /\
    (forall k, k ∈ spent_by ins -> m k = m0 k) /\ (forall k, k ∉ spent_by ins -> m k = us_map s k).
Proof.
  intros Hi Hm. revert c s Hi. induction Hm as [|i u ins us Hu Hm IH]; intros c s Hi Hn Ha.
  - exists c, (us_map s). split; [reflexivity|]. split; [destruct s; exact Hi|].
    split; [intros k Hk; apply elem_of_nil in Hk; contradiction|reflexivity].
  - destruct i as [k|n d a|n cmd|cmd]; cbn [undo_matches] in Hu.
    2-4: subst u; cbn [zip zip_with try_fold]; apply IH; assumption.
    destruct Hu as [Hu [x ->]]. cbn [zip zip_with try_fold spent_by] in *.
    apply NoDup_cons in Hn as [Hn0 Hn].
    destruct (add_inv p c s k x false Hi) as (c1 & E1 & Hi1); [intros _; apply Ha; left|]. rewrite E1.
    destruct (IH c1 _ Hi1 Hn) as (c2 & m & E2 & Hi2 & Hin & Hout).
    { intros k' Hk'. cbn. rewrite upd_ne; [apply Ha; right; exact Hk'|]. intros ->. contradiction. }
    exists c2, m. split; [exact E2|]. split; [exact Hi2|]. split.
    + intros k' Hk'. destruct (decide (k' ∈ spent_by ins)) as [Hd|Hd]; [apply Hin, Hd|].
      rewrite Hout by exact Hd. apply elem_of_cons in Hk' as [->|Hk']; [cbn; rewrite upd_eq; auto|contradiction].
    + intros k' Hk'. rewrite not_elem_of_cons in Hk'. destruct Hk' as [H1 H2]. rewrite Hout by exact H2. cbn.
      apply upd_ne. auto.
Qed.
End ops.

(** *** Flushing *)
Lemma write_entry_inv p c s k e t : uinv p c s -> entry_ok (us_map s k) (Some e) t ->
  exists c', write_entry c (k, e) = (c', Ok tt) /\ uinv p c' (set_map s (upd (us_map s) k t)).
Proof.
  intros Hi He. destruct e as [u f d]. cbn [entry_ok] in He. destruct He as (-> & Hf & Hd & Hv).
  pose proof (proj1 Hi k) as Hk. cbn [write_entry e_dirty e_fresh e_utxo].
  destruct d; cycle 1.
  { exists c. split; [reflexivity|]. apply (uinv_ext _ _ _ _ Hi); [|reflexivity].
    intros k'. cbn. unfold upd. case_decide; [subst|reflexivity]. apply Hd. reflexivity. }
  destruct (c_utxos c !! k) as [[pu pf pd]|] eqn:E; cbn [entry_ok] in Hk; cbn [e_spent e_utxo e_fresh].
  - destruct Hk as (Hs & Hpf & Hpd & Hpv). rewrite Hs in Hf.
    assert (Hc : f && negb (match pu with None => true | Some _ => false end) = false).
    { destruct f; [|reflexivity]. rewrite (Hf eq_refl). reflexivity. }
    unfold e_spent; cbn [e_utxo]. rewrite Hc. destruct (pf && match u with None => true | Some _ => false end) eqn:Er.
    + apply andb_true_iff in Er as [-> Hu]. destruct u; [discriminate|]. eexists. split; [reflexivity|].
      rewrite <- (Hpf eq_refl). apply uinv_drop, Hi.
    + assert (entry_new u pf true = Ok (Entry u pf true)) as ->.
      { unfold entry_new. destruct u; [rewrite orb_true_r; reflexivity|]. destruct pf; [discriminate|reflexivity]. }
      cbn [on_ok]. eexists. split; [reflexivity|]. apply uinv_put; [exact Hi|]. cbn. repeat split; auto; try discriminate.
      destruct u; [auto|]. destruct pf; [discriminate|auto].
  - assert (negb (f && e_spent (Entry u f true)) = true) as ->.
    { unfold e_spent; cbn. destruct u; [rewrite andb_false_r; reflexivity|]. destruct Hv as [-> _]. reflexivity. }
    assert (entry_new u f true = Ok (Entry u f true)) as ->.
    { unfold entry_new. destruct u; [rewrite orb_true_r; reflexivity|]. destruct Hv as [-> _]. reflexivity. }
    cbn [on_ok]. eexists. split; [reflexivity|]. apply uinv_put; [exact Hi|]. cbn. rewrite <- Hk.
    repeat split; auto; discriminate.
Qed.

Lemma write_all_inv p l c s t : uinv p c s -> NoDup l.*1 ->
  (forall k e, (k, e) ∈ l -> entry_ok (us_map s k) (Some e) (us_map t k)) ->
  exists c' m, try_fold write_entry l c = (c', Ok tt) /\ uinv p c' (set_map s m) /\
    (forall k, k ∈ l.*1 -> m k = us_map t k) /\ (forall k, k ∉ l.*1 -> m k = us_map s k).
Proof.
  revert c s. induction l as [|[k e] l IH]; intros c s Hi Hn Ha.
  - exists c, (us_map s). split; [reflexivity|]. split; [destruct s; exact Hi|].
    split; [intros k Hk; apply elem_of_nil in Hk; contradiction|reflexivity].
  - cbn in Hn. apply NoDup_cons in Hn as [Hn0 Hn].
    destruct (write_entry_inv p c s k e _ Hi (Ha k e ltac:(left))) as (c1 & E1 & Hi1).
    cbn [try_fold]. rewrite E1.
    destruct (IH c1 _ Hi1 Hn) as (c2 & m & E2 & Hi2 & Hin & Hout).
    { intros k' e' Hk'. cbn. rewrite upd_ne; [apply Ha; right; exact Hk'|]. intros ->. apply Hn0.
      apply elem_of_list_fmap. exists (k', e'). auto. }
    exists c2, m. split; [exact E2|]. split; [exact Hi2|]. cbn. split.
    + intros k' Hk'. destruct (decide (k' ∈ l.*1)) as [Hd|Hd]; [apply Hin, Hd|].
      rewrite Hout by exact Hd. apply elem_of_cons in Hk' as [->|Hk']; [cbn; apply upd_eq|contradiction].
    + intros k' Hk'. rewrite not_elem_of_cons in Hk'. destruct Hk' as [H1 H2]. rewrite Hout by exact H2. cbn.
      apply upd_ne. auto.
Qed.

Lemma uinv_keys s e t : uinv s e t ->
  NoDup (map_to_list (c_utxos e)).*1 /\
  (forall k x, (k, x) ∈ map_to_list (c_utxos e) -> entry_ok (us_map s k) (Some x) (us_map t k)) /\
  (forall k, k ∉ (map_to_list (c_utxos e)).*1 -> us_map s k = us_map t k).
Proof.
  intros [H _]. split; [apply NoDup_fst_map_to_list|]. split.
  - intros k x Hk. apply elem_of_map_to_list in Hk. specialize (H k). rewrite Hk in H. exact H.
  - intros k Hk. specialize (H k). destruct (c_utxos e !! k) as [x|] eqn:E; [|symmetry; exact H].
    contradiction Hk. apply elem_of_list_fmap. exists (k, x). split; [reflexivity|]. apply elem_of_map_to_list, E.
Qed.

Lemma merge_refines p d s e t : uinv p d s -> uinv s e t ->
  exists d' u, utxo_merge d e = (d', Ok u) /\ uinv p d' t.
Proof.
  intros Hi He. destruct (uinv_keys _ _ _ He) as (Hn & Ha & Ho).
  destruct (write_all_inv p _ d s t Hi Hn Ha) as (c' & m & E & Hi' & Hin & Hout).
  unfold utxo_merge, batch_write. rewrite E. cbn. do 2 eexists. split; [reflexivity|].
  assert (Hm : forall k, m k = us_map t k).
  { intros k. destruct (decide (k ∈ (map_to_list (c_utxos e)).*1)) as [Hk|Hk]; [apply Hin, Hk|].
    rewrite Hout by exact Hk. apply Ho, Hk. }
  destruct Hi' as [H1 H2]. cbn in H1, H2. destruct He as [_ Hb].
  destruct (c_best e) as [b|]; cbn in Hb; split; cbn; try (intros k; rewrite <- Hm; apply H1).
  - exact Hb.
  - congruence.
Qed.

Lemma db_merge_refines db p d s : utxo_db_is db p -> uinv p d s ->
  exists db' u, utxo_db_merge db d = (db', Ok u) /\ utxo_db_is db' s.
Proof.
  intros [Hdb Hdbb] He. destruct (uinv_keys _ _ _ He) as (Hn & Ha & Ho).
  unfold utxo_db_merge, db_batch_write.
  set (f := fun (db : utxo_db) (ke : outpoint * entry) => _).
  assert (G : forall l db0, NoDup l.*1 ->
    (forall k x, (k, x) ∈ l -> entry_ok (us_map p k) (Some x) (us_map s k) /\ udb_map db0 !! k = us_map p k) ->
    exists db', try_fold f l db0 = (db', Ok tt) /\ udb_best db' = udb_best db0 /\
      (forall k, k ∈ l.*1 -> udb_map db' !! k = us_map s k) /\ (forall k, k ∉ l.*1 -> udb_map db' !! k = udb_map db0 !! k)).
  { induction l as [|[k x] l IH]; intros db0 Hnl Hal.
    - exists db0. split; [reflexivity|]. split; [reflexivity|].
      split; [intros k Hk; apply elem_of_nil in Hk; contradiction|reflexivity].
    - cbn in Hnl. apply NoDup_cons in Hnl as [Hn0 Hnl]. destruct (Hal k x ltac:(left)) as [Hx Hp].
      assert (exists db1, f db0 (k, x) = (db1, Ok tt) /\ udb_best db1 = udb_best db0 /\
        udb_map db1 !! k = us_map s k /\ forall k', k' <> k -> udb_map db1 !! k' = udb_map db0 !! k') as (db1 & E1 & Hb1 & Hk1 & Ho1).
      { destruct x as [u fr di]. destruct Hx as (Hs & _ & Hd & _). cbn. destruct di.
        - destruct u as [u|]; eexists; (split; [reflexivity|]); cbn; (split; [reflexivity|]).
          + rewrite lookup_insert. split; [congruence|]. intros k' Hk'. apply lookup_insert_ne. auto.
          + rewrite lookup_delete. split; [congruence|]. intros k' Hk'. apply lookup_delete_ne. auto.
        - eexists. split; [reflexivity|]. split; [reflexivity|]. split; [rewrite Hp, Hs; apply Hd; reflexivity|auto]. }
      cbn [try_fold]. rewrite E1. destruct (IH db1 Hnl) as (db2 & E2 & Hb2 & Hin2 & Hout2).
      { intros k' x' Hk'. destruct (Hal k' x' ltac:(right; exact Hk')) as [H1 H2]. split; [exact H1|].
        rewrite Ho1; [exact H2|]. intros ->. apply Hn0. apply elem_of_list_fmap. exists (k, x'). auto. }
      exists db2. split; [exact E2|]. split; [congruence|]. cbn. split.
      + intros k' Hk'. destruct (decide (k' ∈ l.*1)) as [Hd|Hd]; [apply Hin2, Hd|].
        rewrite Hout2 by exact Hd. apply elem_of_cons in Hk' as [->|Hk']; [exact Hk1|contradiction].
      + intros k' Hk'. rewrite not_elem_of_cons in Hk'. destruct Hk' as [H1 H2]. rewrite Hout2 by exact H2. apply Ho1, H1. }
  destruct (G _ db Hn) as (db' & E & Hb & Hin & Hout).
  { intros k x Hk. split; [apply Ha, Hk|]. apply Hdb. }
  rewrite E. cbn. do 2 eexists. split; [reflexivity|]. split; cbn.
  - intros k. destruct (decide (k ∈ (map_to_list (c_utxos d)).*1)) as [Hk|Hk]; [apply Hin, Hk|].
    rewrite Hout by exact Hk. rewrite <- Ho by exact Hk. apply Hdb.
  - rewrite Hb. cbn in Hdbb. rewrite Hdbb. apply He.
Qed.

(** *** The operations *)
Definition undoes (u : utxo_undo) (s' s : utxo_state) : Prop :=
  match u with
  | UnTx tx us =>
      us_best s' = us_best s /\
      Forall2 (undo_matches (us_map s)) (tx_inputs tx) us /\ NoDup (spent_by (tx_inputs tx)) /\
      (forall k, k ∈ map fst (created (FromTx (tx_id tx)) (tx_outputs tx)) -> us_map s k = None /\ is_Some (us_map s' k)) /\
      (forall k, k ∈ spent_by (tx_inputs tx) -> is_Some (us_map s k) /\ us_map s' k = None) /\
      (forall k, k ∉ map fst (created (FromTx (tx_id tx)) (tx_outputs tx)) -> k ∉ spent_by (tx_inputs tx) -> us_map s' k = us_map s k)
  | UnReward rt b us =>
      let ins := option_list (rt_inputs rt) in let outs := option_list (rt_outputs rt) in
      us_best s' = us_best s /\ forallb spendable outs = true /\
      (match rt_inputs rt with
       | Some ins => exists l, us = Some l /\ Forall2 (undo_matches (us_map s)) ins (map Some l)
       | None => True end) /\ NoDup (spent_by ins) /\
      (forall k, k ∈ map fst (created (FromReward b) outs) -> us_map s k = None /\ is_Some (us_map s' k)) /\
      (forall k, k ∈ spent_by ins -> is_Some (us_map s k) /\ us_map s' k = None) /\
      (forall k, k ∉ map fst (created (FromReward b) outs) -> k ∉ spent_by ins -> us_map s' k = us_map s k)
  | UnRestore l =>
      us_best s' = us_best s /\ NoDup l.*1 /\
      (forall k o, (k, o) ∈ l -> us_map s k = o /\ (o = None -> is_Some (us_map s' k))) /\
      (forall k, k ∉ l.*1 -> us_map s' k = us_map s k)
  | UnBest b => us_best s = b /\ forall k, us_map s' k = us_map s k
  end.

Lemma take_put_facts m ks m' l src : take_all m ks = Some m' -> absent m l -> NoDup (map fst l) ->
  (forall k, k ∈ map fst l -> m k = None /\ is_Some (put_all m' src l k)) /\
  (forall k, k ∈ ks -> is_Some (m k) /\ put_all m' src l k = None) /\
  (forall k, k ∉ map fst l -> k ∉ ks -> put_all m' src l k = m k).
Proof.
  intros Ht Ha Hn. apply take_all_spec in Ht as (_ & Hin & Hout).
  assert (Ha' : forall k, k ∈ map fst l -> m k = None).
  { intros k Hk. apply elem_of_list_fmap in Hk as ([k' o] & -> & Hk). eapply Ha, Hk. }
  split; [|split].
  - intros k Hk. split; [apply Ha', Hk|]. destruct (put_all_some m' src l k Hk) as [u Hu]. rewrite Hu. eauto.
  - intros k Hk. destruct (Hin k Hk) as [H1 [u H2]]. split; [eauto|]. rewrite put_all_other; [exact H1|].
    intros Hk'. apply Ha' in Hk'. congruence.
  - intros k H1 H2. rewrite put_all_other by exact H1. apply Hout, H2.
Qed.

Lemma uinv_best p c s m : uinv p c (set_map s m) -> us_best (set_map s m) = us_best s.
Proof. reflexivity. Qed.

Lemma spent_by_all ins : Forall (fun i => exists k, i = InUtxo k) ins -> exists ks, ins = map InUtxo ks /\ spent_by ins = ks.
Proof.
  induction 1 as [|i ins [k ->] _ (ks & -> & IH)]; [exists []; auto|]. exists (k :: ks). cbn. rewrite IH. auto.
Qed.
Lemma omap_spent_by ins : omap (fun i => match i with InUtxo k => Some k | _ => None end) ins = spent_by ins.
Proof. induction ins as [|[] ins IH]; cbn; [reflexivity| | | |]; rewrite IH; reflexivity. Qed.

Lemma reward_outputs_inv p c s b h outs : uinv p c s -> absent (us_map s) (created (FromReward b) outs) ->
  let f := fun c (io : N * tx_output) => if negb (should_include_in_utxo_set io.2) then (c, Err InvalidBlockRewardOutputType)
             else add_utxo c (FromReward b, io.1) (Utxo io.2 (InChain h)) false in
  if forallb spendable outs
  then exists c', try_fold f (enumerate outs) c = (c', Ok tt) /\
         uinv p c' (set_map s (put_all (us_map s) (InChain h) (created (FromReward b) outs)))
  else exists c', try_fold f (enumerate outs) c = (c', Err InvalidBlockRewardOutputType).
Proof.
  intros Hi Ha f.
  assert (Hf : forall c i o, f c (i, o) = if spendable o then add_utxo c (FromReward b, i) (Utxo o (InChain h)) false
                                          else (c, Err InvalidBlockRewardOutputType)).
  { intros c0 i o. unfold f. cbn [snd fst]. rewrite included_spendable. destruct (spendable o); reflexivity. }
  clearbody f. unfold enumerate, created in *. revert c s Hi Ha. generalize 0 as i.
  induction outs as [|o outs IH]; intros i c s Hi Ha.
  - cbn. exists c. split; [reflexivity|]. destruct s; exact Hi.
  - cbn [forallb enumerate_from created_from try_fold] in *. rewrite Hf.
    destruct (spendable o) eqn:Eo; cbn [andb].
    + destruct (add_inv p c s (FromReward b, i) (Utxo o (InChain h)) false Hi) as (c1 & E1 & Hi1).
      { intros _. eapply Ha. left. }
      rewrite E1. specialize (IH (i + 1) c1 _ Hi1). cbn in IH.
      destruct (forallb spendable outs).
      * destruct IH as (c2 & E2 & Hi2).
        { intros k o' Hk. rewrite upd_ne; [eapply Ha; right; exact Hk|]. apply created_keys in Hk as [_ Hk].
          intros <-. cbn in Hk. lia. }
        exists c2. split; [exact E2|exact Hi2].
      * apply IH. intros k o' Hk. rewrite upd_ne; [eapply Ha; right; exact Hk|]. apply created_keys in Hk as [_ Hk].
        intros <-. cbn in Hk. lia.
    + eexists. reflexivity.
Qed.

Lemma op_refines P p c s o : utxo_reads P p -> uinv p c s -> utxo_fits s o ->
  match utxo_step s o with
  | Ok s' => exists c' u, run_op P c o = (c', Ok u) /\ uinv p c' s' /\ undoes u s' s
  | Err e => exists c', run_op P c o = (c', Err e) /\ uinv p c' s
  | Panic => False
  end.
Proof.
  intros HP Hi Hf. pose proof (reads_cache _ _ _ _ HP Hi) as [Hr Hrb].
  destruct o as [k u ow|k|k|b|tx src|rt b h|tx src chk|outs src b chk]; cbn [utxo_step run_op utxo_fits] in *.
  - destruct (add_inv p c s k u ow Hi Hf) as (c' & E & Hi'). rewrite E. cbn. do 2 eexists. split; [reflexivity|].
    split; [exact Hi'|]. cbn. split; [reflexivity|]. split; [apply NoDup_singleton|]. split.
    + intros k0 o Hk. apply elem_of_list_singleton in Hk. injection Hk as -> ->. split; [symmetry; apply Hr|].
      intros _. rewrite upd_eq. eauto.
    + intros k0 Hk. apply upd_ne. intros ->. apply Hk. left.
  - pose proof (spend_inv P p c s k HP Hi) as Hs. destruct (us_map s k) as [u|] eqn:E.
    + destruct Hs as (c' & E' & Hi'). rewrite E'. cbn. do 2 eexists. split; [reflexivity|].
      split; [exact Hi'|]. cbn. split; [reflexivity|]. split; [apply NoDup_singleton|]. split.
      * intros k0 o Hk. apply elem_of_list_singleton in Hk. injection Hk as -> ->. split; [exact E|discriminate].
      * intros k0 Hk. apply upd_ne. intros ->. apply Hk. left.
    + destruct Hs as (c' & e & E' & He & Hi'). rewrite E'. cbn. rewrite He. eexists. split; [reflexivity|exact Hi'].
  - do 2 eexists. split; [reflexivity|]. split; [apply uncache_inv, Hi|]. cbn. split; [reflexivity|].
    split; [constructor|]. split; [intros k0 o Hk; apply elem_of_nil in Hk; contradiction|reflexivity].
  - do 2 eexists. split; [reflexivity|]. split; [|cbn; split; [symmetry; exact Hrb|reflexivity]].
    split; [|reflexivity]. intros k. apply (proj1 Hi).
  - unfold connect_transaction. pose proof (spend_inputs P p HP c s (tx_inputs tx) Hi) as Hs.
    destruct (take_all (us_map s) (spent_by (tx_inputs tx))) as [m|] eqn:Et.
    + destruct Hs as (c1 & us & E1 & Hi1 & Hus). rewrite E1. cbn [sbind].
      destruct (take_all_spec _ _ _ Et) as (Hnd & Hin & Hout).
      destruct (add_tx_inv P p HP c1 _ tx src false Hi1) as (c2 & E2 & Hi2).
      { intros _ k o Hk. cbn. specialize (Hf k o Hk). rewrite Hout; [exact Hf|]. intros Hk'. destruct (Hin k Hk') as [_ [x Hx]].
        congruence. }
      rewrite E2. cbn. do 2 eexists. split; [reflexivity|]. split; [exact Hi2|].
      cbn. split; [reflexivity|]. split; [exact Hus|]. split; [exact Hnd|].
      apply (take_put_facts _ _ _ _ src Et Hf). apply created_nodup.
    + destruct Hs as (c1 & e & E1 & He). rewrite E1. cbn. rewrite He. eexists. split; [reflexivity|exact Hi].
  - destruct Hf as [Hf Hins]. unfold connect_block_transactable.
    assert (Hs : match take_all (us_map s) (spent_by (option_list (rt_inputs rt))) with
      | Some m => exists c' us, match rt_inputs rt with
         | Some ins => sbind (try_map (spend_utxo P) (omap (fun i => match i with InUtxo k => Some k | _ => None end) ins) c)
                             (fun c us => (c, Ok (match us with [] => None | _ => Some us end)))
         | None => (c, Ok None)
         end = (c', Ok us) /\ uinv p c' (set_map s m) /\
         match rt_inputs rt with
         | Some ins => exists l, us = Some l /\ Forall2 (undo_matches (us_map s)) ins (map Some l)
         | None => True end
      | None => exists c' e, match rt_inputs rt with
         | Some ins => sbind (try_map (spend_utxo P) (omap (fun i => match i with InUtxo k => Some k | _ => None end) ins) c)
                             (fun c us => (c, Ok (match us with [] => None | _ => Some us end)))
         | None => (c, Ok None)
         end = (c', Err e) /\ coarse e = NotThere end).
    { destruct (rt_inputs rt) as [ins|]; cbn [option_list].
      - destruct (Hins ins eq_refl) as [Hne Hall]. destruct (spent_by_all _ Hall) as (ks & -> & Eks).
        rewrite omap_spent_by, Eks. pose proof (spend_list P p HP c s ks Hi) as Hs.
        destruct (take_all (us_map s) ks) as [m|].
        + destruct Hs as (c' & us & E & Hi' & Hus). rewrite E. cbn [sbind]. do 2 eexists. split; [reflexivity|].
          split; [exact Hi'|]. exists us. split.
          * destruct us; [|reflexivity]. inversion Hus; subst. contradiction Hne. reflexivity.
          * clear -Hus. induction Hus as [|k u ks us Hk _ IH]; cbn; constructor; [cbn; eauto|exact IH].
        + destruct Hs as (c' & e & E & He). rewrite E. cbn. eauto.
      - cbn. exists c, None. split; [reflexivity|]. split; [destruct s; exact Hi|exact I]. }
    destruct (take_all (us_map s) (spent_by (option_list (rt_inputs rt)))) as [m|] eqn:Et.
    + destruct Hs as (c1 & us & E1 & Hi1 & Hus). rewrite E1. cbn [sbind].
      destruct (take_all_spec _ _ _ Et) as (Hnd & Hin & Hout).
      assert (Ha1 : absent m (created (FromReward b) (option_list (rt_outputs rt)))).
      { intros k o Hk. specialize (Hf k o Hk). rewrite Hout; [exact Hf|]. intros Hk'. destruct (Hin k Hk') as [_ [x Hx]].
        congruence. }
      pose proof (reward_outputs_inv p c1 _ b h (option_list (rt_outputs rt)) Hi1 Ha1) as Ho. cbn [us_map set_map] in Ho.
      destruct (rt_outputs rt) as [outs|] eqn:Er; cbn [option_list] in *.
      * destruct (forallb spendable outs) eqn:Eo.
        -- destruct Ho as (c2 & E2 & Hi2). rewrite E2. cbn. do 2 eexists. split; [reflexivity|]. split; [exact Hi2|].
           cbn [undoes]. rewrite Er. cbn [option_list]. split; [reflexivity|]. split; [exact Eo|]. split; [exact Hus|]. split; [exact Hnd|].
           apply (take_put_facts _ _ _ _ _ Et Hf). apply created_nodup.
        -- destruct Ho as (c2 & E2). rewrite E2. cbn. eexists. split; [reflexivity|exact Hi].
      * cbn. do 2 eexists. split; [reflexivity|]. split; [exact Hi1|].
        cbn [undoes]. rewrite Er. cbn [option_list]. split; [reflexivity|]. split; [reflexivity|]. split; [exact Hus|]. split; [exact Hnd|].
        apply (take_put_facts _ _ _ [] InMempool Et Hf). constructor.
    + destruct Hs as (c1 & e & E1 & He). rewrite E1. cbn. rewrite He. eexists. split; [reflexivity|exact Hi].
  - destruct (add_tx_inv P p HP c s tx src chk Hi Hf) as (c' & E & Hi'). rewrite E. cbn [lift or_restore rmap rmap_err]. do 2 eexists. split; [reflexivity|].
    split; [exact Hi'|].
    assert (Hkeys : (map (fun io : N * tx_output => ((FromTx (tx_id tx), io.1), vw_utxo (cache_view P c) (FromTx (tx_id tx), io.1)))
       (filter (fun io => Is_true (should_include_in_utxo_set io.2)) (enumerate (tx_outputs tx)))).*1
       = map fst (created (FromTx (tx_id tx)) (tx_outputs tx))).
    { unfold created. rewrite <- created_filter. rewrite map_map. rewrite <- list_fmap_compose. reflexivity. }
    cbn [undoes]. split; [reflexivity|]. split; [|split].
    + rewrite Hkeys. apply created_nodup.
    + intros k o Hk. assert (Hk1 : k ∈ map fst (created (FromTx (tx_id tx)) (tx_outputs tx))).
      { rewrite <- Hkeys. apply elem_of_list_fmap. exists (k, o). auto. }
      apply elem_of_list_fmap in Hk as (io & Hk & _). injection Hk as -> ->. split; [symmetry; apply Hr|].
      intros _. apply (put_all_some (us_map s) src) in Hk1 as [x Hx]. cbn. rewrite Hx. eauto.
    + rewrite Hkeys. intros k Hk. apply put_all_other, Hk.
  - destruct (add_reward_inv P p HP c s outs src b chk Hi) as (c' & E & Hi'). rewrite E. cbn [lift or_restore rmap rmap_err]. do 2 eexists. split; [reflexivity|].
    split; [exact Hi'|].
    assert (Hkeys : (map (fun io : N * tx_output => ((FromReward b, io.1), vw_utxo (cache_view P c) (FromReward b, io.1)))
       (enumerate outs)).*1 = map fst (map (fun io => ((FromReward b, io.1), io.2)) (enumerate outs))).
    { rewrite map_map. rewrite <- list_fmap_compose. reflexivity. }
    cbn [undoes]. split; [reflexivity|]. split; [|split].
    + rewrite Hkeys. apply reward_keys_nodup.
    + intros k o Hk. assert (Hk1 : k ∈ map fst (map (fun io => ((FromReward b, io.1), io.2)) (enumerate outs))).
      { rewrite <- Hkeys. apply elem_of_list_fmap. exists (k, o). auto. }
      apply elem_of_list_fmap in Hk as (io & Hk & _). injection Hk as -> ->. split; [symmetry; apply Hr|].
      intros _. apply (put_all_some (us_map s) src) in Hk1 as [x Hx]. cbn. rewrite Hx. eauto.
    + rewrite Hkeys. intros k Hk. apply put_all_other, Hk.
Qed.

Lemma tx_keys tx : omap (fun io : N * tx_output => if should_include_in_utxo_set io.2 then Some (FromTx (tx_id tx), io.1) else None)
    (enumerate (tx_outputs tx)) = map fst (created (FromTx (tx_id tx)) (tx_outputs tx)).
Proof.
  unfold enumerate, created. generalize 0 as i. induction (tx_outputs tx) as [|o outs IH]; intros i; [reflexivity|].
  cbn. rewrite included_spendable. destruct (spendable o); cbn; rewrite IH; reflexivity.
Qed.
Lemma reward_keys b outs : forallb spendable outs = true ->
  omap (fun io : N * tx_output => Some (FromReward b, io.1)) (enumerate outs) = map fst (created (FromReward b) outs).
Proof.
  unfold enumerate, created. generalize 0 as i. induction outs as [|o outs IH]; intros i H; [reflexivity|].
  cbn in *. apply andb_true_iff in H as [-> H]. cbn. rewrite IH by exact H. reflexivity.
Qed.

Lemma restore_reward p c s ins us m0 : uinv p c s -> Forall2 (undo_matches m0) ins (map Some us) ->
  NoDup (spent_by ins) -> (forall k, k ∈ spent_by ins -> us_map s k = None) ->
  exists c' m, try_fold (fun c iu => match iu with (InUtxo k, u) => add_utxo c k u false | _ => (c, Ok tt) end) (zip ins us) c
     = (c', Ok tt) /\ uinv p c' (set_map s m) /\
    (forall k, k ∈ spent_by ins -> m k = m0 k) /\ (forall k, k ∉ spent_by ins -> m k = us_map s k).
Proof.
  intros Hi Hm Hn Ha. destruct (restore_inputs p c s ins (map Some us) m0 Hi Hm Hn Ha) as (c' & m & E & H).
  exists c', m. split; [|exact H]. rewrite <- E. clear -Hm. revert us c Hm.
  induction ins as [|i ins IH]; intros us c Hm; inversion Hm as [|i' u' ins' us' H1 H2 E1 E2]; subst.
  - destruct us; [reflexivity|discriminate].
  - destruct us as [|u us]; [discriminate|]. injection E2 as -> ->.
    destruct i as [k| | |]; cbn in H1; try discriminate H1.
    cbn. destruct (add_utxo c k u false) as [c1 []]; try reflexivity. apply IH, H2.
Qed.

Lemma undo_refines P p c s' u s : utxo_reads P p -> uinv p c s' -> undoes u s' s ->
  exists c', run_undo P c u = (c', Ok tt) /\ uinv p c' s.
Proof.
  intros HP Hi Hu. destruct u as [tx us|rt b us|l|b]; cbn [undoes run_undo] in *.
  - destruct Hu as (Hb & Hus & Hnd & Hcr & Hsp & Hoth). unfold disconnect_transaction.
    destruct (spend_present P p HP (fun c io => if should_include_in_utxo_set io.2
                               then let (c, r) := spend_utxo P c (FromTx (tx_id tx), io.1) in (c, rmap (fun _ => tt) r)
                               else (c, Ok tt))
      (fun io : N * tx_output => if should_include_in_utxo_set io.2 then Some (FromTx (tx_id tx), io.1) else None)
      (enumerate (tx_outputs tx)) c s') as (c1 & m1 & E1 & Hi1 & Hin1 & Hout1).
    { intros c0 x. destruct (should_include_in_utxo_set x.2); reflexivity. }
    { exact Hi. }
    { rewrite tx_keys. apply created_nodup. }
    { rewrite tx_keys. intros k Hk. apply Hcr, Hk. }
    rewrite tx_keys in Hin1, Hout1. rewrite E1. cbn [sbind].
    pose proof (Forall2_length _ _ _ Hus) as Hlen. rewrite Hlen, Nat.eqb_refl. cbn [negb].
    destruct (restore_inputs p c1 _ _ us (us_map s) Hi1 Hus Hnd) as (c2 & m2 & E2 & Hi2 & Hin2 & Hout2).
    { intros k Hk. cbn. destruct (decide (k ∈ map fst (created (FromTx (tx_id tx)) (tx_outputs tx)))) as [Hd|Hd].
      - apply Hin1, Hd. - rewrite Hout1 by exact Hd. apply Hsp, Hk. }
    rewrite E2. cbn. eexists. split; [reflexivity|]. apply (uinv_ext _ _ _ _ Hi2); [|exact Hb].
    intros k. cbn. destruct (decide (k ∈ spent_by (tx_inputs tx))) as [Hd|Hd]; [apply Hin2, Hd|].
    rewrite Hout2 by exact Hd. cbn.
    destruct (decide (k ∈ map fst (created (FromTx (tx_id tx)) (tx_outputs tx)))) as [Hd'|Hd'].
    + rewrite Hin1 by exact Hd'. symmetry. apply Hcr, Hd'.
    + rewrite Hout1 by exact Hd'. apply Hoth; assumption.
  - destruct Hu as (Hb & Hsb & Hus & Hnd & Hcr & Hsp & Hoth). unfold disconnect_block_transactable.
    assert (exists c1 m1, match rt_outputs rt with
         | Some outs => try_fold (fun c io => let (c, r) := spend_utxo P c (FromReward b, io.1) in (c, rmap (fun _ => tt) r))
                                 (enumerate outs) c
         | None => (c, Ok tt) end = (c1, Ok tt) /\ uinv p c1 (set_map s' m1) /\
         (forall k, k ∈ map fst (created (FromReward b) (option_list (rt_outputs rt))) -> m1 k = None) /\
         (forall k, k ∉ map fst (created (FromReward b) (option_list (rt_outputs rt))) -> m1 k = us_map s' k))
      as (c1 & m1 & E1 & Hi1 & Hin1 & Hout1).
    { destruct (rt_outputs rt) as [outs|]; cbn [option_list] in *.
      - rewrite <- reward_keys in * by exact Hsb.
        apply (spend_present P p HP _ (fun io : N * tx_output => Some (FromReward b, io.1))).
        + intros c0 x. reflexivity.
        + exact Hi.
        + rewrite reward_keys by exact Hsb. apply created_nodup.
        + intros k Hk. apply Hcr, Hk.
      - exists c, (us_map s'). split; [reflexivity|]. split; [destruct s'; exact Hi|].
        split; [intros k Hk; apply elem_of_nil in Hk; contradiction|reflexivity]. }
    rewrite E1. cbn [sbind].
    assert (Habs : forall k, k ∈ spent_by (option_list (rt_inputs rt)) -> m1 k = None).
    { intros k Hk. destruct (decide (k ∈ map fst (created (FromReward b) (option_list (rt_outputs rt))))) as [Hd|Hd].
      - apply Hin1, Hd. - rewrite Hout1 by exact Hd. apply Hsp, Hk. }
    destruct (rt_inputs rt) as [ins|]; cbn [option_list] in *.
    + destruct Hus as (l & -> & Hus). cbn [ok_or on_ok].
      destruct (restore_reward p c1 _ _ l (us_map s) Hi1 Hus Hnd) as (c2 & m2 & E2 & Hi2 & Hin2 & Hout2); [exact Habs|].
      rewrite E2. cbn. eexists. split; [reflexivity|]. apply (uinv_ext _ _ _ _ Hi2); [|exact Hb].
      intros k. cbn. destruct (decide (k ∈ spent_by ins)) as [Hd|Hd]; [apply Hin2, Hd|].
      rewrite Hout2 by exact Hd. cbn.
      destruct (decide (k ∈ map fst (created (FromReward b) (option_list (rt_outputs rt))))) as [Hd'|Hd'].
      * rewrite Hin1 by exact Hd'. symmetry. apply Hcr, Hd'.
      * rewrite Hout1 by exact Hd'. apply Hoth; assumption.
    + cbn. eexists. split; [reflexivity|]. apply (uinv_ext _ _ _ _ Hi1); [|exact Hb].
      intros k. cbn. destruct (decide (k ∈ map fst (created (FromReward b) (option_list (rt_outputs rt))))) as [Hd'|Hd'].
      * rewrite Hin1 by exact Hd'. symmetry. apply Hcr, Hd'.
      * rewrite Hout1 by exact Hd'. apply Hoth; [exact Hd'|apply not_elem_of_nil].
  - destruct Hu as (Hb & Hn & Hat & Hoth).
    set (f := fun (c : cache) (ko : outpoint * option utxo) => match ko with
                                       | (k, Some u) => add_utxo c k u true
                                       | (k, None) => let (c, r) := spend_utxo P c k in (c, rmap (fun _ => tt) r)
                                       end).
    assert (G : exists c' m, try_fold f l c = (c', Ok tt) /\ uinv p c' (set_map s' m) /\
      (forall k o, (k, o) ∈ l -> m k = o) /\ (forall k, k ∉ l.*1 -> m k = us_map s' k)).
    { clear Hoth Hb. revert c s' Hi Hat. induction l as [|[k o] l IH]; intros c s' Hi Hat.
      - exists c, (us_map s'). split; [reflexivity|]. split; [destruct s'; exact Hi|].
        split; [intros k o Hk; apply elem_of_nil in Hk; contradiction|reflexivity].
      - cbn in Hn. apply NoDup_cons in Hn as [Hn0 Hn]. destruct (Hat k o ltac:(left)) as [_ Ho].
        assert (exists c1, f c (k, o) = (c1, Ok tt) /\ uinv p c1 (set_map s' (upd (us_map s') k o))) as (c1 & E1 & Hi1).
        { destruct o as [u|]; cbn.
          - apply add_inv; [exact Hi|discriminate].
          - destruct (Ho eq_refl) as [u Hu]. pose proof (spend_inv P p c s' k HP Hi) as Hs. rewrite Hu in Hs.
            destruct Hs as (c1 & E1 & Hi1). rewrite E1. eauto. }
        cbn [try_fold]. rewrite E1. destruct (IH Hn c1 _ Hi1) as (c2 & m & E2 & Hi2 & Hin2 & Hout2).
        { intros k' o' Hk'. destruct (Hat k' o' ltac:(right; exact Hk')) as [H1 H2]. split; [exact H1|].
          intros Hno. cbn. rewrite upd_ne; [auto|]. intros ->. apply Hn0. apply elem_of_list_fmap. exists (k', o'). auto. }
        exists c2, m. split; [exact E2|]. split; [exact Hi2|]. split.
        + intros k' o' Hk'. apply elem_of_cons in Hk' as [Hk'|Hk']; [|apply Hin2, Hk'].
          injection Hk' as -> ->. rewrite Hout2 by exact Hn0. apply upd_eq.
        + intros k' Hk'. cbn in Hk'. rewrite not_elem_of_cons in Hk'. destruct Hk' as [H1 H2].
          rewrite Hout2 by exact H2. apply upd_ne. auto. }
    destruct G as (c' & m & E & Hi' & Hin & Hout). rewrite E. cbn. eexists. split; [reflexivity|].
    apply (uinv_ext _ _ _ _ Hi'); [|exact Hb]. intros k. cbn. destruct (decide (k ∈ l.*1)) as [Hd|Hd].
    + apply elem_of_list_fmap in Hd as ([k' o] & -> & Hk). cbn. rewrite (Hin _ _ Hk). symmetry. apply (Hat _ _ Hk).
    + rewrite Hout by exact Hd. apply Hoth, Hd.
  - destruct Hu as [Hb Hm]. eexists. split; [reflexivity|].
    split; [intros k; rewrite <- Hm; apply (proj1 Hi)|symmetry; exact Hb].
Qed.

(** *** Instances of the generic machine *)
Definition good (s : utxo_state) : Prop := True.
Lemma reads_db db s : utxo_db_is db s -> utxo_reads (db_view db) s. Proof. exact id. Qed.
Lemma db_good db s : utxo_db_is db s -> good s. Proof. intros _. exact I. Qed.
Lemma inv_good p d s : uinv p d s -> good s. Proof. intros _. exact I. Qed.
Lemma inv_empty p : good p -> uinv p cache_new p. Proof. intros _. apply uinv_empty. Qed.

Theorem utxo_layered db s0 cs : utxo_db_is db s0 -> fits_all utxo_step utxo_fits ((s0, []), []) cs ->
  let (m, os) := utxo_exec_all ((db, []), []) cs in
  let (sm, sos) := sexec_all utxo_step ((s0, []), []) cs in
  os = sos /\ utxo_reads (utxo_machine_view m) (top sm) /\ (m.2 = [] -> utxo_db_is m.1.1 (top sm)).
Proof.
  exact (layered_refinement _ _ _ _ _ _ _ _ _ _ _ _ _ undoes reads_cache reads_db db_good inv_good inv_empty
    op_refines undo_refines merge_refines db_merge_refines db s0 cs).
Qed.
Theorem utxo_layered_undo db s0 cs ns :
  utxo_db_is db s0 -> fits_all utxo_step utxo_fits ((s0, []), []) (cs ++ ns) -> neutral ns ->
  let m1 := (utxo_exec_all ((db, []), []) cs).1 in
  let m2 := utxo_exec_all m1 ns in
  Forall (fun o => o = Done) m2.2 -> exists s, utxo_reads (utxo_machine_view m1) s /\ utxo_reads (utxo_machine_view m2.1) s.
Proof.
  exact (layered_undo _ _ _ _ _ _ _ _ _ _ _ _ _ undoes reads_cache reads_db db_good inv_good inv_empty
    op_refines undo_refines merge_refines db_merge_refines db s0 cs ns).
Qed.
Theorem utxo_never_stuck db s0 cs : utxo_db_is db s0 -> fits_all utxo_step utxo_fits ((s0, []), []) cs ->
  Forall2 expected cs (utxo_exec_all ((db, []), []) cs).2.
Proof.
  exact (layered_never_stuck _ _ _ _ _ _ _ _ _ _ _ _ _ undoes reads_cache reads_db db_good inv_good inv_empty
    op_refines undo_refines merge_refines db_merge_refines db s0 cs).
Qed.
Theorem utxo_layered_steps db s0 cs fs :
  Forall forward fs -> utxo_db_is db s0 -> fits_all utxo_step utxo_fits ((s0, []), []) (cs ++ fs) ->
  let m1 := (utxo_exec_all ((db, []), []) cs).1 in
  let m2 := utxo_exec_all m1 fs in
  exists s1 s2, utxo_reads (utxo_machine_view m1) s1 /\ utxo_reads (utxo_machine_view m2.1) s2 /\ good s1 /\
    steps utxo_step s1 (accepted fs m2.2) = Ok s2.
Proof.
  exact (layered_steps _ _ _ _ _ _ _ _ _ _ _ _ _ undoes reads_cache reads_db db_good inv_good inv_empty
    op_refines undo_refines merge_refines db_merge_refines db s0 cs fs).
Qed.
Theorem utxo_layered_next db s0 cs o :
  utxo_db_is db s0 -> fits_all utxo_step utxo_fits ((s0, []), []) cs ->
  let m1 := (utxo_exec_all ((db, []), []) cs).1 in
  m1.2 <> [] -> (forall s, utxo_reads (utxo_machine_view m1) s -> utxo_fits s o) ->
  exists s, utxo_reads (utxo_machine_view m1) s /\
    (utxo_exec m1 (Do o)).2 = outcome_of (utxo_step s o) /\
    utxo_reads (utxo_machine_view (utxo_exec m1 (Do o)).1) (match utxo_step s o with Ok s' => s' | _ => s end).
Proof.
  exact (layered_next _ _ _ _ _ _ _ _ _ _ _ _ _ undoes reads_cache reads_db db_good inv_good inv_empty
    op_refines undo_refines merge_refines db_merge_refines db s0 cs o).
Qed.

(** *** No double spend *)
Lemma created_src src outs k : k ∈ map fst (created src outs) -> k.1 = src.
Proof. intros H. apply elem_of_list_fmap in H as ([k' o] & -> & H). apply created_keys in H as [H _]. exact H. Qed.

Lemma step_keeps_absent k s o s' : utxo_step s o = Ok s' -> ~ creates k o -> us_map s k = None -> us_map s' k = None.
Proof.
  intros Hs Hc Hk. destruct o as [k0 u ow|k0|k0|b|tx src|rt b h|tx src chk|outs src b chk]; cbn in Hs, Hc.
  - injection Hs as <-. cbn. rewrite upd_ne; auto.
  - destruct (us_map s k0); [|discriminate]. injection Hs as <-. cbn. unfold upd. case_decide; auto.
  - injection Hs as <-. exact Hk.
  - injection Hs as <-. exact Hk.
  - destruct (take_all _ _) as [m|] eqn:Et; [|discriminate]. injection Hs as <-. cbn.
    rewrite put_all_other; [|intros H; apply Hc; apply created_src in H; exact H].
    apply take_all_spec in Et as (_ & Hin & Hout).
    destruct (decide (k ∈ spent_by (tx_inputs tx))) as [Hd|Hd]; [apply Hin, Hd|]. rewrite Hout by exact Hd. exact Hk.
  - destruct (take_all _ _) as [m|] eqn:Et; [|discriminate]. destruct (forallb _ _); [|discriminate]. injection Hs as <-. cbn.
    rewrite put_all_other; [|intros H; apply Hc; apply created_src in H; exact H].
    apply take_all_spec in Et as (_ & Hin & Hout).
    destruct (decide (k ∈ spent_by (option_list (rt_inputs rt)))) as [Hd|Hd]; [apply Hin, Hd|]. rewrite Hout by exact Hd. exact Hk.
  - injection Hs as <-. cbn. rewrite put_all_other; [exact Hk|intros H; apply Hc; apply created_src in H; exact H].
  - injection Hs as <-. cbn. rewrite put_all_other; [exact Hk|]. intros H. apply Hc.
    rewrite map_map in H. apply elem_of_list_fmap in H as (io & -> & _). reflexivity.
Qed.
Lemma step_consumes_absent k s o : consumes k o -> us_map s k = None -> utxo_step s o = Err NotThere.
Proof.
  intros Hc Hk. destruct o as [k0 u ow|k0|k0|b|tx src|rt b h|tx src chk|outs src b chk]; cbn in Hc; try contradiction; cbn.
  - subst k0. rewrite Hk. reflexivity.
  - rewrite (take_all_none _ _ _ Hc Hk). reflexivity.
  - rewrite (take_all_none _ _ _ Hc Hk). reflexivity.
Qed.
(** After an accepted consumer the output is gone (unless the same operation creates it, which unique ids exclude). *)
Lemma step_consumed k s o s' : utxo_fits s o -> consumes k o -> utxo_step s o = Ok s' -> us_map s' k = None.
Proof.
  intros Hf Hc Hs. destruct o as [k0 u ow|k0|k0|b|tx src|rt b h|tx src chk|outs src b chk]; cbn in Hc; try contradiction; cbn in Hs, Hf.
  - subst k0. destruct (us_map s k); [|discriminate]. injection Hs as <-. apply upd_eq.
  - destruct (take_all _ _) as [m|] eqn:Et; [|discriminate]. injection Hs as <-.
    apply (take_put_facts _ _ _ _ src Et Hf (created_nodup _ _ _)). exact Hc.
  - destruct (take_all _ _) as [m|] eqn:Et; [|discriminate]. destruct (forallb _ _); [|discriminate]. injection Hs as <-.
    apply (take_put_facts _ _ _ _ _ Et (proj1 Hf) (created_nodup _ _ _)). exact Hc.
Qed.
Lemma steps_keep_absent k os s s' : steps utxo_step s os = Ok s' -> Forall (fun o => ~ creates k o) os ->
  us_map s k = None -> us_map s' k = None.
Proof.
  revert s. induction os as [|o os IH]; intros s Hs Hc Hk; cbn in Hs; [injection Hs as <-; exact Hk|].
  apply Forall_cons in Hc as [Hc1 Hc2]. destruct (utxo_step s o) as [s1| |] eqn:E; try discriminate.
  apply (IH s1 Hs Hc2). eapply step_keeps_absent; eassumption.
Qed.

Definition urel := rel (Undo := utxo_undo) uinv utxo_db_is undoes.
Lemma urel_all cs m sm : urel m sm -> fits_all utxo_step utxo_fits sm cs ->
  urel (utxo_exec_all m cs).1 (sexec_all utxo_step sm cs).1 /\ (utxo_exec_all m cs).2 = (sexec_all utxo_step sm cs).2.
Proof.
  exact (exec_all_refines _ _ _ _ _ _ _ _ _ _ _ _ _ undoes reads_cache reads_db db_good inv_good inv_empty
    op_refines undo_refines merge_refines db_merge_refines cs m sm).
Qed.
Lemma urel_one c m sm : urel m sm -> fits_command utxo_fits sm c ->
  urel (utxo_exec m c).1 (sexec utxo_step sm c).1 /\ (utxo_exec m c).2 = (sexec utxo_step sm c).2.
Proof.
  exact (exec_refines _ _ _ _ _ _ _ _ _ _ _ _ _ undoes reads_cache reads_db db_good inv_good inv_empty
    op_refines undo_refines merge_refines db_merge_refines m sm c).
Qed.
Lemma urel_reads m sm : urel m sm -> utxo_reads (utxo_machine_view m) (top sm).
Proof. exact (rel_reads _ _ _ _ _ _ undoes reads_cache reads_db db_good inv_good m sm). Qed.
Lemma urel_start db s0 : utxo_db_is db s0 -> urel ((db, []), []) ((s0, []), []).
Proof. apply rel_start. Qed.
Lemma urel_open m sm : urel m sm -> (m.2 = [] <-> sm.2 = []).
Proof.
  intros [H _]. destruct m as [[db l] ls], sm as [[b bl] sls]. cbn in *. inversion H; subst; split; congruence.
Qed.
Lemma sexec_all_snoc m cs c : (sexec_all utxo_step m (cs ++ [c])).1 = (sexec utxo_step (sexec_all utxo_step m cs).1 c).1.
Proof.
  rewrite sexec_all_app. cbn. destruct (sexec utxo_step _ c). reflexivity.
Qed.

Lemma no_double_spend db s0 cs o fs o' k :
  utxo_db_is db s0 -> fits_all utxo_step utxo_fits ((s0, []), []) (cs ++ Do o :: fs ++ [Do o']) ->
  consumes k o -> consumes k o' -> Forall forward fs -> (forall o'', Do o'' ∈ fs -> ~ creates k o'') ->
  let m1 := (utxo_exec_all ((db, []), []) cs).1 in
  let m2 := (utxo_exec m1 (Do o)).1 in
  let m3 := (utxo_exec_all m2 fs).1 in
  (utxo_exec m1 (Do o)).2 = Done -> m3.2 <> [] ->
  vw_utxo (utxo_machine_view m3) k = None /\ (utxo_exec m3 (Do o')).2 = Refused NotThere.
Proof.
  intros Hdb Hfit Hc Hc' Hfw Hno m1 m2 m3 Hdone Hopen.
  apply fits_all_app in Hfit as [Hf1 Hf2].
  destruct (urel_all cs _ _ (urel_start _ _ Hdb) Hf1) as [R1 _]. fold m1 in R1.
  set (sm1 := (sexec_all utxo_step ((s0, []), []) cs).1) in *.
  cbn [fits_all] in Hf2. destruct Hf2 as [Hfo Hf2]. apply fits_all_app in Hf2 as [Hf3 Hf4].
  destruct (urel_one _ _ _ R1 Hfo) as [R2 Eo]. fold m2 in R2. rewrite Eo in Hdone.
  destruct (urel_all fs _ _ R2 Hf3) as [R3 _]. fold m3 in R3.
  cbn [fits_all] in Hf4. destruct Hf4 as [Hfo' _].
  destruct (urel_one _ _ _ R3 Hfo') as [_ Eo']. rewrite Eo'.
  set (sm2 := (sexec utxo_step sm1 (Do o)).1) in *. set (sm3 := (sexec_all utxo_step sm2 fs).1) in *.
  assert (H2 : us_map (top sm2) k = None).
  { unfold sm2. destruct sm1 as [b [|[s log] ls]]; [cbn in Hdone; discriminate|]. cbn in Hdone, Hfo |- *.
    unfold fits_command in Hfo; cbn in Hfo.
    destruct (utxo_step s o) as [s'| |] eqn:Es; try discriminate Hdone. unfold top, top_level. cbn.
    eapply step_consumed; eassumption. }
  assert (H3 : us_map (top sm3) k = None).
  { pose proof (forward_steps utxo_step fs Hfw sm2) as Hst. fold sm3 in Hst.
    refine (steps_keep_absent k _ _ _ Hst _ H2). apply Forall_forall. intros o'' Ho''. apply Hno.
    clear -Ho''. revert Ho''. generalize (sexec_all utxo_step sm2 fs).2 as os.
    induction fs as [|c fs IH]; intros os H; cbn in H; [apply elem_of_nil in H; contradiction|].
    destruct c as [o1| | | |], os as [|[] os]; cbn in H; try (apply elem_of_nil in H; contradiction);
      try (right; eapply IH; exact H).
    apply elem_of_cons in H as [->|H]; [left|right; eapply IH; exact H]. }
  split; [rewrite (proj1 (urel_reads _ _ R3)); exact H3|].
  assert (Hne : sm3.2 <> []) by (intros H; apply Hopen; apply (urel_open _ _ R3); exact H).
  destruct sm3 as [b [|[s log] ls]]; [contradiction|]. unfold top, top_level in H3; cbn in H3 |- *.
  rewrite (step_consumes_absent _ _ _ Hc' H3). reflexivity.
Qed.

Lemma flush_lossless db s0 cs :
  utxo_db_is db s0 -> fits_all utxo_step utxo_fits ((s0, []), []) cs ->
  let m := (utxo_exec_all ((db, []), []) cs).1 in
  m.2 <> [] ->
  (utxo_exec m Flush).2 = Done /\ vw_best (utxo_machine_view (utxo_exec m Flush).1) = vw_best (utxo_machine_view m) /\
  forall k, vw_utxo (utxo_machine_view (utxo_exec m Flush).1) k = vw_utxo (utxo_machine_view m) k.
Proof.
  intros Hdb Hfit m Hne. destruct (urel_all cs _ _ (urel_start _ _ Hdb) Hfit) as [R _]. fold m in R.
  destruct (urel_one Flush _ _ R) as [R' E]; [destruct ((sexec_all utxo_step ((s0, []), []) cs).1.2) as [|[]]; exact I|].
  rewrite E. pose proof (urel_reads _ _ R) as [Hr1 Hr2]. pose proof (urel_reads _ _ R') as [Hr3 Hr4].
  assert (Hs : (sexec_all utxo_step ((s0, []), []) cs).1.2 <> []) by (intros H; apply Hne, (urel_open _ _ R), H).
  destruct (sexec_all utxo_step ((s0, []), []) cs).1 as [b [|l [|l2 ls]]]; [contradiction| |]; cbn in *;
  (split; [reflexivity|]; split; [rewrite Hr4, Hr2; reflexivity|intros k; rewrite Hr3, Hr1; reflexivity]).
Qed.
Lemma undo_restores db s0 cs ns :
  utxo_db_is db s0 -> fits_all utxo_step utxo_fits ((s0, []), []) (cs ++ ns) -> neutral ns ->
  let m1 := (utxo_exec_all ((db, []), []) cs).1 in
  Forall (fun o => o = Done) (utxo_exec_all m1 ns).2 ->
  vw_best (utxo_machine_view (utxo_exec_all m1 ns).1) = vw_best (utxo_machine_view m1) /\
  forall k, vw_utxo (utxo_machine_view (utxo_exec_all m1 ns).1) k = vw_utxo (utxo_machine_view m1) k.
Proof.
  intros Hdb Hf Hn m1 Hall. destruct (utxo_layered_undo _ _ _ _ Hdb Hf Hn Hall) as (s & [H1 H2] & [H3 H4]).
  split; [exact (eq_trans H4 (eq_sym H2))|]. intros k. exact (eq_trans (H3 k) (eq_sym (H1 k))).
Qed.
