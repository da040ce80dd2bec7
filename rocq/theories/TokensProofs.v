(** Token accounting refines its specification. *)
From Verif Require Import Base BaseProofs AmountModel DeltaModel DeltaProofs DeltaDbModel LayerProofs
  LayeredModel LayeredSpec LayeredProofs TokensModel TokensSpec.
Local Open Scope Z_scope.

Definition lock_wf (s : tok_state) : Prop := forall id t, ts_data s id = Some t -> tk_locked t = true -> tk_supply t = Lockable.
Definition tok_good (s : tok_state) : Prop := bounded (ts_supply s) /\ lock_wf s.

Definition tok_inv (p : tok_state) (d : tok_delta) (s : tok_state) : Prop :=
  dreads (ts_data p) (td_data d) (ts_data s) /\ amounts_wf (td_supply d) /\
  areads (ts_supply p) (td_supply d) (ts_supply s) /\ bounded (ts_supply p) /\ bounded (ts_supply s) /\ lock_wf s.

Definition same_supplies (s s' : tok_state) : Prop := forall k, ts_supply s k = ts_supply s' k.
Definition same_data (s s' : tok_state) : Prop := forall k, ts_data s k = ts_data s' k.

Definition data_undoes (id : N) (u : data_delta token_data) (s' s : tok_state) (chk : token_data -> bool) : Prop :=
  u = DataDelta (ts_data s' id) (ts_data s id) /\ (exists t, ts_data s' id = Some t /\ chk t = true) /\
  (forall k, k <> id -> ts_data s' k = ts_data s k) /\ same_supplies s' s /\ tok_good s.

Definition supply_undoes (id : N) (s' s : tok_state) : Prop :=
  (exists t, ts_data s' id = Some t /\ tk_locked t = false) /\
  (forall k, k <> id -> ts_supply s' k = ts_supply s k) /\ same_data s' s /\ tok_good s.

Definition tok_undoes (u : tok_undo) (s' s : tok_state) : Prop :=
  match u with
  | UndoIssue id u => data_undoes id u s' s (fun _ => true)
  | UndoMint id a => ts_supply s' id = (ts_supply s id + a)%N /\ supply_undoes id s' s
  | UndoUnmint id a => ts_supply s id = (ts_supply s' id + a)%N /\ supply_undoes id s' s
  | UndoLock id u => data_undoes id u s' s tk_locked
  | UndoFreeze id u => data_undoes id u s' s is_frozen
  | UndoUnfreeze id u | UndoChangeAuthority id u | UndoChangeUri id u => data_undoes id u s' s (fun t => negb (is_frozen t))
  end.

Lemma tok_inv_good p d s : tok_inv p d s -> tok_good s.
Proof. intros (_ & _ & _ & _ & H1 & H2). exact (conj H1 H2). Qed.

Lemma tok_reads_cache P p d s : tok_reads P p -> tok_inv p d s -> tok_reads (tok_cache_view P d) s.
Proof.
  intros HP (Hd & Hwf & Ha & Hp & Hs & Hl) id. destruct (HP id) as [H1 H2]. cbn. split.
  - unfold tok_get_data. pose proof (dreads_get _ _ _ id Hd) as H. rewrite H1. cbn.
    destruct (get_data (td_data d) id); congruence.
  - unfold tok_get_supply. rewrite H2. cbn. rewrite (areads_combine _ _ _ id Hp Hs Ha). reflexivity.
Qed.

(** Rewriting the record of [id]. *)
Lemma tok_set_data p d s id old new s' :
  tok_inv p d s -> ts_data s id = old ->
  ts_data s' id = new -> (forall k, k <> id -> ts_data s' k = ts_data s k) -> same_supplies s' s -> lock_wf s' ->
  exists d', tok_merge_data d id (DataDelta old new) = (d', Ok (DataDelta new old)) /\ tok_inv p d' s'.
Proof.
  intros (Hd & Hwf & Ha & Hp & Hs & Hl) Ho Hn Hk Hsup Hl'.
  destruct (dreads_set _ _ _ _ _ new Hd Ho) as (m' & Hm & Hr).
  unfold tok_merge_data. rewrite Hm. cbn. eexists. split; [reflexivity|].
  split; [|split; [exact Hwf|split; [|split; [exact Hp|split; [|exact Hl']]]]].
  - intros k. specialize (Hr k). cbn. unfold fupd in Hr.
    assert (ts_data s' k = if decide (id = k) then new else ts_data s k) as ->; [|exact Hr].
    destruct (decide (id = k)) as [<-|]; [exact Hn|]. apply Hk. congruence.
  - intros k. rewrite Hsup. apply Ha.
  - intros k. rewrite Hsup. apply Hs.
Qed.

Lemma tok_set_supply p d s s' m' id v :
  tok_inv p d s -> amounts_wf m' -> areads (ts_supply p) m' (fupd (ts_supply s) id v) -> bounded (fupd (ts_supply s) id v) ->
  ts_supply s' id = v -> (forall k, k <> id -> ts_supply s' k = ts_supply s k) -> same_data s' s ->
  tok_inv p (TokDelta (td_data d) m') s'.
Proof.
  intros (Hd & Hwf & Ha & Hp & Hs & Hl) W R B Hv Hk Hdat.
  assert (forall k, fupd (ts_supply s) id v k = ts_supply s' k) as E.
  { intros k. unfold fupd. destruct (decide (id = k)) as [<-|]; [congruence|]. symmetry. apply Hk. congruence. }
  split; [|split; [exact W|split; [|split; [exact Hp|split]]]].
  - intros k. rewrite Hdat. apply Hd.
  - intros k. rewrite <- E. apply R.
  - intros k. rewrite <- E. apply B.
  - intros k t. rewrite Hdat. apply Hl.
Qed.

Lemma tok_add p d s id a s' :
  tok_inv p d s -> Z.of_N (ts_supply s id + a) <= I128_MAX ->
  ts_supply s' id = (ts_supply s id + a)%N -> (forall k, k <> id -> ts_supply s' k = ts_supply s k) -> same_data s' s ->
  exists d', tok_add_supply d id a = (d', Ok tt) /\ tok_inv p d' s'.
Proof.
  intros Hi Hle Hv Hk Hdat. pose proof Hi as (Hd & Hwf & Ha & Hp & Hs & Hl).
  destruct (areads_add _ _ _ id a Hwf Hp Hs Ha Hle) as (m' & Hm & W & R & B).
  unfold tok_add_supply. rewrite Hm. cbn. eexists. split; [reflexivity|].
  exact (tok_set_supply _ _ _ _ _ _ _ Hi W R B Hv Hk Hdat).
Qed.

Lemma tok_sub p d s id a s' :
  tok_inv p d s -> (a <= ts_supply s id)%N ->
  ts_supply s' id = (ts_supply s id - a)%N -> (forall k, k <> id -> ts_supply s' k = ts_supply s k) -> same_data s' s ->
  exists d', tok_sub_supply d id a = (d', Ok tt) /\ tok_inv p d' s'.
Proof.
  intros Hi Hle Hv Hk Hdat. pose proof Hi as (Hd & Hwf & Ha & Hp & Hs & Hl).
  destruct (areads_sub _ _ _ id a Hwf Hp Hs Ha Hle) as (m' & Hm & W & R & B).
  unfold tok_sub_supply. rewrite Hm. cbn. eexists. split; [reflexivity|].
  exact (tok_set_supply _ _ _ _ _ _ _ Hi W R B Hv Hk Hdat).
Qed.

Lemma tok_read_data P p d s id : tok_reads P p -> tok_inv p d s -> tok_get_data P d id = Ok (ts_data s id).
Proof. intros HP Hi. apply (tok_reads_cache _ _ _ _ HP Hi id). Qed.
Lemma tok_read_supply P p d s id : tok_reads P p -> tok_inv p d s -> tok_get_supply P d id = Ok (ts_supply s id).
Proof. intros HP Hi. apply (tok_reads_cache _ _ _ _ HP Hi id). Qed.

Lemma u128_i128 a : Z.of_N a <= I128_MAX -> (a <= U128_MAX)%N.
Proof. unfold I128_MAX, U128_MAX. lia. Qed.

Lemma put_token_eq s id t : ts_data (put_token s id t) id = Some t.
Proof. cbn. destruct (decide (id = id)); congruence. Qed.
Lemma put_token_ne s id t k : k <> id -> ts_data (put_token s id t) k = ts_data s k.
Proof. intros H. cbn. destruct (decide (id = k)); congruence. Qed.
Lemma put_supply_eq s id a : ts_supply (put_supply s id a) id = a.
Proof. cbn. destruct (decide (id = id)); congruence. Qed.
Lemma put_supply_ne s id a k : k <> id -> ts_supply (put_supply s id a) k = ts_supply s k.
Proof. intros H. cbn. destruct (decide (id = k)); congruence. Qed.
Lemma put_token_lock_wf s id t : lock_wf s -> (tk_locked t = true -> tk_supply t = Lockable) -> lock_wf (put_token s id t).
Proof.
  intros Hs Ht k t' H. destruct (decide (k = id)) as [->|Hne].
  - rewrite put_token_eq in H. injection H as <-. exact Ht.
  - rewrite put_token_ne in H by exact Hne. apply (Hs _ _ H).
Qed.

Lemma step_data p d s id old t (mk : data_delta token_data -> tok_undo) (chk : token_data -> bool) :
  tok_inv p d s -> ts_data s id = old -> chk t = true -> (tk_locked t = true -> tk_supply t = Lockable) ->
  (forall u s' s, tok_undoes (mk u) s' s <-> data_undoes id u s' s chk) ->
  exists d' u, ret_undo mk (tok_merge_data d id (DataDelta old (Some t))) = (d', Ok u) /\
    tok_inv p d' (put_token s id t) /\ tok_undoes u (put_token s id t) s.
Proof.
  intros Hi Ho Hc Hl Hu.
  destruct (tok_set_data _ _ _ _ _ (Some t) (put_token s id t) Hi Ho) as (d' & Hm & Hi').
  - apply put_token_eq.
  - apply put_token_ne.
  - intros k. reflexivity.
  - apply put_token_lock_wf; [apply (tok_inv_good _ _ _ Hi)|exact Hl].
  - unfold ret_undo. rewrite Hm. cbn [fst snd rmap]. do 2 eexists. split; [reflexivity|]. split; [exact Hi'|].
    apply Hu. split; [|split; [|split; [|split]]].
    + rewrite put_token_eq, Ho. reflexivity.
    + exists t. rewrite put_token_eq. auto.
    + apply put_token_ne.
    + intros k. reflexivity.
    + apply (tok_inv_good _ _ _ Hi).
Qed.

Lemma tok_op_refines P p d s o : tok_reads P p -> tok_inv p d s -> tok_fits s o ->
  match tok_step s o with
  | Ok s' => exists d' u, tok_run P d o = (d', Ok u) /\ tok_inv p d' s' /\ tok_undoes u s' s
  | Err e => exists d', tok_run P d o = (d', Err e) /\ tok_inv p d' s
  | Panic => False
  end.
Proof.
  intros HP Hi Hfit.
  pose proof (fun id => tok_read_data _ _ _ _ id HP Hi) as RD. pose proof (fun id => tok_read_supply _ _ _ _ id HP Hi) as RS.
  pose proof (tok_inv_good _ _ _ Hi) as [Hb Hlw].
  destruct o as [id data|id a|id a|id|id u|id|id a|id uri]; cbn [tok_step tok_run].
  - (* issue *)
    unfold issue_token. rewrite RD. cbn [on_ok]. destruct (ts_data s id) as [t|] eqn:Ht; [eauto|].
    rewrite RS. cbn [on_ok].
    destruct (decide (ts_supply s id = 0%N)) as [Hz|Hz]; destruct (N.ltb_spec 0 (ts_supply s id)); try lia; [|eauto].
    apply (step_data _ _ _ _ _ _ _ (fun _ => true) Hi Ht); [reflexivity| |reflexivity].
    cbn in Hfit. congruence.
  - (* mint *)
    unfold mint_tokens. rewrite RD. cbn [rbind]. destruct (ts_data s id) as [t|] eqn:Ht; cbn [ok_or rbind on_ok]; [|eauto].
    unfold is_frozen. cbn [tok_fits tok_step] in Hfit. rewrite Ht in Hfit. specialize (Hlw _ _ Ht).
    assert (Hadd : tk_locked t = false -> Z.of_N (ts_supply s id + a) <= I128_MAX ->
      exists d' u, ret_undo (fun _ => UndoMint id a) (tok_add_supply d id a) = (d', Ok u) /\
      tok_inv p d' (put_supply s id (ts_supply s id + a)) /\ tok_undoes u (put_supply s id (ts_supply s id + a)) s).
    { intros Hl Hle. destruct (tok_add _ _ _ id a (put_supply s id (ts_supply s id + a)) Hi Hle) as (d' & Hm & Hi').
      - apply put_supply_eq.
      - apply put_supply_ne.
      - intros k. reflexivity.
      - unfold ret_undo. rewrite Hm. cbn [fst snd rmap].
        do 2 eexists. split; [reflexivity|]. split; [exact Hi'|]. split; [apply put_supply_eq|].
        split; [exists t; split; assumption|]. split; [apply put_supply_ne|].
        split; [intros k; reflexivity|]. apply (tok_inv_good _ _ _ Hi). }
    destruct (tk_frozen t) as [f|f] eqn:Hf; cbn [on_ok]; [|eauto].
    destruct (tk_supply t) as [cap| |] eqn:Hsup.
    + rewrite RS. cbn [rbind]. unfold amount_add, checked_add.
      destruct (decide (U128_MAX < ts_supply s id + a)%N); destruct (N.leb_spec (ts_supply s id + a) U128_MAX); try lia.
      { cbn. eauto. }
      cbn [ok_or rbind].
      destruct (decide (ts_supply s id + a <= cap)%N); destruct (N.ltb_spec cap (ts_supply s id + a)); try lia; cbn [on_ok].
      * apply Hadd.
        -- destruct (tk_locked t); [discriminate Hlw; reflexivity|reflexivity].
        -- specialize (Hfit _ eq_refl). rewrite put_supply_eq in Hfit. exact Hfit.
      * eauto.
    + destruct (tk_locked t); cbn [on_ok]; [eauto|]. apply Hadd; [reflexivity|].
      specialize (Hfit _ eq_refl). rewrite put_supply_eq in Hfit. exact Hfit.
    + apply Hadd.
      * destruct (tk_locked t); [discriminate Hlw; reflexivity|reflexivity].
      * specialize (Hfit _ eq_refl). rewrite put_supply_eq in Hfit. exact Hfit.
  - (* unmint *)
    unfold unmint_tokens. rewrite RD. cbn [rbind]. destruct (ts_data s id) as [t|] eqn:Ht; cbn [ok_or rbind on_ok]; [|eauto].
    unfold is_frozen. destruct (tk_locked t) eqn:Hl; cbn [on_ok]; [eauto|].
    destruct (tk_frozen t) as [f|f] eqn:Hf; cbn [on_ok]; [|eauto].
    rewrite RS. cbn [rbind].
    destruct (decide (a <= ts_supply s id)%N) as [Hle|Hle]; destruct (N.ltb_spec (ts_supply s id) a); try lia; cbn [on_ok]; [|eauto].
    destruct (tok_sub _ _ _ id a (put_supply s id (ts_supply s id - a)) Hi Hle) as (d' & Hm & Hi').
    + apply put_supply_eq.
    + apply put_supply_ne.
    + intros k. reflexivity.
    + unfold ret_undo. rewrite Hm. cbn [fst snd rmap].
      do 2 eexists. split; [reflexivity|]. split; [exact Hi'|]. split; [rewrite put_supply_eq; lia|].
      split; [exists t; split; assumption|]. split; [apply put_supply_ne|].
      split; [intros k; reflexivity|]. apply (tok_inv_good _ _ _ Hi).
  - (* lock *)
    unfold lock_circulating_supply. rewrite RD. cbn [rbind].
    destruct (ts_data s id) as [t|] eqn:Ht; cbn [ok_or rbind on_ok]; [|eauto].
    unfold is_frozen, try_lock. destruct (tk_locked t) eqn:Hl; cbn [on_ok]; [eauto|].
    destruct (tk_frozen t) as [f|f] eqn:Hf; cbn [on_ok]; [|eauto].
    destruct (tk_supply t) as [cap| |] eqn:Hsup; cbn [ok_or rbind on_ok]; [eauto| |eauto].
    apply (step_data _ _ _ _ _ _ _ tk_locked Hi Ht); reflexivity.
  - (* freeze *)
    unfold freeze_token. rewrite RD. cbn [rbind].
    destruct (ts_data s id) as [t|] eqn:Ht; cbn [ok_or rbind on_ok]; [|eauto].
    unfold is_frozen, try_freeze, can_be_frozen.
    destruct (tk_frozen t) as [[]|f] eqn:Hf; cbn [ok_or rbind on_ok]; [|eauto|eauto].
    apply (step_data _ _ _ _ _ _ _ is_frozen Hi Ht); [reflexivity| |reflexivity]. apply (Hlw _ _ Ht).
  - (* unfreeze *)
    unfold unfreeze_token. rewrite RD. cbn [rbind].
    destruct (ts_data s id) as [t|] eqn:Ht; cbn [ok_or rbind on_ok]; [|eauto].
    unfold is_frozen, try_unfreeze, can_be_unfrozen.
    destruct (tk_frozen t) as [f|[]] eqn:Hf; cbn [negb ok_or rbind on_ok]; [eauto| |eauto].
    apply (step_data _ _ _ _ _ _ _ (fun t => negb (is_frozen t)) Hi Ht); [reflexivity| |reflexivity]. apply (Hlw _ _ Ht).
  - (* change authority *)
    unfold change_authority. rewrite RD. cbn [rbind].
    destruct (ts_data s id) as [t|] eqn:Ht; cbn [ok_or rbind on_ok]; [|eauto].
    unfold is_frozen, change_authority_data. destruct (tk_frozen t) as [f|f] eqn:Hf; cbn [on_ok]; [|eauto].
    apply (step_data _ _ _ _ _ _ _ (fun t => negb (is_frozen t)) Hi Ht); [reflexivity| |reflexivity]. apply (Hlw _ _ Ht).
  - (* change uri *)
    unfold change_metadata_uri. rewrite RD. cbn [rbind].
    destruct (ts_data s id) as [t|] eqn:Ht; cbn [ok_or rbind on_ok]; [|eauto].
    unfold is_frozen, change_uri_data. destruct (tk_frozen t) as [f|f] eqn:Hf; cbn [on_ok]; [|eauto].
    apply (step_data _ _ _ _ _ _ _ (fun t => negb (is_frozen t)) Hi Ht); [reflexivity| |reflexivity]. apply (Hlw _ _ Ht).
Qed.

(** The cache is unchanged when an operation is refused. *)
Lemma tok_undo_merge_eq c id u : tok_undo_merge_data c id u = ret_undo (fun _ => tt) (tok_merge_data c id u).
Proof.
  unfold tok_undo_merge_data, tok_merge_data, undo_merge_delta_data_element, ret_undo.
  destruct (merge_delta_data_element (td_data c) id u) as [m r]. destruct r; reflexivity.
Qed.

Lemma undo_data P p d s' u s id chk f :
  tok_reads P p -> tok_inv p d s' -> data_undoes id u s' s chk -> (forall t, chk t = true -> f t = Ok tt) ->
  exists d', on_ok d (undo_check P d id f) (fun _ => tok_undo_merge_data d id u) = (d', Ok tt) /\ tok_inv p d' s.
Proof.
  intros HP Hi (-> & (t & Ht & Hc) & Hk & Hsup & Hg) Hf. unfold undo_check. rewrite (tok_read_data _ _ _ _ _ HP Hi), Ht.
  cbn [rbind ok_or on_ok]. rewrite (Hf _ Hc). cbn [on_ok]. rewrite tok_undo_merge_eq.
  destruct (tok_set_data _ _ _ id (Some t) (ts_data s id) s Hi Ht) as (d' & Hm & Hi').
  - reflexivity.
  - intros k Hne. symmetry. apply Hk, Hne.
  - intros k. symmetry. apply Hsup.
  - apply Hg.
  - unfold ret_undo. rewrite Hm. cbn. eauto.
Qed.

Lemma tok_undo_refines P p d s' u s : tok_reads P p -> tok_inv p d s' -> tok_undoes u s' s ->
  exists d', undo_token_op P d u = (d', Ok tt) /\ tok_inv p d' s.
Proof.
  intros HP Hi Hu. destruct u as [id u|id a|id a|id u|id u|id u|id u|id u]; cbn [tok_undoes undo_token_op] in *.
  - apply (undo_data _ _ _ _ _ _ _ _ _ HP Hi Hu). reflexivity.
  - destruct Hu as (Hv & (t & Ht & Hl) & Hk & Hdat & Hg). unfold undo_check. rewrite (tok_read_data _ _ _ _ _ HP Hi), Ht.
    cbn [rbind ok_or on_ok]. rewrite Hl. cbn [on_ok].
    destruct (tok_sub _ _ _ id a s Hi) as (d' & Hm & Hi').
    + lia.
    + lia.
    + intros k Hne. symmetry. apply Hk, Hne.
    + intros k. symmetry. apply Hdat.
    + rewrite Hm. eauto.
  - destruct Hu as (Hv & (t & Ht & Hl) & Hk & Hdat & Hg). unfold undo_check. rewrite (tok_read_data _ _ _ _ _ HP Hi), Ht.
    cbn [rbind ok_or on_ok]. rewrite Hl. cbn [on_ok].
    destruct (tok_add _ _ _ id a s Hi) as (d' & Hm & Hi').
    + rewrite <- Hv. apply Hg.
    + lia.
    + intros k Hne. symmetry. apply Hk, Hne.
    + intros k. symmetry. apply Hdat.
    + rewrite Hm. eauto.
  - apply (undo_data _ _ _ _ _ _ _ _ _ HP Hi Hu). intros t ->. reflexivity.
  - apply (undo_data _ _ _ _ _ _ _ _ _ HP Hi Hu). intros t ->. reflexivity.
  - apply (undo_data _ _ _ _ _ _ _ _ _ HP Hi Hu). intros t Ht. apply negb_true_iff in Ht. rewrite Ht. reflexivity.
  - apply (undo_data _ _ _ _ _ _ _ _ _ HP Hi Hu). intros t Ht. apply negb_true_iff in Ht. rewrite Ht. reflexivity.
  - apply (undo_data _ _ _ _ _ _ _ _ _ HP Hi Hu). intros t Ht. apply negb_true_iff in Ht. rewrite Ht. reflexivity.
Qed.

Lemma tok_merge_refines p d s e t : tok_inv p d s -> tok_inv s e t ->
  exists d' u, tok_merge d e = (d', Ok u) /\ tok_inv p d' t.
Proof.
  intros (Hd & Hwf & Ha & Hp & Hs & Hl) (Hd2 & Hwf2 & Ha2 & _ & Ht & Hl2).
  destruct (dreads_merge _ _ _ _ _ Hd Hd2) as (m & Hm & Hr).
  destruct (areads_merge _ _ _ _ _ Hwf Hwf2 Hp Ht Ha Ha2) as (m2 & Hm2 & W & R).
  unfold tok_merge. rewrite Hm. cbn. rewrite Hm2. cbn. do 2 eexists. split; [reflexivity|].
  exact (conj Hr (conj W (conj R (conj Hp (conj Ht Hl2))))).
Qed.

Definition tok_db_inv (db : tok_db) (s : tok_state) : Prop := tok_db_is db s.

Lemma tok_db_merge_refines db p d s : tok_db_is db p -> tok_inv p d s ->
  exists db' u, tok_db_merge db d = (db', Ok u) /\ tok_db_is db' s.
Proof.
  intros (H1 & H2 & H3 & H4 & H5) (Hd & Hwf & Ha & Hp & Hs & Hl).
  destruct (dreads_flush_db (tdb_data db) (td_data d) (ts_data s)) as (m & Hm & Hr).
  { intros k. specialize (Hd k). rewrite H1. exact Hd. }
  destruct (areads_flush_db (tdb_supply db) (td_supply d) (ts_supply s) Hwf) as (m2 & Hm2 & Hr2 & Hc2).
  - intros k. unfold db_val. rewrite H2. apply H4.
  - exact Hs.
  - intros k. unfold db_val. rewrite H2. apply Ha.
  - exact H3.
  - unfold tok_db_merge. rewrite Hm. cbn. rewrite Hm2. cbn. do 2 eexists. split; [reflexivity|].
    split; [exact Hr|split; [exact Hr2|split; [exact Hc2|split; [exact Hs|exact Hl]]]].
Qed.

Lemma tok_db_good db s : tok_db_is db s -> tok_good s.
Proof. intros (_ & _ & _ & H4 & H5). exact (conj H4 H5). Qed.
Lemma tok_reads_db db s : tok_db_is db s -> tok_reads (tok_db_view db) s.
Proof. intros (H1 & H2 & _) id. cbn. rewrite H1, H2. auto. Qed.
Lemma tok_inv_empty p : tok_good p -> tok_inv p tok_delta_new p.
Proof.
  intros [Hb Hl]. split; [apply dreads_empty|split; [apply amounts_wf_empty|split; [apply areads_empty|]]].
  exact (conj Hb (conj Hb Hl)).
Qed.

Theorem tok_layered db s0 cs : tok_db_is db s0 -> fits_all tok_step tok_fits ((s0, []), []) cs ->
  let (m, os) := tok_exec_all ((db, []), []) cs in
  let (sm, sos) := sexec_all tok_step ((s0, []), []) cs in
  os = sos /\ tok_reads (tok_machine_view m) (top sm) /\ (m.2 = [] -> tok_db_is m.1.1 (top sm)).
Proof.
  exact (layered_refinement _ _ _ _ _ _ _ _ _ _ _ _ _ tok_undoes tok_reads_cache tok_reads_db tok_db_good tok_inv_good
    tok_inv_empty tok_op_refines tok_undo_refines tok_merge_refines tok_db_merge_refines db s0 cs).
Qed.

Theorem tok_layered_undo db s0 cs ns :
  tok_db_is db s0 -> fits_all tok_step tok_fits ((s0, []), []) (cs ++ ns) -> neutral ns ->
  let m1 := (tok_exec_all ((db, []), []) cs).1 in
  let m2 := tok_exec_all m1 ns in
  Forall (fun o => o = Done) m2.2 -> exists s, tok_reads (tok_machine_view m1) s /\ tok_reads (tok_machine_view m2.1) s.
Proof.
  exact (layered_undo _ _ _ _ _ _ _ _ _ _ _ _ _ tok_undoes tok_reads_cache tok_reads_db tok_db_good tok_inv_good
    tok_inv_empty tok_op_refines tok_undo_refines tok_merge_refines tok_db_merge_refines db s0 cs ns).
Qed.

Theorem tok_never_stuck db s0 cs :
  tok_db_is db s0 -> fits_all tok_step tok_fits ((s0, []), []) cs ->
  Forall2 expected cs (tok_exec_all ((db, []), []) cs).2.
Proof.
  exact (layered_never_stuck _ _ _ _ _ _ _ _ _ _ _ _ _ tok_undoes tok_reads_cache tok_reads_db tok_db_good tok_inv_good
    tok_inv_empty tok_op_refines tok_undo_refines tok_merge_refines tok_db_merge_refines db s0 cs).
Qed.

Theorem tok_invariant (I : tok_state -> Prop) db s0 cs :
  (forall s o s', I s -> tok_step s o = Ok s' -> I s') -> I s0 ->
  tok_db_is db s0 -> fits_all tok_step tok_fits ((s0, []), []) cs ->
  exists s, I s /\ tok_reads (tok_machine_view (tok_exec_all ((db, []), []) cs).1) s.
Proof.
  exact (layered_invariant _ _ _ _ _ _ _ _ _ _ _ _ _ tok_undoes tok_reads_cache tok_reads_db tok_db_good tok_inv_good
    tok_inv_empty tok_op_refines tok_undo_refines tok_merge_refines tok_db_merge_refines I db s0 cs).
Qed.

Theorem tok_forward (I : tok_state -> Prop) db s0 cs fs :
  (forall s o s', I s -> tok_step s o = Ok s' -> I s') -> Forall forward fs ->
  tok_db_is db s0 -> fits_all tok_step tok_fits ((s0, []), []) (cs ++ fs) ->
  let m1 := (tok_exec_all ((db, []), []) cs).1 in
  exists s1 s2, tok_reads (tok_machine_view m1) s1 /\ tok_reads (tok_machine_view (tok_exec_all m1 fs).1) s2 /\ (I s1 -> I s2).
Proof.
  exact (layered_forward _ _ _ _ _ _ _ _ _ _ _ _ _ tok_undoes tok_reads_cache tok_reads_db tok_db_good tok_inv_good
    tok_inv_empty tok_op_refines tok_undo_refines tok_merge_refines tok_db_merge_refines I db s0 cs fs).
Qed.

Theorem tok_next db s0 cs o :
  tok_db_is db s0 -> fits_all tok_step tok_fits ((s0, []), []) cs ->
  let m1 := (tok_exec_all ((db, []), []) cs).1 in
  m1.2 <> [] -> (forall s, tok_reads (tok_machine_view m1) s -> tok_fits s o) ->
  exists s, tok_reads (tok_machine_view m1) s /\
    (tok_exec m1 (Do o)).2 = outcome_of (tok_step s o) /\
    tok_reads (tok_machine_view (tok_exec m1 (Do o)).1) (match tok_step s o with Ok s' => s' | _ => s end).
Proof.
  exact (layered_next _ _ _ _ _ _ _ _ _ _ _ _ _ tok_undoes tok_reads_cache tok_reads_db tok_db_good tok_inv_good
    tok_inv_empty tok_op_refines tok_undo_refines tok_merge_refines tok_db_merge_refines db s0 cs o).
Qed.

(** *** Consequences of the rules *)
Lemma reads_agree v s t : tok_reads v s -> tok_reads v t -> tok_same s t.
Proof. intros H1 H2 id. destruct (H1 id), (H2 id). split; congruence. Qed.

Ltac step_cases :=
  repeat match goal with
  | H : Err _ = Ok _ |- _ => discriminate H
  | H : Ok _ = Ok _ |- _ => injection H as <-
  | H : match ?x with _ => _ end = Ok _ |- _ => destruct x eqn:?
  | H : (if ?x then _ else _) = Ok _ |- _ => destruct x eqn:?
  end.

Lemma caps_step s o s' : caps_respected s -> tok_step s o = Ok s' -> caps_respected s'.
Proof.
  intros HI Hstep id0 t0 cap0 H1 H2. specialize (HI id0).
  destruct o as [id data|id a|id a|id|id u|id|id a|id uri]; cbn in Hstep; step_cases; cbn in H1 |- *;
    destruct (decide (id = id0)) as [<-|]; try (eapply HI; eassumption);
    simplify_eq; cbn in *; simplify_eq; try (specialize (HI _ _ eq_refl H2)); try (specialize (HI _ _ Heqo H2)); try congruence; try lia.
Qed.

Definition locked_at (id : N) (n : N) (s : tok_state) : Prop :=
  ts_supply s id = n /\ exists t, ts_data s id = Some t /\ tk_locked t = true /\ tk_supply t = Lockable.

Lemma locked_step id n s o s' : locked_at id n s -> tok_step s o = Ok s' -> locked_at id n s'.
Proof.
  intros (Hn & t & Ht & Hl & Hsup) Hstep. unfold locked_at.
  destruct o as [id0 data|id0 a|id0 a|id0|id0 u|id0|id0 a|id0 uri]; cbn in Hstep; step_cases; cbn;
    destruct (decide (id0 = id)) as [<-|]; simplify_eq; try (split; [reflexivity|]; eauto); try congruence.
  all: eexists; split; [reflexivity|]; cbn; split; assumption.
Qed.

Definition frozen_forever_at (id : N) (s : tok_state) : Prop :=
  exists t, ts_data s id = Some t /\ tk_frozen t = Frozen false.

Lemma frozen_forever_step id s o s' : frozen_forever_at id s -> tok_step s o = Ok s' -> frozen_forever_at id s'.
Proof.
  intros (t & Ht & Hl) Hstep. unfold frozen_forever_at.
  destruct o as [id0 data|id0 a|id0 a|id0|id0 u|id0|id0 a|id0 uri]; cbn in Hstep; step_cases; cbn;
    try (destruct (decide (id0 = id)) as [<-|]); simplify_eq; eauto; congruence.
Qed.

Definition unfreezable_at (id : N) (s : tok_state) : Prop :=
  exists t, ts_data s id = Some t /\ tk_frozen t = NotFrozen false.

Lemma unfreezable_step id s o s' : unfreezable_at id s -> tok_step s o = Ok s' -> unfreezable_at id s'.
Proof.
  intros (t & Ht & Hl) Hstep. unfold unfreezable_at.
  destruct o as [id0 data|id0 a|id0 a|id0|id0 u|id0|id0 a|id0 uri]; cbn in Hstep; step_cases; cbn;
    try (destruct (decide (id0 = id)) as [<-|]); simplify_eq; eauto; try congruence.
  all: eexists; split; [reflexivity|]; cbn; congruence.
Qed.

(** A refused operation leaves the cache exactly as it was, whatever the parent answers. *)
Lemma tok_merge_data_read P c id d (o : option token_data) :
  tok_get_data P c id = Ok o -> d_old d = o ->
  exists c', tok_merge_data c id d = (c', Ok (invert d)).
Proof.
  unfold tok_get_data, get_data, tok_merge_data, merge_delta_data_element. intros H Hd.
  destruct (td_data c !! id) as [e|]; [|eauto].
  assert (d_new e = o) as He by (destruct (d_new e); congruence).
  assert (combine_delta_data e d = Ok (DataDelta (d_old e) (d_new d))) as ->.
  { apply combine_delta_data_ok. split; [congruence|reflexivity]. }
  eauto.
Qed.

Lemma tok_run_refused P c o c' e : tok_run P c o = (c', Err e) -> c' = c.
Proof.
  assert (Hm : forall id d old (mk : data_delta token_data -> tok_undo), tok_get_data P c id = Ok old -> d_old d = old ->
    ret_undo mk (tok_merge_data c id d) = (c', Err e) -> c' = c).
  { intros id d old mk H1 H2 H. destruct (tok_merge_data_read _ _ _ _ _ H1 H2) as [c1 Hc]. unfold ret_undo in H.
    rewrite Hc in H. discriminate H. }
  destruct o as [id data|id a|id a|id|id u|id|id a|id uri]; cbn [tok_run].
  - unfold issue_token. destruct (tok_get_data P c id) as [[t|]| |] eqn:Hd; cbn [on_ok]; try congruence.
    destruct (tok_get_supply P c id); cbn [on_ok]; try congruence. destruct (0 <? a)%N; [congruence|].
    apply (Hm _ _ None); [exact Hd|reflexivity].
  - unfold mint_tokens. match goal with |- context [on_ok c ?x _] => destruct x end; cbn [on_ok]; try congruence.
    unfold ret_undo, tok_add_supply. destruct (add_unsigned (td_supply c) id a) as [m r] eqn:Ha.
    destruct (add_unsigned_fail _ _ _ _ _ Ha) as [->|[-> [x ->]]]; cbn; [discriminate|].
    intros [= <- <-]. destruct c; reflexivity.
  - unfold unmint_tokens. match goal with |- context [on_ok c ?x _] => destruct x end; cbn [on_ok]; try congruence.
    unfold ret_undo, tok_sub_supply. destruct (sub_unsigned (td_supply c) id a) as [m r] eqn:Ha.
    destruct (sub_unsigned_fail _ _ _ _ _ Ha) as [->|[-> [x ->]]]; cbn; [discriminate|].
    intros [= <- <-]. destruct c; reflexivity.
  - unfold lock_circulating_supply. destruct (tok_get_data P c id) as [[t|]| |] eqn:Hd; cbn [rbind ok_or on_ok]; try congruence.
    destruct (tk_locked t); cbn [on_ok]; [congruence|]. destruct (is_frozen t); cbn [on_ok]; [congruence|].
    destruct (try_lock t); cbn [rbind ok_or on_ok]; [|congruence]. apply (Hm _ _ (Some t)); [exact Hd|reflexivity].
  - unfold freeze_token. destruct (tok_get_data P c id) as [[t|]| |] eqn:Hd; cbn [rbind ok_or on_ok]; try congruence.
    destruct (is_frozen t); cbn [on_ok]; [congruence|].
    destruct (try_freeze t u); cbn [rbind ok_or on_ok]; [|congruence]. apply (Hm _ _ (Some t)); [exact Hd|reflexivity].
  - unfold unfreeze_token. destruct (tok_get_data P c id) as [[t|]| |] eqn:Hd; cbn [rbind ok_or on_ok]; try congruence.
    destruct (is_frozen t); cbn [negb on_ok]; [|congruence].
    destruct (try_unfreeze t); cbn [rbind ok_or on_ok]; [|congruence]. apply (Hm _ _ (Some t)); [exact Hd|reflexivity].
  - unfold change_authority. destruct (tok_get_data P c id) as [[t|]| |] eqn:Hd; cbn [rbind ok_or on_ok]; try congruence.
    destruct (is_frozen t); cbn [on_ok]; [congruence|]. apply (Hm _ _ (Some t)); [exact Hd|reflexivity].
  - unfold change_metadata_uri. destruct (tok_get_data P c id) as [[t|]| |] eqn:Hd; cbn [rbind ok_or on_ok]; try congruence.
    destruct (is_frozen t); cbn [on_ok]; [congruence|]. apply (Hm _ _ (Some t)); [exact Hd|reflexivity].
Qed.

Lemma reads_answers v w s : tok_reads v s -> tok_reads w s -> tok_answers_agree v w.
Proof. intros H1 H2 id. destruct (H1 id) as [A B], (H2 id) as [C D]. rewrite A, B, C, D. repeat split; eexists; reflexivity. Qed.

Theorem undo_restores db s0 cs ns :
  tok_db_is db s0 -> fits_all tok_step tok_fits ((s0, []), []) (cs ++ ns) -> neutral ns ->
  let m1 := (tok_exec_all ((db, []), []) cs).1 in
  Forall (fun o => o = Done) (tok_exec_all m1 ns).2 ->
  forall id, tv_data (tok_machine_view (tok_exec_all m1 ns).1) id = tv_data (tok_machine_view m1) id /\
             tv_supply (tok_machine_view (tok_exec_all m1 ns).1) id = tv_supply (tok_machine_view m1) id.
Proof.
  intros Hdb Hf Hn m1 Hall id. destruct (tok_layered_undo _ _ _ _ Hdb Hf Hn Hall) as (s & H1 & H2).
  destruct (H1 id) as [A B], (H2 id) as [C D]. fold m1 in A, B, C, D. rewrite A, B, C, D. auto.
Qed.

Theorem fixed_cap db s0 cs :
  tok_db_is db s0 -> caps_respected s0 -> fits_all tok_step tok_fits ((s0, []), []) cs ->
  let v := tok_machine_view (tok_exec_all ((db, []), []) cs).1 in
  forall id t cap, tv_data v id = Ok (Some t) -> tk_supply t = Fixed cap ->
  exists n, tv_supply v id = Ok n /\ (n <= cap)%N.
Proof.
  intros Hdb H0 Hf v id t cap Ht Hc. destruct (tok_invariant caps_respected _ _ _ caps_step H0 Hdb Hf) as (s & HI & Hr).
  destruct (Hr id) as [A B]. fold v in A, B. exists (ts_supply s id). split; [exact B|]. apply (HI id t); [congruence|exact Hc].
Qed.

Theorem locked_supply_constant db s0 cs fs :
  tok_db_is db s0 -> fits_all tok_step tok_fits ((s0, []), []) (cs ++ fs) -> Forall forward fs ->
  let m1 := (tok_exec_all ((db, []), []) cs).1 in
  let v1 := tok_machine_view m1 in let v2 := tok_machine_view (tok_exec_all m1 fs).1 in
  forall id t, tv_data v1 id = Ok (Some t) -> tk_supply t = Lockable -> tk_locked t = true ->
  tv_supply v2 id = tv_supply v1 id /\ exists t', tv_data v2 id = Ok (Some t') /\ tk_locked t' = true.
Proof.
  intros Hdb Hf Hfw m1 v1 v2 id t Ht Hs Hl.
  assert (exists n, tv_supply v1 id = Ok n) as [n Hn].
  { destruct (tok_forward (fun _ => True) _ _ _ _ (fun _ _ _ _ _ => I) Hfw Hdb Hf) as (s1 & _ & H1 & _).
    exists (ts_supply s1 id). apply (H1 id). }
  destruct (tok_forward (locked_at id n) _ _ _ _ (locked_step id n) Hfw Hdb Hf) as (s1 & s2 & H1 & H2 & HI).
  destruct (H1 id) as [A B], (H2 id) as [C D]. fold m1 in A, B, C, D. fold v1 in A, B. fold v2 in C, D.
  destruct HI as (E1 & t' & E2 & E3 & _).
  - split; [congruence|]. exists t. split; [congruence|]. split; assumption.
  - split; [congruence|]. exists t'. split; [congruence|exact E3].
Qed.

Theorem frozen_forever db s0 cs fs :
  tok_db_is db s0 -> fits_all tok_step tok_fits ((s0, []), []) (cs ++ fs) -> Forall forward fs ->
  let m1 := (tok_exec_all ((db, []), []) cs).1 in
  let v1 := tok_machine_view m1 in let v2 := tok_machine_view (tok_exec_all m1 fs).1 in
  forall id t, tv_data v1 id = Ok (Some t) -> tk_frozen t = Frozen false ->
  exists t', tv_data v2 id = Ok (Some t') /\ tk_frozen t' = Frozen false.
Proof.
  intros Hdb Hf Hfw m1 v1 v2 id t Ht Hs.
  destruct (tok_forward (frozen_forever_at id) _ _ _ _ (frozen_forever_step id) Hfw Hdb Hf) as (s1 & s2 & H1 & H2 & HI).
  destruct (H1 id) as [A B], (H2 id) as [C D]. fold m1 in A, B, C, D. fold v1 in A, B. fold v2 in C, D.
  destruct HI as (t' & E2 & E3).
  - exists t. split; [congruence|exact Hs].
  - exists t'. split; [congruence|exact E3].
Qed.

Theorem not_freezable_forever db s0 cs fs :
  tok_db_is db s0 -> fits_all tok_step tok_fits ((s0, []), []) (cs ++ fs) -> Forall forward fs ->
  let m1 := (tok_exec_all ((db, []), []) cs).1 in
  let v1 := tok_machine_view m1 in let v2 := tok_machine_view (tok_exec_all m1 fs).1 in
  forall id t, tv_data v1 id = Ok (Some t) -> tk_frozen t = NotFrozen false ->
  exists t', tv_data v2 id = Ok (Some t') /\ tk_frozen t' = NotFrozen false.
Proof.
  intros Hdb Hf Hfw m1 v1 v2 id t Ht Hs.
  destruct (tok_forward (unfreezable_at id) _ _ _ _ (unfreezable_step id) Hfw Hdb Hf) as (s1 & s2 & H1 & H2 & HI).
  destruct (H1 id) as [A B], (H2 id) as [C D]. fold m1 in A, B, C, D. fold v1 in A, B. fold v2 in C, D.
  destruct HI as (t' & E2 & E3).
  - exists t. split; [congruence|exact Hs].
  - exists t'. split; [congruence|exact E3].
Qed.

Theorem frozen_rejects db s0 cs o id :
  tok_db_is db s0 -> fits_all tok_step tok_fits ((s0, []), []) cs ->
  let m1 := (tok_exec_all ((db, []), []) cs).1 in
  m1.2 <> [] -> op_on_frozen id o ->
  (exists t u, tv_data (tok_machine_view m1) id = Ok (Some t) /\ tk_frozen t = Frozen u) ->
  (exists e, (tok_exec m1 (Do o)).2 = Refused e) /\
  tok_answers_agree (tok_machine_view m1) (tok_machine_view (tok_exec m1 (Do o)).1).
Proof.
  intros Hdb Hf m1 Hne Hop (t & u & Ht & Hu).
  assert (Herr : forall s, tok_reads (tok_machine_view m1) s -> exists e, tok_step s o = Err e).
  { intros s Hr. destruct (Hr id) as [A B]. rewrite Ht in A. injection A as A.
    destruct o; cbn in Hop; try contradiction; subst; cbn; rewrite <- A; rewrite Hu; eauto.
    - destruct (tk_locked t); eauto.
    - destruct (tk_locked t); eauto. }
  destruct (tok_next db s0 cs o Hdb Hf Hne) as (s & H1 & H2 & H3).
  { intros s Hr. destruct (Herr _ Hr) as [e He]. unfold tok_fits. destruct o; trivial; try contradiction.
    intros s' Hs'. congruence. }
  fold m1 in H1, H2, H3. destruct (Herr _ H1) as [e He]. rewrite He in H2, H3. split; [exists e; exact H2|].
  apply (reads_answers _ _ _ H1 H3).
Qed.

Definition tok_fitsb (s : tok_state) (o : tok_op) : bool :=
  match o with
  | IssueToken _ d => negb (tk_locked d)
  | MintTokens id a => match tok_step s o with Ok s' => Z.of_N (ts_supply s' id) <=? I128_MAX | _ => true end
  | _ => true
  end.
Lemma tok_fitsb_sound s o : tok_fitsb s o = true -> tok_fits s o.
Proof.
  unfold tok_fitsb, tok_fits. destruct o; trivial.
  - apply negb_true_iff.
  - destruct (tok_step s (MintTokens id a)); try discriminate. intros H s' [= <-]. lia.
Qed.
