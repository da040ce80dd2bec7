(** The undo records of a verifier while it connects, and while it disconnects, one block: what UndoCacheProofs.v says about
    any use of the records, for these two uses; and that the stored records are determined by the table they stand for. *)
From Verif Require Import Base BaseProofs ChainModel RewardModel UndoCacheModel UndoCacheSpec UndoCacheProofs.

Section Records.
Context {B I O R D : Type} (K : block_kind B I O R D) (released : I -> O) (blockedf : (N -> option I) -> N -> Prop)
  (blocked : undo_table I R -> tx_source -> txid -> bool)
  (holds : B -> (N -> option I) -> option R -> Prop) (derived : B -> B -> Prop) (fresh : B -> Prop) (gone : B -> N -> Prop).
Context (L : kind_laws K released blockedf holds derived fresh gone).
Context (Hblocked : forall T s x, blocked T s x = true <-> blockedf (tx_of T s) x).
Notation table := (undo_table I R).
Notation inv := (UndoCacheProofs.inv K holds derived fresh gone).
Notation callspec := (call_spec K released blockedf blocked holds derived fresh gone L Hblocked).
Implicit Types (T Tb : table) (st : undo_stack B D).

(** The records in the database stand for a table. *)
Definition stored_is (m : gmap N D) T : Prop := base_ok K holds gone (ChainDb m) T false.
(** While connecting the block [b] over the table [Tb], and while disconnecting it with [ids] still to be taken *)
Definition recording (b : N) Tb st T : Prop :=
  ut_none Tb (SrcChain b) /\ exists added, inv st (USpec [ULayer T added ∅ ∅] Tb false).
Definition returning (b : N) (ids : list N) Tb st T : Prop :=
  exists taken gone_, inv st (USpec [ULayer T ∅ taken gone_] Tb false) /\ forall x, x ∈ ids -> (SrcChain b, x) ∉ gone_.

Lemma open_inv m T : stored_is m T -> inv (UndoStack [∅] (ChainDb m)) (USpec [ULayer T ∅ ∅ ∅] T false).
Proof.
  intros H. destruct (callspec (UndoStack [] (ChainDb m)) (USpec [] T false) UDerive H Logic.I) as [(st & o & E & _ & Hi)|(e & E & _)].
  - cbn in E. injection E as <- <-. exact Hi.
  - discriminate E.
Qed.
Lemma recording_open m T b : stored_is m T -> ut_none T (SrcChain b) -> recording b T (UndoStack [∅] (ChainDb m)) T.
Proof. intros H Hn. split; [exact Hn|]. exists ∅. exact (open_inv m T H). Qed.
Lemma returning_open m T b ids : stored_is m T -> returning b ids T (UndoStack [∅] (ChainDb m)) T.
Proof. intros H. exists ∅, ∅. split; [exact (open_inv m T H)|]. set_solver. Qed.

Lemma flush_inv st T l : inv st (USpec [l] T false) ->
  exists st', undo_run K st UFlush = Ok (st', UDone) /\ stored_is (match us_base st' with ChainDb m => m | MempoolBase => ∅ end) (ul_table l).
Proof.
  intros H. destruct (callspec st (USpec [l] T false) UFlush H) as [(st' & o & E & Eo & Hi)|(e & E & Hx)].
  - split; [discriminate|]. reflexivity.
  - cbn in Eo. injection Eo as <-. exists st'. split; [exact E|]. cbn in Hi. unfold UndoCacheProofs.inv in Hi. cbn in Hi.
    destruct (us_caches st'); [|destruct Hi]. destruct (us_base st'); [exact Hi|]. destruct Hi as [Hx _]. discriminate Hx.
  - destruct Hx as [Hx|[]]. cbn in Hx. discriminate Hx.
Qed.
Lemma recording_flush b Tb st T : recording b Tb st T ->
  exists st', undo_run K st UFlush = Ok (st', UDone) /\ stored_is (match us_base st' with ChainDb m => m | MempoolBase => ∅ end) T.
Proof. intros (_ & added & H). exact (flush_inv _ _ _ H). Qed.
Lemma returning_flush b ids Tb st T : returning b ids Tb st T ->
  exists st', undo_run K st UFlush = Ok (st', UDone) /\ stored_is (match us_base st' with ChainDb m => m | MempoolBase => ∅ end) T.
Proof. intros (ta & go & H & _). exact (flush_inv _ _ _ H). Qed.

Lemma recording_may b Tb T added : ut_none Tb (SrcChain b) -> may_add (USpec [ULayer T added ∅ ∅] Tb false) (SrcChain b).
Proof. intros H. split; [reflexivity|]. split; [exact H|]. cbn. split; [|exact Logic.I]. left. exact H. Qed.
Lemma recording_add b Tb st T x i : recording b Tb st T -> ut_tx T !! (SrcChain b, x) = None ->
  exists st', undo_run K st (UAdd (SrcChain b) x i) = Ok (st', UDone) /\ recording b Tb st' (ut_add T (SrcChain b) x i).
Proof.
  intros (Hn & added & H) Hx.
  destruct (callspec st _ (UAdd (SrcChain b) x i) H) as [(st' & o & E & Eo & Hi)|(e & E & He)].
  - split; [discriminate|]. split; [exact (recording_may b Tb T added Hn)|exact Hx].
  - cbn in Eo. injection Eo as <-. exists st'. split; [exact E|]. split; [exact Hn|]. eexists. exact Hi.
  - destruct He as [He|(_ & He & _)]; [discriminate He|]. apply Exists_exists in He as (l & Hl & He).
    apply elem_of_list_singleton in Hl as ->. cbn in He. set_solver.
Qed.
Lemma recording_add_reward b Tb st T r : recording b Tb st T -> ut_reward T !! SrcChain b = None ->
  exists st', undo_run K st (UAddReward (SrcChain b) r) = Ok (st', UDone) /\ recording b Tb st' (ut_addr T (SrcChain b) r).
Proof.
  intros (Hn & added & H) Hx.
  destruct (callspec st _ (UAddReward (SrcChain b) r) H) as [(st' & o & E & Eo & Hi)|(e & E & He)].
  - split; [discriminate|]. split; [exact (recording_may b Tb T added Hn)|exact Hx].
  - cbn in Eo. injection Eo as <-. exists st'. split; [exact E|]. split; [exact Hn|]. eexists. exact Hi.
  - destruct He as [He|[]]. discriminate He.
Qed.

Lemma returning_may b Tb T taken g : may_take (USpec [ULayer T ∅ taken g] Tb false) (SrcChain b).
Proof. split; [reflexivity|]. cbn. split; [|exact Logic.I]. right. set_solver. Qed.
Lemma returning_take b ids Tb st T x i : returning b (x :: ids) Tb st T -> x ∉ ids -> ut_tx T !! (SrcChain b, x) = Some i ->
  blocked T (SrcChain b) x = false ->
  exists st', undo_run K st (UTake (SrcChain b) x) = Ok (st', UTook (Some (released i))) /\ returning b ids Tb st' (ut_del T (SrcChain b) x).
Proof.
  intros (ta & go & H & Hg) Hni Hx Hb.
  destruct (callspec st _ (UTake (SrcChain b) x) H) as [(st' & o & E & Eo & Hi)|(e & E & He)].
  - split; [discriminate|]. split; [apply returning_may|]. intros _. unfold sp_now. cbn. congruence.
  - cbn in Eo, Hi. rewrite Hx, Hb in Eo, Hi. cbn in Eo, Hi. injection Eo as <-. exists st'. split; [exact E|].
    eexists _, _. split; [exact Hi|]. intros y Hy. specialize (Hg y). set_solver.
  - unfold answer_fits in He. cbn in He. rewrite Hx, Hb in He. cbn in He. destruct He as [He|(_ & _ & _ & He)]; [discriminate He|discriminate He].
Qed.
Lemma returning_take_none b ids Tb st T x : returning b (x :: ids) Tb st T -> bk_strict K = false -> ut_tx T !! (SrcChain b, x) = None ->
  exists st', undo_run K st (UTake (SrcChain b) x) = Ok (st', UTook None) /\ returning b ids Tb st' T.
Proof.
  intros (ta & go & H & Hg) Hs Hx.
  destruct (callspec st _ (UTake (SrcChain b) x) H) as [(st' & o & E & Eo & Hi)|(e & E & He)].
  - split; [discriminate|]. split; [apply returning_may|]. rewrite Hs. discriminate.
  - cbn in Eo, Hi. rewrite Hx in Eo, Hi. cbn in Eo, Hi. injection Eo as <-. exists st'. split; [exact E|].
    eexists _, _. split; [exact Hi|]. intros y Hy. specialize (Hg y). set_solver.
  - unfold answer_fits in He. cbn in He. rewrite Hx in He. destruct He as [He|(_ & He & _)]; [discriminate He|].
    apply Exists_exists in He as (l & Hl & He). apply elem_of_list_singleton in Hl as ->. cbn in He. exfalso. apply (Hg x); [set_solver|exact He].
Qed.
Lemma returning_take_reward b ids Tb st T : returning b ids Tb st T ->
  exists st', undo_run K st (UTakeReward (SrcChain b)) = Ok (st', UTookReward (ut_reward T !! SrcChain b)) /\
    returning b ids Tb st' (ut_delr T (SrcChain b)).
Proof.
  intros (ta & go & H & Hg).
  destruct (callspec st _ (UTakeReward (SrcChain b)) H) as [(st' & o & E & Eo & Hi)|(e & E & He)].
  - split; [discriminate|]. split; [apply returning_may|]. split; [discriminate|]. left. reflexivity.
  - cbn in Eo, Hi. destruct (ut_reward T !! SrcChain b) as [r|] eqn:Er; cbn in Eo, Hi; injection Eo as <-; exists st'; (split; [exact E|]).
    + eexists _, _. split; [exact Hi|exact Hg].
    + assert (ut_delr T (SrcChain b) = T) as ->. { unfold ut_delr. rewrite delete_notin by exact Er. destruct T; reflexivity. }
      eexists _, _. split; [exact Hi|exact Hg].
  - unfold answer_fits in He. cbn in He. destruct (ut_reward T !! SrcChain b); destruct He as [He|[]]; discriminate He.
Qed.

(** The stored records are determined by the table. *)
Context (Hload : forall d d' f r, holds (bk_load K d) f r -> holds (bk_load K d') f r -> d = d').
Lemma stored_unique m m' T : stored_is m T -> stored_is m' T -> m = m'.
Proof.
  intros (_ & _ & H) (_ & _ & H'). apply map_eq. intros b. specialize (H b). specialize (H' b).
  destruct (m !! b) as [d|], (m' !! b) as [d'|]; [|tauto..|reflexivity].
  f_equal. destruct H as (_ & H & _), H' as (_ & H' & _). exact (Hload _ _ _ _ H H').
Qed.
End Records.

Lemma accounting_load {R T} `{EqDecision R} `{EqDecision T} (d d' : bundo R T) f r :
  cb_holds (cb_load d) f r -> cb_holds (cb_load d') f r -> d = d'.
Proof.
  intros (H1 & H2 & _) (H1' & H2' & _). destruct d as [ro tx], d' as [ro' tx']. cbn in *. f_equal.
  - transitivity r; [rewrite <- H2|rewrite <- H2']; [destruct ro|destruct ro']; reflexivity.
  - apply map_eq. intros x. specialize (H1 x). specialize (H1' x). unfold live in *. rewrite lookup_fmap in *.
    transitivity (f x); [rewrite <- H1|rewrite <- H1']; [destruct (tx !! x)|destruct (tx' !! x)]; reflexivity.
Qed.
Lemma utxo_load {R T} `{EqDecision R} `{EqDecision T} (d d' : udisk R T) f r :
  ub_holds (ub_load d) f r -> ub_holds (ub_load d') f r -> d = d'.
Proof.
  intros [H1 H2] [H1' H2']. destruct d as [co cp pc], d' as [co' cp' pc']. cbn in *. f_equal.
  - exact (accounting_load _ _ _ _ H1 H1').
  - apply map_eq. intros [c p]. destruct (H2 c p) as [E _], (H2' c p) as [E' _]. rewrite <- E in E'. unfold live in E'.
    rewrite !lookup_fmap in E'. destruct (cp !! (c, p)) as [[]|], (cp' !! (c, p)) as [[]|]; cbn in E'; [reflexivity| | |reflexivity]; exfalso; naive_solver.
  - apply map_eq. intros [p c]. destruct (H2 c p) as [_ E], (H2' c p) as [_ E']. rewrite <- E in E'. unfold live in E'.
    rewrite !lookup_fmap in E'. destruct (pc !! (p, c)) as [[]|], (pc' !! (p, c)) as [[]|]; cbn in E'; [reflexivity| | |reflexivity]; exfalso; naive_solver.
Qed.

(** The two kinds *)
Definition no_block {I R : Type} (t : undo_table I R) (s : tx_source) (x : txid) : bool := false.
Definition child_block {T R : Type} (t : undo_table (T * list source_id) R) (s : tx_source) (x : txid) : bool := bool_decide (has_child t s x).
Lemma no_block_spec {I R} (t : undo_table I R) s x : no_block t s x = true <-> (fun (_ : N -> option I) (_ : N) => False) (tx_of t s) x.
Proof. split; [discriminate|intros []]. Qed.
Lemma child_block_spec {T R} (t : undo_table (T * list source_id) R) s x : child_block t s x = true <-> ub_blocked (tx_of t s) x.
Proof.
  unfold child_block. rewrite bool_decide_eq_true. unfold has_child, ub_blocked, edge, tx_of. reflexivity.
Qed.
