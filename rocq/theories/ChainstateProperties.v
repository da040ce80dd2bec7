(** Properties of the chainstate: ledger, consistency, choice of the tip, finality, checkpoints, absence of panics. *)
From Verif Require Import Base StatusModel StatusSpec BlockTreeModel BlockTreeSpec BlockTreeProofs ChainstateModel ChainstateSpec ChainstateProofs ChainstateApiProofs
  ChainstateRunProofs ChainstateCallProofs ChainstateReachProofs.
Local Open Scope N_scope.

(** *** A concrete configuration: the ledger lists the connected blocks, and a block of 13 transactions does not connect *)
Definition ex_checkpoints : gmap N N := <[0 := 1000]> (<[1 := 1]> ∅).
Definition ex_connect (l : list N) (b : new_block) : res err_class (list N) := if nb_txs b =? 13 then Err BadBlock else Ok (nb_id b :: l).
Definition ex_disconnect (l : list N) (b : new_block) : res err_class (list N) :=
  match l with x :: l' => if x =? nb_id b then Ok l' else Err General | [] => Err General end.
Definition ex_chain (cps : gmap N N) : chain_cfg (list N) :=
  ChainCfg (TreeCfg 1000 50) 2 cps false (fun _ _ => None) (fun _ _ => None) ex_connect ex_disconnect.
Definition ex_cc : chain_cfg (list N) := ex_chain ex_checkpoints.
Lemma ex_undoes cps : disconnect_undoes (ex_chain cps).
Proof. intros l b l'. cbn. unfold ex_connect. destruct (nb_txs b =? 13); [done|]. intros [= <-]. cbn. by rewrite N.eqb_refl. Qed.
Lemma ex_only_bad cps : only_bad (ex_chain cps).
Proof. intros l b e. cbn. unfold ex_connect. destruct (nb_txs b =? 13); [|done]. by intros [= <-]. Qed.
Lemma ex_no_panics cps : no_panics (ex_chain cps).
Proof.
  split; intros l b; cbn; unfold ex_connect, ex_disconnect.
  - by destruct (nb_txs b =? 13).
  - destruct l as [|x l]; [done|]. by destruct (x =? nb_id b).
Qed.
Definition blk (id prev txs proof : N) : api := ProcessBlock (NewBlock id prev 100 txs (Some proof)).
(** Running a list of calls, and a check that it is a history in the sense of [reached] *)
Definition hist (cf : chain_cfg (list N)) (s : db (list N)) (l : list api) : db (list N) := foldl (after cf) s l.
Definition fine (cf : chain_cfg (list N)) (s : db (list N)) (c : api) : bool :=
  match c with
  | ProcessBlock b => negb (nb_id b =? genesis_id (cc_tree cf))
  | InvalidateBlock _ => true
  | ResetFailureFlags id => match idx s !! id with Some b => match idx s !! bi_prev b with Some p => v_ok (bi_status p) | None => true end | None => true end
  end && match snd (run cf c s) with Panic => false | _ => true end.
Fixpoint all_fine (cf : chain_cfg (list N)) (s : db (list N)) (l : list api) : bool :=
  match l with [] => true | c :: l' => fine cf s c && all_fine cf (after cf s c) l' end.
Lemma fine_spec cf s c : fine cf s c = true -> proper cf c /\ any_call s c /\ snd (run cf c s) <> Panic.
Proof.
  intro H. apply andb_prop in H. destruct H as [H1 H2]. split_and!.
  - destruct c; [|done..]. cbn. apply negb_true_iff, N.eqb_neq in H1. done.
  - destruct c as [| |id]; [done..|]. intros b p Hb Hp. by rewrite Hb, Hp in H1.
  - intro X. by rewrite X in H2.
Qed.
Lemma hist_from cf s0 l : forall s, reached_from cf any_call s0 s -> all_fine cf s l = true -> reached_from cf any_call s0 (hist cf s l).
Proof.
  induction l as [|c l IH]; intros s R F; [done|]. apply andb_prop in F. destruct F as [F1 F2]. destruct (fine_spec _ _ _ F1) as (P & A & N).
  apply IH; [|done]. by apply reached_call.
Qed.
Lemma hist_reached cf l : all_fine cf (initial_db cf []) l = true -> reached cf any_call [] (hist cf (initial_db cf []) l).
Proof. intro F. apply hist_from; [constructor|done]. Qed.
Lemma hist_blocks cf l : all_fine cf (initial_db cf []) l = true -> forallb (fun c => match c with ProcessBlock _ => true | _ => false end) l = true ->
  reached cf only_blocks [] (hist cf (initial_db cf []) l).
Proof.
  intros F B. assert (X : forall l s, reached cf only_blocks [] s -> all_fine cf s l = true -> forallb (fun c => match c with ProcessBlock _ => true | _ => false end) l = true ->
    reached cf only_blocks [] (hist cf s l)).
  { clear. induction l as [|c l IH]; intros s R F B; [done|]. apply andb_prop in F. destruct F as [F1 F2]. apply andb_prop in B. destruct B as [B1 B2].
    destruct (fine_spec _ _ _ F1) as (P & A & N). apply IH; [|done..]. apply reached_call; [done..| |done]. by destruct c. }
  apply X; [constructor|done..].
Qed.

(** A history with a reorganisation (to 3), a rejected branch (4 does not connect after 2 does), an explicit invalidation and
    a reset of it *)
Definition ex_calls : list api := [blk 1 1000 0 5; blk 2 1 0 5; blk 3 1 0 9; blk 4 2 13 9; blk 5 3 0 5].
Definition ex_calls' : list api := ex_calls ++ [InvalidateBlock 3; ResetFailureFlags 3].
Definition ex_s : db (list N) := hist ex_cc (initial_db ex_cc []) ex_calls.
Definition ex_s' : db (list N) := hist ex_cc (initial_db ex_cc []) ex_calls'.
Lemma ex_reached : reached ex_cc any_call [] ex_s.
Proof. apply hist_reached. by vm_compute. Qed.
Lemma ex_reached' : reached ex_cc any_call [] ex_s'.
Proof. apply hist_reached. by vm_compute. Qed.
Lemma ex_blocks : reached ex_cc only_blocks [] ex_s.
Proof. apply hist_blocks; by vm_compute. Qed.
Definition tip (s : db (list N)) : N := t_best (d_tree s).
Definition tips (cf : chain_cfg (list N)) (l : list api) : list N := (fun n => tip (hist cf (initial_db cf []) (take n l))) <$> seq 1 (length l).
Example ex_tips : tips ex_cc ex_calls' = [1; 2; 3; 3; 5; 2; 5].
Proof. by vm_compute. Qed.
(** The same tip reached directly *)
Definition ex_direct : db (list N) := hist ex_cc (initial_db ex_cc []) [blk 1 1000 0 5; blk 3 1 0 9; blk 5 3 0 5].
Lemma ex_direct_reached : reached ex_cc any_call [] ex_direct.
Proof. apply hist_reached. by vm_compute. Qed.

(** ** C37 *)
(** Whatever was submitted, reorganised, invalidated, reset, and at whatever commit a call was cut short: two nodes with the
    same tip have the same ledger, provided a block id stands for one block and disconnecting a block undoes connecting it
    (C06, C09, C13-C18 for the parts of the ledger). *)
Theorem C37_same_tip_same_ledger L (cf : chain_cfg L) l0 s1 s2 : disconnect_undoes cf -> survived cf any_call l0 s1 -> survived cf any_call l0 s2 ->
  t_best (d_tree s1) = t_best (d_tree s2) -> (forall id b1 b2, d_blocks s1 !! id = Some b1 -> d_blocks s2 !! id = Some b2 -> b1 = b2) ->
  d_ledger s1 = d_ledger s2.
Proof. intros Du S1 S2. apply (same_tip_ledger cf l0); [done|apply survived_inv; done..]. Qed.
Print Assumptions C37_same_tip_same_ledger.
(** In particular the ledger is that of connecting the main chain's blocks one after another to the initial ledger, also in
    every state a call leaves on disk on its way. *)
Theorem C37_ledger_is_replay L (cf : chain_cfg L) l0 s : disconnect_undoes cf -> survived cf any_call l0 s -> replayed cf l0 s.
Proof. intros Du S. apply (survived_inv cf l0 s S). done. Qed.
Print Assumptions C37_ledger_is_replay.
Theorem C37_ledger_is_replay_at_every_commit L (cf : chain_cfg L) l0 s c s' : disconnect_undoes cf -> survived cf any_call l0 s -> proper cf c -> any_call s c ->
  s' ∈ commits cf c s -> replayed cf l0 s'.
Proof. intros Du S P A Hin. eapply co_replay; [|done]. eapply commit_core; [by apply survived_inv|done..]. Qed.
Print Assumptions C37_ledger_is_replay_at_every_commit.
(** [ex_s'] went through two reorganisations and a rejected branch; [ex_direct] did not. *)
Example C37_example : disconnect_undoes ex_cc /\ survived ex_cc any_call [] ex_s' /\ survived ex_cc any_call [] ex_direct /\
  t_best (d_tree ex_s') = 5 /\ t_best (d_tree ex_direct) = 5 /\ d_ledger ex_s' = [5; 3; 1] /\ d_ledger ex_direct = [5; 3; 1].
Proof.
  split; [apply ex_undoes|]. split; [eapply reached_survived; [|exact ex_reached']; done|]. split; [eapply reached_survived; [|exact ex_direct_reached]; done|].
  split_and!; by vm_compute.
Qed.

(** ** C49 *)
(** After every call, whatever it returned, the node's own consistency checks on the stored indexes and on the main chain
    hold; this is for calls of any kind, except resetting the marks of a block below an invalid one. *)
Theorem C49_checks_hold_after_every_call L (cf : chain_cfg L) l0 s : reached cf any_call l0 s -> index_checks cf s /\ height_checks cf s.
Proof. intro R. pose proof (reached_inv cf l0 s R) as I. split; [by apply (inv_index_checks cf l0)|]. apply (core_height_checks cf l0), I. Qed.
Print Assumptions C49_checks_hold_after_every_call.
(** ... with the check of the reorganisation limit, when the calls are submissions of blocks *)
Theorem C49_limit_check_after_blocks L (cf : chain_cfg L) l0 s : reached cf only_blocks l0 s -> limit_check cf s.
Proof. apply blocks_best. Qed.
Print Assumptions C49_limit_check_after_blocks.
(** In every state left on disk on the way the main chain checks hold; the index checks hold except for the submitted
    block itself, which may for a moment be recorded as valid without its data. *)
Theorem C49_checks_hold_at_every_commit L (cf : chain_cfg L) l0 s c s' : survived cf any_call l0 s -> proper cf c -> any_call s c -> s' ∈ commits cf c s ->
  height_checks cf s' /\
  (index_checks cf s' \/ exists blk b, c = ProcessBlock blk /\ idx s' !! nb_id blk = Some b /\ bi_persisted b = false /\ v_ok (bi_status b) = true /\
     forall id x, id <> nb_id blk -> idx s' !! id = Some x -> bi_persisted x = false -> v_ok (bi_status x) = false).
Proof.
  intros S P A Hin. pose proof (survived_inv cf l0 s S) as I. destruct (commit_core cf l0 s c s' I P A Hin) as [C _]. split; [by apply (core_height_checks cf l0)|].
  destruct (call_spec cf l0 s c I P A) as (Fa & _ & _). rewrite Forall_forall in Fa. destruct (Fa _ Hin) as [[G F]|W]; [left; by apply (inv_index_checks cf l0)|].
  right. destruct W as (blk & b & -> & _ & _ & _ & _ & Ei & Pb & O). exists blk, b. rewrite Ei. split_and!; [done|apply lookup_insert|done|done|].
  intros id x Nx Hx Px. rewrite lookup_insert_ne in Hx by done. exact (inv_marked _ _ _ I _ _ Hx Px).
Qed.
Print Assumptions C49_checks_hold_at_every_commit.
Example C49_example : reached ex_cc any_call [] ex_s' /\ t_best (d_tree ex_s') = 5 /\
  (option_map (fun b => (bi_persisted b, v_ok (bi_status b))) (idx ex_s' !! 4), option_map (fun b => (bi_persisted b, v_ok (bi_status b))) (idx ex_s' !! 2)) =
    (Some (false, false), Some (true, true)).
Proof. split; [apply ex_reached'|]. split; by vm_compute. Qed.
(** What the node does not guarantee: a crash between recording a submitted block as valid and marking it as failed leaves a
    valid block without data. The block can then not be submitted again. *)
Definition ex_before : db (list N) := hist ex_cc (initial_db ex_cc []) [blk 1 1000 0 5; blk 2 1 0 5; blk 3 1 0 9].
Definition nth_commit (cf : chain_cfg (list N)) (c : api) (s : db (list N)) (n : nat) : db (list N) := default s (commits cf c s !! n).
Definition flags (s : db (list N)) (id : N) : option (bool * bool) := (fun b => (bi_persisted b, v_ok (bi_status b))) <$> (idx s !! id).
Lemma nth_commit_in cf c s n : (n <? length (commits cf c s))%nat = true -> nth_commit cf c s n ∈ commits cf c s.
Proof.
  intro H. apply Nat.ltb_lt in H. unfold nth_commit. destruct (lookup_lt_is_Some_2 _ _ H) as [x Hx]. rewrite Hx. by eapply elem_of_list_lookup_2.
Qed.
Theorem C49_checks_hold_at_every_crash_point_refuted : ~ (forall (cf : chain_cfg (list N)) s c s', reached cf only_blocks [] s -> proper cf c -> only_blocks s c -> s' ∈ commits cf c s ->
  index_checks cf s').
Proof.
  intro H. set (s' := nth_commit ex_cc (blk 4 2 13 9) ex_before 0).
  assert (K : index_checks ex_cc s').
  { apply (H ex_cc ex_before (blk 4 2 13 9)); [|done|done|].
    - apply hist_blocks; by vm_compute.
    - apply nth_commit_in. by vm_compute. }
  assert (F : flags s' 4 = Some (false, true)) by by vm_compute.
  assert (D : match d_blocks s' !! 4 with Some _ => true | None => false end = false) by by vm_compute.
  clearbody s'. unfold flags in F. destruct (idx s' !! 4) as [b|] eqn:Hb; [|done]. destruct (d_blocks s' !! 4) eqn:Hd; [done|].
  destruct (ck_no_data _ _ K _ _ Hb Hd) as [_ X]. cbn in F. injection F as _ F. congruence.
Qed.
Print Assumptions C49_checks_hold_at_every_crash_point_refuted.
Example C49_stuck_block : snd (run ex_cc (blk 4 2 13 9) (nth_commit ex_cc (blk 4 2 13 9) ex_before 0)) = Err BlockAlreadyProcessed.
Proof. by vm_compute. Qed.
(** Resetting the marks of a block below an invalid one leaves a valid block with an invalid parent. *)
Theorem C49_checks_hold_after_any_reset_refuted : ~ (forall (cf : chain_cfg (list N)) s id s', reached cf any_call [] s -> s' ∈ commits cf (ResetFailureFlags id) s -> index_checks cf s').
Proof.
  intro H. set (s := hist ex_cc (initial_db ex_cc []) [blk 1 1000 0 5; blk 2 1 0 5; InvalidateBlock 1]). set (s' := nth_commit ex_cc (ResetFailureFlags 2) s 0).
  assert (K : index_checks ex_cc s').
  { apply (H ex_cc s 2); [apply hist_reached; by vm_compute|]. apply nth_commit_in. by vm_compute. }
  assert (F : (flags s' 2, flags s' 1) = (Some (true, true), Some (true, false))) by by vm_compute.
  assert (P : bi_prev <$> (idx s' !! 2) = Some 1) by by vm_compute.
  clearbody s'. unfold flags in F. destruct (idx s' !! 2) as [b|] eqn:Hb; [|done]. cbn in P. injection P as P. injection F as _ F2 F1.
  destruct (ck_parent _ _ K _ _ Hb) as (p & Hp & _ & O & _); [by rewrite P|]. rewrite P in Hp. rewrite Hp in F1. cbn in F1. injection F1 as _ F1. rewrite O in F1; done.
Qed.
Print Assumptions C49_checks_hold_after_any_reset_refuted.
(** After an explicit invalidation the tip may move to a longer chain with less trust; the limit is not updated then, and the
    node's own check of it fails. *)
Definition ex_free : chain_cfg (list N) := ex_chain (<[0 := 1000]> ∅).
Definition ex_long : list api := [blk 1 1000 0 100; blk 11 1000 0 1; blk 12 11 0 1; blk 13 12 0 1; blk 14 13 0 1; InvalidateBlock 1].
Theorem C49_limit_check_after_every_call_refuted : ~ (forall (cf : chain_cfg (list N)) s, reached cf any_call [] s -> limit_check cf s).
Proof.
  intro H. set (s := hist ex_free (initial_db ex_free []) ex_long).
  assert (K : limit_check ex_free s). { apply H. apply hist_reached. by vm_compute. }
  assert (M : t_main (d_tree s) !! 4 = Some 14) by by vm_compute. assert (X : t_min (d_tree s) = 0) by by vm_compute.
  clearbody s. specialize (K _ _ M). rewrite X in K. cbn in K. lia.
Qed.
Print Assumptions C49_limit_check_after_every_call_refuted.

(** ** C50 *)
(** While blocks are submitted, in any order, the tip always has the most trust of all valid blocks on top of the last final
    block, and its trust never goes down. *)
Theorem C50_tip_has_most_trust L (cf : chain_cfg L) l0 s : reached cf only_blocks l0 s -> tip_is_best cf s.
Proof. apply blocks_best. Qed.
Print Assumptions C50_tip_has_most_trust.
Theorem C50_trust_never_falls L (cf : chain_cfg L) l0 s blk n n' : survived cf any_call l0 s -> proper cf (ProcessBlock blk) -> snd (run cf (ProcessBlock blk) s) <> Panic ->
  tip_trust cf s n -> tip_trust cf (after cf s (ProcessBlock blk)) n' -> n <= n'.
Proof. intros S P N. apply (process_spec cf l0 s blk (survived_inv cf l0 s S) P). done. Qed.
Print Assumptions C50_trust_never_falls.
(** It also has the most trust after invalidations and resets, when a block's contents fail to connect only because of the
    block, and disconnecting undoes connecting. *)
Theorem C50_tip_has_most_trust_after_any_call L (cf : chain_cfg L) l0 s : only_bad cf -> disconnect_undoes cf -> reached cf any_call l0 s -> tip_is_best cf s.
Proof. apply reached_best. Qed.
Print Assumptions C50_tip_has_most_trust_after_any_call.
Example C50_example : reached ex_cc only_blocks [] ex_s /\ reached ex_cc any_call [] ex_s' /\ only_bad ex_cc /\ disconnect_undoes ex_cc /\
  bi_trust <$> (idx ex_s' !! 5) = Some 19 /\ bi_trust <$> (idx ex_s' !! 2) = Some 10 /\ bi_trust <$> (idx ex_s' !! 4) = Some 19 /\
  tips ex_cc ex_calls' = [1; 2; 3; 3; 5; 2; 5].
Proof. split; [apply ex_blocks|]. split; [apply ex_reached'|]. split; [apply ex_only_bad|]. split; [apply ex_undoes|]. split_and!; by vm_compute. Qed.
(** It need not have it when a call is cut short: an invalidation disconnects the block before it marks it. *)
Theorem C50_most_trust_at_every_commit_refuted : ~ (forall (cf : chain_cfg (list N)) s c s', reached cf any_call [] s -> proper cf c -> any_call s c -> s' ∈ commits cf c s ->
  tip_is_best cf s').
Proof.
  intro H. set (s := hist ex_cc (initial_db ex_cc []) [blk 1 1000 0 5; blk 2 1 0 5]). set (s' := nth_commit ex_cc (InvalidateBlock 2) s 0).
  assert (B : tip_is_best ex_cc s').
  { apply (H ex_cc s (InvalidateBlock 2)); [apply hist_reached; by vm_compute|done|done|]. apply nth_commit_in. by vm_compute. }
  assert (F : flags s' 2 = Some (true, true)) by by vm_compute. assert (T : bi_trust <$> (idx s' !! 2) = Some 10) by by vm_compute.
  assert (U : up (cc_tree ex_cc) (idx s') 2 2 = Some 1000) by by vm_compute.
  assert (M : t_main (d_tree s') !! t_min (d_tree s') = Some 1000) by by vm_compute.
  assert (G : gen_trust <$> get_gen (cc_tree ex_cc) (idx s') (t_best (d_tree s')) = Some 5) by by vm_compute.
  clearbody s'. unfold flags in F. destruct (idx s' !! 2) as [b|] eqn:Hb; [|done]. cbn in F, T. injection F as F1 F2. injection T as T.
  destruct (B 2 b Hb F2) as (g & Gg & Le); [exists 1000; split; [done|by exists 2%nat]|]. rewrite Gg in G. cbn in G. injection G as G. lia.
Qed.
Print Assumptions C50_most_trust_at_every_commit_refuted.

(** ** C51 *)
(** The main chain up to the reorganisation limit is never changed again, and the limit never goes down: not by any call of
    any kind, nor by any call cut short at any of its commits. *)
Theorem C51_final_blocks_stay L (cf : chain_cfg L) l0 s s' : survived cf any_call l0 s -> survived_from cf any_call s s' -> final_kept s s'.
Proof. apply survived_final. Qed.
Print Assumptions C51_final_blocks_stay.
Theorem C51_final_blocks_stay_at_every_commit L (cf : chain_cfg L) l0 s c s' : survived cf any_call l0 s -> proper cf c -> any_call s c -> s' ∈ commits cf c s -> final_kept s s'.
Proof. intros S P A Hin. eapply commit_core; [by apply (survived_inv cf l0)|done..]. Qed.
Print Assumptions C51_final_blocks_stay_at_every_commit.
(** The limit is at least the tip's height minus the configured depth while blocks are submitted. *)
Theorem C51_limit_follows_tip L (cf : chain_cfg L) l0 s n : reached cf only_blocks l0 s -> tip_height cf s n -> n - cc_depth cf <= t_min (d_tree s).
Proof.
  intros R (g & G & <-). destruct (blocks_best cf l0 s R) as [_ Lc]. pose proof (reached_inv cf l0 s (blocks_any _ _ _ R)) as I. apply (Lc _ (t_best (d_tree s))).
  apply (co_main _ _ _ (inv_core _ _ _ I)). exists g. split_and!; [done|done|apply ancestor_refl].
Qed.
Print Assumptions C51_limit_follows_tip.
(** A branch leaving below the limit is refused, however much trust it has. *)
Example C51_example : let s := hist ex_cc (initial_db ex_cc []) [blk 1 1000 0 5; blk 2 1 0 5; blk 3 2 0 5; blk 4 3 0 5] in
  survived ex_cc any_call [] s /\ t_min (d_tree s) = 2 /\ snd (run ex_cc (blk 22 1 0 1000) s) = Err BeforeReorgLimit /\ snd (run ex_cc (blk 23 2 0 1000) s) = Ok tt /\
  tip (after ex_cc s (blk 23 2 0 1000)) = 23.
Proof. cbv zeta. split; [eapply reached_survived; [done|]; apply hist_reached; by vm_compute|]. split_and!; by vm_compute. Qed.

(** ** C52 *)
(** Every stored block's chain, so in particular the main chain, has the prescribed block at every checkpoint height. *)
Theorem C52_checkpoints_met L (cf : chain_cfg L) l0 s id b : survived cf any_call l0 s -> cc_mismatch_allowed cf = false ->
  cc_checkpoints cf !! 0 = Some (genesis_id (cc_tree cf)) -> idx s !! id = Some b -> bi_persisted b = true -> checkpoints_met cf (idx s) b.
Proof. intros S Ma G Hb P. eapply (co_cp cf l0); [by apply survived_inv|done..]. Qed.
Print Assumptions C52_checkpoints_met.
Theorem C52_main_chain_has_checkpoints L (cf : chain_cfg L) l0 s h id x : survived cf any_call l0 s -> cc_mismatch_allowed cf = false ->
  cc_checkpoints cf !! 0 = Some (genesis_id (cc_tree cf)) -> cc_checkpoints cf !! h = Some id -> t_main (d_tree s) !! h = Some x -> x = id.
Proof.
  intros S Ma G Hc Hm. pose proof (inv_core _ _ _ (survived_inv cf l0 s S)) as C. pose proof (core_wf _ _ _ C) as W.
  destruct (core_height_checks cf l0 s C) as [Kg _ Kl]. destruct (N.eq_dec h 0) as [->|Nh]; [congruence|].
  destruct (Kl _ _ Hm Nh) as (b & Ng & Hb & _ & P & _). pose proof (co_cp cf l0 s C Ma G _ _ Hb P h id Hc) as X.
  destruct (co_main _ _ _ C) as [_ M]. apply M in Hm. destruct Hm as (g & Gx & Hx & _). change (t_idx (d_tree s)) with (idx s) in Gx.
  destruct (wf_block _ _ _ _ W Hb) as (Gb & Ib & _). rewrite Gb in Gx. injection Gx as <-. cbn in Hx. rewrite Hx, N.sub_diag, Ib in X. specialize (X ltac:(lia)). cbn in X. congruence.
Qed.
Print Assumptions C52_main_chain_has_checkpoints.
Example C52_example : survived ex_cc any_call [] ex_s' /\ cc_checkpoints ex_cc !! 0 = Some (genesis_id (cc_tree ex_cc)) /\ cc_checkpoints ex_cc !! 1 = Some 1 /\
  flags ex_s' 5 = Some (true, true) /\ snd (run ex_cc (blk 7 1000 0 5) (initial_db ex_cc [])) = Err CheckpointMismatch.
Proof. split; [eapply reached_survived; [|exact ex_reached']; done|]. split_and!; by vm_compute. Qed.

(** ** C53 *)
(** No call panics, in any state reached, when the contents of blocks do not make connecting and disconnecting panic and
    heights, trust and transaction counts have not reached the end of their types. *)
Theorem C53_calls_do_not_panic L (cf : chain_cfg L) l0 s c : survived cf any_call l0 s -> proper cf c -> any_call s c -> no_panics cf -> in_range cf s c ->
  is_Some (cc_checkpoints cf !! 0) -> snd (run cf c s) <> Panic.
Proof. intros S P A Np R G X. destruct (call_spec cf l0 s c (survived_inv cf l0 s S) P A) as (_ & _ & Y). by apply (Y X). Qed.
Print Assumptions C53_calls_do_not_panic.
Example C53_example : survived ex_cc any_call [] (initial_db ex_cc []) /\ no_panics ex_cc /\ in_range ex_cc (initial_db ex_cc []) (blk 1 1000 0 5) /\ is_Some (cc_checkpoints ex_cc !! 0).
Proof.
  split; [constructor|]. split; [apply ex_no_panics|]. split; [|by eexists]. split; [intros id b Hb; done|]. intros p Hp. cbn in Hp. injection Hp as <-.
  split; [by vm_compute|]. split; [by vm_compute|]. intros proof [= <-]. by vm_compute.
Qed.

(** ** C54 *)
(** A rejected block changes neither the tip, the main chain, the limit, the stored blocks nor the ledger, at no commit. *)
Theorem C54_rejected_block_changes_nothing L (cf : chain_cfg L) l0 s blk e s' : survived cf any_call l0 s -> proper cf (ProcessBlock blk) ->
  snd (run cf (ProcessBlock blk) s) = Err e -> s' ∈ commits cf (ProcessBlock blk) s ->
  t_best (d_tree s') = t_best (d_tree s) /\ t_main (d_tree s') = t_main (d_tree s) /\ t_min (d_tree s') = t_min (d_tree s) /\
  d_blocks s' = d_blocks s /\ d_ledger s' = d_ledger s.
Proof.
  intros S P E Hin. destruct (process_spec cf l0 s blk (survived_inv cf l0 s S) P) as (_ & _ & X). specialize (X _ E). rewrite Forall_forall in X.
  destruct (X _ Hin) as (t' & ->). done.
Qed.
Print Assumptions C54_rejected_block_changes_nothing.
Example C54_example : survived ex_cc any_call [] ex_before /\ snd (run ex_cc (blk 4 2 13 9) ex_before) = Err (ConnectFailed BadBlock) /\
  length (commits ex_cc (blk 4 2 13 9) ex_before) = 2%nat /\ d_ledger (after ex_cc ex_before (blk 4 2 13 9)) = [3; 1] /\ flags (after ex_cc ex_before (blk 4 2 13 9)) 4 = Some (false, false).
Proof. split; [eapply reached_survived; [done|]; apply hist_reached; by vm_compute|]. split_and!; by vm_compute. Qed.

(** A block's id is that of its header (C72), while the checks of its body (merkle roots, transactions, sizes) look at the rest.
    One would expect a corrupted copy of a block, which has the same header and so the same id, to have no influence on what
    becomes of the block itself. It has: [process_block] records the id as bad, and the block is refused from then on. Peers
    cannot do this, since what they send goes through [preliminary_block_check] first, which records nothing; a local caller
    of the RPC can. *)
Definition ex_merkle : chain_cfg (list N) :=
  ChainCfg (TreeCfg 1000 50) 2 ex_checkpoints false (fun _ _ => None) (fun _ b => if nb_txs b =? 13 then Some BadBlock else None) ex_connect ex_disconnect.
Theorem C54_corrupted_copy_is_harmless_refuted : ~ (forall (cf : chain_cfg (list N)) s b copy,
  reached cf only_blocks [] s -> proper cf (ProcessBlock b) ->
  nb_id copy = nb_id b -> nb_prev copy = nb_prev b -> nb_time copy = nb_time b -> nb_proof copy = nb_proof b ->
  cc_check_body cf s copy = Some BadBlock ->
  snd (run cf (ProcessBlock b) s) = Ok tt ->
  snd (run cf (ProcessBlock b) (after cf s (ProcessBlock copy))) = Ok tt).
Proof.
  intro H.
  pose proof (H ex_merkle (initial_db ex_merkle []) (NewBlock 1 1000 100 2 (Some 5)) (NewBlock 1 1000 100 13 (Some 5))) as X.
  assert (Y : snd (run ex_merkle (ProcessBlock (NewBlock 1 1000 100 2 (Some 5)))
    (after ex_merkle (initial_db ex_merkle []) (ProcessBlock (NewBlock 1 1000 100 13 (Some 5))))) = Err InvalidBlockAlreadyProcessed) by by vm_compute.
  rewrite Y in X. cut (@Err block_err unit InvalidBlockAlreadyProcessed = Ok tt); [done|].
  apply X; [constructor|done..|by vm_compute].
Qed.
Print Assumptions C54_corrupted_copy_is_harmless_refuted.

(** ** C39, continued *)
(** Every stored block is no earlier than the median of the (up to) eleven blocks before it. *)
Theorem C39_stored_blocks_respect_median L (cf : chain_cfg L) l0 s id b : survived cf any_call l0 s -> idx s !! id = Some b -> bi_persisted b = true ->
  exists m, median_time_past (cc_tree cf) (idx s) (bi_prev b) = Ok m /\ m <= bi_time b.
Proof. intros S Hb P. eapply (co_time cf l0); [by apply survived_inv|done..]. Qed.
Print Assumptions C39_stored_blocks_respect_median.
Example C39_stored_example : survived ex_cc any_call [] ex_s' /\ flags ex_s' 5 = Some (true, true) /\ median_time_past (cc_tree ex_cc) (idx ex_s') 3 = Ok 100.
Proof. split; [eapply reached_survived; [|exact ex_reached']; done|]. split_and!; by vm_compute. Qed.
