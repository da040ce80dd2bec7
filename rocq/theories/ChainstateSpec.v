(** What the chainstate database must satisfy: the node's own consistency checks, replay of the ledger, finality,
    checkpoints, and the states reachable through the API with and without crashes. *)
From Verif Require Import Base StatusModel StatusSpec BlockTreeModel BlockTreeSpec ChainstateModel.
Local Open Scope N_scope.

Section ChainstateSpec.
  Context {L : Type} (cf : chain_cfg L).
  Notation tc := (cc_tree cf).

  (** The assertions of chainstateref/consistency_checker.rs 85-180, for every stored index and block. *)
  Record index_checks (s : db L) : Prop := {
    ck_block_has_index : forall id blk, d_blocks s !! id = Some blk -> is_Some (idx s !! id);
    ck_no_data : forall id b, idx s !! id = Some b -> d_blocks s !! id = None -> bi_persisted b = false /\ v_ok (bi_status b) = false;
    ck_data : forall id b blk, idx s !! id = Some b -> d_blocks s !! id = Some blk ->
      bi_persisted b = true /\ nb_id blk = id /\ nb_prev blk = bi_prev b /\ nb_time blk = bi_time b;
    ck_id : forall id b, idx s !! id = Some b -> bi_id b = id;
    ck_parent : forall id b, idx s !! id = Some b -> bi_prev b <> genesis_id tc ->
      exists p, idx s !! bi_prev b = Some p /\ (bi_persisted b = true -> bi_persisted p = true) /\
                (v_ok (bi_status b) = true -> v_ok (bi_status p) = true) /\ stage_code (v_stage (bi_status b)) <= stage_code (v_stage (bi_status p)) }.
  (** consistency_checker.rs 183-258 without the reorg limit *)
  Record height_checks (s : db L) : Prop := {
    ck_genesis : t_main (d_tree s) !! 0 = Some (genesis_id tc);
    ck_tip : exists h, t_main (d_tree s) !! h = Some (t_best (d_tree s)) /\ forall h' id, t_main (d_tree s) !! h' = Some id -> h' <= h;
    ck_linked : forall h id, t_main (d_tree s) !! h = Some id -> h <> 0 ->
      exists b, id <> genesis_id tc /\ idx s !! id = Some b /\ t_main (d_tree s) !! (h - 1) = Some (bi_prev b) /\
                bi_persisted b = true /\ v_stage (bi_status b) = FullyChecked /\ v_ok (bi_status b) = true }.
  (** consistency_checker.rs 208-222 *)
  Definition limit_check (s : db L) : Prop :=
    forall h id, t_main (d_tree s) !! h = Some id -> h - cc_depth cf <= t_min (d_tree s).

  (** The tip and its height *)
  Definition tip_height (s : db L) (n : N) : Prop := exists g, get_gen tc (idx s) (t_best (d_tree s)) = Some g /\ gen_height g = n.
  Definition tip_trust (s : db L) (n : N) : Prop := exists g, get_gen tc (idx s) (t_best (d_tree s)) = Some g /\ gen_trust g = n.
  (** The blocks of the main chain above genesis, lowest first. *)
  Definition main_blocks (s : db L) (blks : list new_block) : Prop :=
    tip_height s (N.of_nat (length blks)) /\
    forall i blk, blks !! i = Some blk -> exists id, t_main (d_tree s) !! (N.of_nat i + 1) = Some id /\ d_blocks s !! id = Some blk.
  (** The ledger is what connecting the main chain's blocks one after another to the initial ledger gives. *)
  Definition replayed (l0 : L) (s : db L) : Prop := exists blks, main_blocks s blks /\ rfold (cc_connect cf) blks l0 = Ok (d_ledger s).
  (** Disconnecting a block takes back what connecting it did. *)
  Definition disconnect_undoes : Prop := forall l b l', cc_connect cf l b = Ok l' -> cc_disconnect cf l' b = Ok l.
  (** Connecting and disconnecting a block's contents do not panic. *)
  Definition no_panics : Prop := (forall l b, cc_connect cf l b <> Panic) /\ (forall l b, cc_disconnect cf l b <> Panic).
  (** Connecting a block's contents only fails because of the block. *)
  Definition only_bad : Prop := forall l b e, cc_connect cf l b = Err e -> e = BadBlock.

  (** Finality: the limit only rises, and the main chain up to the limit stays. *)
  Definition final_kept (s s' : db L) : Prop :=
    t_min (d_tree s) <= t_min (d_tree s') /\ forall h, h <= t_min (d_tree s) -> t_main (d_tree s') !! h = t_main (d_tree s) !! h.
  (** A block on top of the last final block *)
  Definition extends_final (s : db L) (id : N) : Prop :=
    exists f, t_main (d_tree s) !! t_min (d_tree s) = Some f /\ ancestor tc (idx s) f id.
  (** No valid block on top of the last final block has more trust than the tip. *)
  Definition tip_is_best (s : db L) : Prop :=
    forall id b, idx s !! id = Some b -> v_ok (bi_status b) = true -> extends_final s id -> exists g, get_gen tc (idx s) (t_best (d_tree s)) = Some g /\ bi_trust b <= gen_trust g.

  (** The block's chain has the prescribed block at every checkpoint height it reaches. *)
  Definition checkpoints_met (t : index_map) (b : bindex) : Prop :=
    forall h id, cc_checkpoints cf !! h = Some id -> h <= bi_height b -> up tc t (N.to_nat (bi_height b - h)) (bi_id b) = Some id.

  (** Calls of the API: a block's id (a hash) is not that of genesis. *)
  Definition proper (c : api) : Prop := match c with ProcessBlock b => nb_id b <> genesis_id tc | _ => True end.
  (** Resetting the failure marks of a block whose parent is valid *)
  Definition reset_below_valid (s : db L) (c : api) : Prop :=
    match c with
    | ResetFailureFlags id => forall b p, idx s !! id = Some b -> idx s !! bi_prev b = Some p -> v_ok (bi_status p) = true
    | _ => True
    end.
  (** States reached by calls that ran to their end, whatever they returned *)
  Inductive reached_from (allowed : db L -> api -> Prop) (s0 : db L) : db L -> Prop :=
  | reached_start : reached_from allowed s0 s0
  | reached_call s c : reached_from allowed s0 s -> proper c -> allowed s c -> snd (run cf c s) <> Panic -> reached_from allowed s0 (after cf s c).
  (** ... starting from a new database with initial ledger [l0] *)
  Definition reached (allowed : db L -> api -> Prop) (l0 : L) : db L -> Prop := reached_from allowed (initial_db cf l0).
  (** The states a call leaves on disk one after another: a crash during the call leaves one of them (or the state before). *)
  Definition commits (c : api) (s : db L) : list (db L) := fst (run cf c s).
  (** States reached by calls of which any may be interrupted, by a crash or a panic, after any of its database
      transactions that leaves a state passing the index checks *)
  Inductive survived_from (allowed : db L -> api -> Prop) (s0 : db L) : db L -> Prop :=
  | survived_start : survived_from allowed s0 s0
  | survived_call s c : survived_from allowed s0 s -> proper c -> allowed s c -> snd (run cf c s) <> Panic -> survived_from allowed s0 (after cf s c)
  | survived_crash s c s' : survived_from allowed s0 s -> proper c -> allowed s c -> s' ∈ commits c s -> index_checks s' -> survived_from allowed s0 s'.
  Definition survived (allowed : db L -> api -> Prop) (l0 : L) : db L -> Prop := survived_from allowed (initial_db cf l0).
  Definition any_call (s : db L) (c : api) : Prop := reset_below_valid s c.
  Definition only_blocks (s : db L) (c : api) : Prop := match c with ProcessBlock _ => True | _ => False end.
  (** Small enough numbers: heights and trust of stored blocks and of a submitted block do not reach the end of their types *)
  Definition in_range (s : db L) (c : api) : Prop :=
    (forall id b, idx s !! id = Some b -> bi_height b < U64_MAX /\ bi_trust b < U256_MAX) /\
    match c with
    | ProcessBlock blk => forall p, get_gen tc (idx s) (nb_prev blk) = Some p ->
        gen_height p + 1 < U64_MAX /\ gen_txs p + nb_txs blk <= U128_MAX /\ forall proof, nb_proof blk = Some proof -> gen_trust p + proof < U256_MAX
    | _ => True
    end.
End ChainstateSpec.
