(** Model of the staking-accounting adapter of the transaction verifier and of the distribution of block rewards.
    chainstate/tx-verifier/src/transaction_verifier/{pos_accounting_delta_adapter,reward_distribution,tx_source}.rs.
    Error payloads and logging are dropped. *)
From Verif Require Import Base AmountModel DeltaModel LayeredModel UintModel PosModel.
Local Open Scope N_scope.

(** tx_source.rs 23-27 *)
Inductive tx_source := SrcChain (block : N) | SrcMempool.
Global Instance tx_source_eq : EqDecision tx_source. Proof. solve_decision. Defined.
Global Instance tx_source_countable : Countable tx_source.
Proof.
  refine (inj_countable' (fun c => match c with SrcMempool => None | SrcChain i => Some i end)
                         (fun o => match o with None => SrcMempool | Some i => SrcChain i end) _).
  intros []; reflexivity.
Defined.

(** pos_accounting_delta_adapter.rs 33-60: the accumulated delta and one delta per source *)
Record pos_adapter := PosAdapter { pa_delta : pos_delta; pa_blocks : gmap tx_source pos_delta }.
(** pos_accounting_delta_adapter.rs 63-68 *)
Definition pos_adapter_new : pos_adapter := PosAdapter pos_delta_new ∅.

(** pos_accounting_delta_adapter.rs 123-131 *)
Definition adapter_merge (A : pos_adapter) (src : tx_source) (d : pos_delta) : pos_adapter * res pos_err unit :=
  let (acc, r) := pos_merge (pa_delta A) d in
  sbind (PosAdapter acc (pa_blocks A), r) (fun A _ =>
  let (b, r) := pos_merge (default pos_delta_new (pa_blocks A !! src)) d in
  (PosAdapter (pa_delta A) (<[src := b]> (pa_blocks A)), rmap (fun _ => tt) r)).

(** pos_accounting_delta_adapter.rs 134-177: all queries go to the accumulated delta *)
Definition adapter_view (P : pos_view) (A : pos_adapter) : pos_view := pos_cache_view P (pa_delta A).

(** pos_accounting_delta_adapter.rs 182-302: every operation runs on a fresh delta over the accumulated one, which is then
    merged into the accumulated delta and the delta of the source. *)
Definition adapter_op (P : pos_view) (A : pos_adapter) (src : tx_source) (o : pos_op) : pos_adapter * res pos_err pos_undo :=
  match pos_run (adapter_view P A) pos_delta_new o with
  | (d, Ok u) => sbind (adapter_merge A src d) (fun A _ => (A, Ok u))
  | (_, Err e) => (A, Err e)
  | (_, Panic) => (A, Panic)
  end.
(** pos_accounting_delta_adapter.rs 304-311 *)
Definition adapter_undo (P : pos_view) (A : pos_adapter) (src : tx_source) (u : pos_undo) : pos_adapter * res pos_err unit :=
  match undo_pos_op (adapter_view P A) pos_delta_new u with
  | (d, Ok _) => adapter_merge A src d
  | (_, Err e) => (A, Err e)
  | (_, Panic) => (A, Panic)
  end.

(** common/src/chain/upgrades/chainstate_upgrade/mod.rs 28-34: [RewardDistributionVersion] *)
Inductive reward_version := RewardV0 | RewardV1.

(** reward_distribution.rs 30-62 *)
Inductive reward_err :=
| RewardPos (e : pos_err) | PoolBalanceIsZero | StakerBalanceGreaterThanPoolBalance | RewardAdditionError
| TotalDelegationBalanceZero | RewardPoolDataNotFound | StakerRewardCalculationFailed | StakerRewardCannotExceedTotalReward
| DistributedExceedTotal | DelegationRewardOverflow | DelegationsRewardSumFailed | StakerRewardOverflow.

Definition uexpect {E A} (m : res unit A) : res E A := match m with Ok a => Ok a | _ => Panic end.

(** reward_distribution.rs 153-167 *)
Definition staker_reward_v0 (total cost : amount) (mpt : N) : option amount :=
  match amount_sub total cost with
  | Some to_distribute =>
      match amount_mul to_distribute mpt with
      | Some v => match amount_div v 1000 with
                  | Some v => amount_add v cost
                  | None => None
                  end
      | None => None
      end
  | None => Some total
  end.

(** reward_distribution.rs 169-231. [amount_sum!] adds from left to right. *)
Definition staker_reward_v1 (total pool_balance staker_balance cost : amount) (mpt : N) : res reward_err amount :=
  ensure (staker_balance <=? pool_balance) StakerBalanceGreaterThanPoolBalance ;?
  ensure (0 <? pool_balance) PoolBalanceIsZero ;?
  match amount_sub total cost with
  | Some to_distribute =>
      let? numer := uexpect (uchecked_mul (from_u128 4 to_distribute) (from_u128 4 staker_balance)) in
      let? q := uexpect (uchecked_div numer (from_u128 4 pool_balance)) in
      let? pro_rata := uexpect (u128_of_u256 q) in
      let? delegators := expect (amount_sub to_distribute pro_rata) in
      let? m := uexpect (let? v := uchecked_mul (from_u128 4 delegators) (from_u64 4 mpt) in uchecked_div v (from_u64 4 1000)) in
      let? margin := uexpect (u128_of_u256 m) in
      ok_or (match amount_add margin pro_rata with Some v => amount_add v cost | None => None end) StakerRewardOverflow
  | None => Ok total
  end.

(** reward_distribution.rs 279-316 *)
Definition rewards_per_delegation (shares : list (delegation_id * amount)) (total_balance total_reward : amount)
  : res reward_err (list (delegation_id * amount)) :=
  ensure (negb (total_balance =? 0)) TotalDelegationBalanceZero ;?
  rmapM (fun da : delegation_id * amount =>
    let? numer := uexpect (uchecked_mul (from_u128 4 total_reward) (from_u128 4 da.2)) in
    let? q := rmap_err (fun _ => TotalDelegationBalanceZero) (uchecked_div numer (from_u128 4 total_balance)) in
    let? r := rmap_err (fun _ => DelegationRewardOverflow) (u128_of_u256 q) in
    Ok (da.1, r)) shares.

(** Collecting fallible operations into a list, stopping at the first failure. *)
Fixpoint sfold {S X E B} (f : S -> X -> S * res E B) (l : list X) (s : S) : S * res E (list B) :=
  match l with
  | [] => (s, Ok [])
  | x :: l' => sbind (f s x) (fun s b => sbind (sfold f l' s) (fun s bs => (s, Ok (b :: bs))))
  end.
Definition map_err2 {S E F A} (f : E -> F) (m : S * res E A) : S * res F A := (m.1, rmap_err f m.2).

(** reward_distribution.rs 234-277 *)
Definition distribute_delegations (P : pos_view) (A : pos_adapter) (src : tx_source) (shares : list (delegation_id * amount))
  (total_balance total_reward : amount) : pos_adapter * res reward_err (list pos_undo * amount) :=
  on_ok A (rewards_per_delegation shares total_balance total_reward) (fun rewards =>
  sbind (sfold (fun A da => map_err2 RewardPos (adapter_op P A src (Delegate da.1 da.2)))
               (filter (fun da => 0 < da.2) rewards) A) (fun A undos =>
  on_ok A (
    let? distributed := ok_or (amount_sum rewards.*2) DelegationsRewardSumFailed in
    ok_or (amount_sub total_reward distributed) DistributedExceedTotal) (fun remainder =>
  (A, Ok (undos, remainder))))).

(** reward_distribution.rs 65-151. The [BTreeMap] of shares is read in the order of [map_to_list]. *)
Definition distribute_pos_reward (P : pos_view) (A : pos_adapter) (src : tx_source) (p : pool_id) (total : amount)
  (ver : reward_version) : pos_adapter * res reward_err (list pos_undo) :=
  on_ok A (
    let? od := rmap_err RewardPos (pv_pool (adapter_view P A) p) in
    let? data := ok_or od RewardPoolDataNotFound in
    let? balance := rmap_err RewardPos (pv_pool_balance (adapter_view P A) p) in
    let? staker := match ver with
                   | RewardV0 => ok_or (staker_reward_v0 total (pd_cost data) (pd_margin data)) StakerRewardCalculationFailed
                   | RewardV1 => let? sb := rmap_err RewardPos (staker_balance data) in
                                 staker_reward_v1 total balance sb (pd_cost data) (pd_margin data)
                   end in
    let? part := ok_or (amount_sub total staker) StakerRewardCannotExceedTotalReward in
    Ok (staker, part)) (fun '(staker, part) =>
  sbind (
    if 0 <? part then
      on_ok A (rmap_err RewardPos (pv_shares (adapter_view P A) p)) (fun shares =>
      match shares with
      | Some m =>
          on_ok A (ok_or (amount_sum (map_to_list m).*2) DelegationsRewardSumFailed) (fun total_balance =>
          if 0 <? total_balance then distribute_delegations P A src (map_to_list m) total_balance part
          else (A, Ok ([], part)))
      | None => (A, Ok ([], part))
      end)
    else (A, Ok ([], 0))) (fun A '(undos, unallocated) =>
  on_ok A (ok_or (amount_add staker unallocated) RewardAdditionError) (fun total_staker =>
  sbind (map_err2 RewardPos (adapter_op P A src (IncreaseRewards p total_staker))) (fun A u =>
  (A, Ok (undos ++ [u])))))).

(** mod.rs 1190-1198: the undos of a reward are applied in the order in which they were made. *)
Definition undo_reward (P : pos_view) (A : pos_adapter) (src : tx_source) (us : list pos_undo) : pos_adapter * res pos_err unit :=
  try_fold (fun A u => adapter_undo P A src u) us A.
