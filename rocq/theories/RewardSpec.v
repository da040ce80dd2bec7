(** How a block reward is to be split, over plain tables and exact integers. *)
From Verif Require Import Base AmountModel LayeredModel PosModel PosSpec RewardModel.
Local Open Scope N_scope.

(** The staker's own part. If the fixed cost exceeds the reward the staker takes all. Otherwise the cost comes first; under
    the newer rules the staker also gets the pro-rata part of the rest for its own stake; of what remains the staker takes
    the margin (in thousandths), rounded down. *)
Definition staker_part (ver : reward_version) (total pool_balance staker_balance cost margin : N) : N :=
  if total <? cost then total
  else let rest := total - cost in
       match ver with
       | RewardV0 => cost + rest * margin / 1000
       | RewardV1 => let own := rest * staker_balance / pool_balance in cost + own + (rest - own) * margin / 1000
       end.

(** A delegation's reward: the floor of its exact share of the delegations' part. *)
Definition delegation_reward (part share all_shares : N) : N := part * share / all_shares.

(** The tables after the reward [total] of pool [p], when the staker's own part is [staker] and the pool's delegations hold
    [all] coins together: each delegation gets its reward, the staker gets everything else, nothing else changes. *)
Record distributed (s s' : pos_state) (p : pool_id) (x : pool_data) (total staker all : N) : Prop := {
  dr_pool_balance : forall q, ps_pool_balance s' q = ps_pool_balance s q + (if decide (q = p) then total else 0);
  dr_deleg_balance : forall d, ps_deleg_balance s' d = ps_deleg_balance s d + delegation_reward (total - staker) (ps_share s (p, d)) all;
  dr_share : forall q d, ps_share s' (q, d) = ps_share s (q, d) +
               (if decide (q = p) then delegation_reward (total - staker) (ps_share s (p, d)) all else 0);
  dr_deleg : forall d, ps_deleg s' d = ps_deleg s d;
  dr_pool : exists given, total_of (fun d => delegation_reward (total - staker) (ps_share s (p, d)) all) given /\
      given <= total - staker /\
      forall q, ps_pool s' q = if decide (q = p) then Some (with_rewards x (pd_rewards x + (total - given))) else ps_pool s q }.

(** Operations done through the adapter for one source before the reward: on the adapter (a refused operation stops nothing
    and changes nothing) and on the tables. *)
Fixpoint adapter_run (P : pos_view) (src : tx_source) (ops : list pos_op) (A : pos_adapter) : pos_adapter :=
  match ops with [] => A | o :: ops' => adapter_run P src ops' (adapter_op P A src o).1 end.
Fixpoint tables_after (s : pos_state) (ops : list pos_op) : pos_state :=
  match ops with [] => s | o :: ops' => tables_after (match pos_step s o with Ok s' => s' | _ => s end) ops' end.
Fixpoint ops_fit (s : pos_state) (ops : list pos_op) : Prop :=
  match ops with [] => True | o :: ops' => pos_fits s o /\ ops_fit (match pos_step s o with Ok s' => s' | _ => s end) ops' end.

(** What the version's own arithmetic needs: the older rules multiply 128-bit amounts; the newer ones divide by the pool's
    balance. *)
Definition reward_in_range (ver : reward_version) (total balance : N) (x : pool_data) : Prop :=
  match ver with RewardV0 => (total - pd_cost x) * pd_margin x <= U128_MAX | RewardV1 => 0 < balance end.
