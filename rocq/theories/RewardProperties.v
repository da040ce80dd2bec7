(** C17, C18: distribution of block rewards among the staker and the delegations. *)
From Verif Require Import Base AmountModel DeltaModel LayeredModel PosModel PosSpec PosProofs RewardModel RewardSpec RewardProofs.
Local Open Scope N_scope.

(** Sample: a pool with a pledge of 100, cost 3 and margin 25/1000; delegations of 70, 30 and 0. *)
Definition empty_db : pos_db := PosDb ∅ ∅ ∅ ∅ ∅.
Definition empty_books : pos_state := PosState (fun _ => None) (fun _ => 0) (fun _ => None) (fun _ => 0) (fun _ => 0).
Definition pool1 : pool_data := PoolData 5 100 0 6 25 3.
Definition sample_ops : list pos_op :=
  [CreatePool 1 pool1; CreateDelegation 1 11 50; CreateDelegation 1 12 51; CreateDelegation 1 13 52; Delegate 11 70; Delegate 12 30;
   Delegate 14 5; SpendShare 12 0].
Lemma empty_db_is : pos_db_is empty_db empty_books.
Proof.
  unfold pos_db_is, no_zeroes, below_2_127, sound_stakes. cbn. repeat split; try discriminate; try (intros k; rewrite lookup_empty; discriminate).
Qed.
Lemma sample_ops_fit : ops_fit empty_books sample_ops.
Proof.
  unfold sample_ops. cbn [ops_fit]. split.
  { intros _. split; [vm_compute; discriminate|]. split; [reflexivity|]. intros d. reflexivity. }
  repeat (split; [first [exact I | intros y E; vm_compute in E; first [discriminate E | injection E as <-; split; vm_compute; discriminate]
                        | vm_compute; discriminate]|]).
  exact I.
Qed.

Section statements.
Context (db : pos_db) (s0 : pos_state) (src : tx_source) (ops : list pos_op) (p : pool_id) (x : pool_data) (total : amount)
  (ver : reward_version).
Let P := pos_db_view db.
Let A := adapter_run P src ops pos_adapter_new.
Let s := tables_after s0 ops.

(** C17. After any operations of the block, the reward of an existing pool is accepted and distributed completely: the pool's
    balance grows by exactly the reward, and the staker's gain and the delegations' gains add up to it. *)
Theorem C17_reward_distributed_exactly :
  pos_db_is db s0 -> ops_fit s0 ops -> ps_pool s p = Some x -> pd_margin x <= 1000 ->
  (Z.of_N (ps_pool_balance s p + total) <= I128_MAX)%Z -> reward_in_range ver total (ps_pool_balance s p) x ->
  exists A' us s', distribute_pos_reward P A src p total ver = (A', Ok us) /\
    pos_reads (adapter_view P A) s /\ pos_reads (adapter_view P A') s' /\
    ps_pool_balance s' p = ps_pool_balance s p + total /\
    exists x' given, ps_pool s' p = Some x' /\ total_of (fun d => ps_deleg_balance s' d - ps_deleg_balance s d) given /\
      pd_pledge x' = pd_pledge x /\ (pd_rewards x' - pd_rewards x) + given = total /\ pd_rewards x <= pd_rewards x'.
Proof.
  intros Hdb Hf Hx Hm Hb Hv. destruct (reward_run db s0 src ops Hdb Hf p x total ver Hx Hm Hb Hv) as (A' & us & s' & all & E & R1 & R2 & T & B & D & _).
  assert (Hle : staker_part ver total (ps_pool_balance s p) (pd_pledge x + pd_rewards x) (pd_cost x) (pd_margin x) <= total).
  { apply staker_part_le; [exact Hm|unfold s; lia|]. intros ->. exact Hv. }
  destruct (distributed_sum _ _ _ _ _ _ _ Hx D Hle) as (S1 & x' & given & S2 & S3 & S4 & S5 & S6 & _).
  exists A', us, s'. split; [exact E|]. split; [exact R1|]. split; [exact R2|]. split; [exact S1|]. exists x', given. auto.
Qed.

(** C17. Undoing the reward in the order the node does it is accepted and restores every answer. *)
Theorem C17_reward_undo_restores :
  pos_db_is db s0 -> ops_fit s0 ops -> ps_pool s p = Some x -> pd_margin x <= 1000 ->
  (Z.of_N (ps_pool_balance s p + total) <= I128_MAX)%Z -> reward_in_range ver total (ps_pool_balance s p) x ->
  exists A' us A'', distribute_pos_reward P A src p total ver = (A', Ok us) /\ undo_reward P A' src us = (A'', Ok tt) /\
    pos_answers_agree (adapter_view P A) (adapter_view P A'').
Proof.
  intros Hdb Hf Hx Hm Hb Hv. destruct (reward_run db s0 src ops Hdb Hf p x total ver Hx Hm Hb Hv) as (A' & us & s' & all & E & R1 & _ & _ & _ & _ & A'' & E2 & R2).
  exists A', us, A''. split; [exact E|]. split; [exact E2|]. exact (pos_reads_agree _ _ _ R1 R2).
Qed.

(** C18. Every delegation of the pool gets the floor of its exact proportional share of what the staker's part leaves, the
    staker gets the rest, and nothing else changes. *)
Theorem C18_rewards_proportional :
  pos_db_is db s0 -> ops_fit s0 ops -> ps_pool s p = Some x -> pd_margin x <= 1000 ->
  (Z.of_N (ps_pool_balance s p + total) <= I128_MAX)%Z -> reward_in_range ver total (ps_pool_balance s p) x ->
  exists A' us s' all, distribute_pos_reward P A src p total ver = (A', Ok us) /\
    pos_reads (adapter_view P A) s /\ pos_reads (adapter_view P A') s' /\
    total_of (fun d => ps_share s (p, d)) all /\
    distributed s s' p x total
      (staker_part ver total (ps_pool_balance s p) (pd_pledge x + pd_rewards x) (pd_cost x) (pd_margin x)) all.
Proof.
  intros Hdb Hf Hx Hm Hb Hv. destruct (reward_run db s0 src ops Hdb Hf p x total ver Hx Hm Hb Hv) as (A' & us & s' & all & E & R1 & R2 & T & _ & D & _).
  exists A', us, s', all. auto.
Qed.
End statements.
Print Assumptions C17_reward_distributed_exactly.
Print Assumptions C17_reward_undo_restores.
Print Assumptions C18_rewards_proportional.

(** 53 coins: the cost of 3, half of the other 50 pro rata, 0 of 25 as margin; 17 and 7 for the delegations, 1 left over. *)
Definition sample_view (ver : reward_version) : pos_view :=
  let P := pos_db_view empty_db in
  adapter_view P (distribute_pos_reward P (adapter_run P (SrcChain 9) sample_ops pos_adapter_new) (SrcChain 9) 1 53 ver).1.
Example C17_example :
  pos_db_is empty_db empty_books /\ ops_fit empty_books sample_ops /\ ps_pool (tables_after empty_books sample_ops) 1 = Some pool1 /\
  ps_pool_balance (tables_after empty_books sample_ops) 1 = 200 /\
  reward_in_range RewardV1 53 200 pool1 /\ reward_in_range RewardV0 53 200 pool1 /\
  pv_pool_balance (sample_view RewardV1) 1 = Ok 253 /\ pv_deleg_balance (sample_view RewardV1) 11 = Ok 87 /\
  pv_deleg_balance (sample_view RewardV1) 12 = Ok 37 /\ pv_pool (sample_view RewardV1) 1 = Ok (Some (PoolData 5 100 29 6 25 3)) /\
  pv_deleg_balance (sample_view RewardV0) 11 = Ok 104 /\ pv_pool (sample_view RewardV0) 1 = Ok (Some (PoolData 5 100 5 6 25 3)).
Proof.
  split; [exact empty_db_is|]. split; [exact sample_ops_fit|]. split; [reflexivity|]. split; [reflexivity|].
  split; [reflexivity|]. split; [vm_compute; discriminate|]. repeat split; vm_compute; reflexivity.
Qed.

(** C18. The arithmetic never aborts, whatever the 128-bit inputs, and the staker's own part never exceeds the reward. *)
Theorem C18_arithmetic_never_crashes :
  (forall total balance staker cost margin, total <= U128_MAX -> balance <= U128_MAX -> staker <= U128_MAX -> margin <= 1000 ->
     staker_reward_v1 total balance staker cost margin <> Panic /\
     forall r, staker_reward_v1 total balance staker cost margin = Ok r -> r <= total) /\
  (forall total cost margin r, margin <= 1000 -> staker_reward_v0 total cost margin = Some r -> r <= total) /\
  (forall shares all part, all <= U128_MAX -> part <= U128_MAX -> (forall d a, (d, a) ∈ shares -> a <= U128_MAX) ->
     rewards_per_delegation shares all part <> Panic).
Proof. exact (conj staker_reward_v1_no_panic (conj staker_reward_v0_le rewards_no_panic)). Qed.
Print Assumptions C18_arithmetic_never_crashes.

Example C18_example :
  staker_reward_v1 U128_MAX U128_MAX U128_MAX 0 1000 = Ok U128_MAX /\ staker_reward_v0 53 3 25 = Some 4 /\
  rewards_per_delegation [(11, U128_MAX)] 1 2 = Err DelegationRewardOverflow /\
  staker_reward_v0 U128_MAX 0 25 = None.
Proof. repeat split; vm_compute; reflexivity. Qed.
