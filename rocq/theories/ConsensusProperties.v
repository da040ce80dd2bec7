(** C28, C29, C55: effective pool balance, targets, staking eligibility. *)
From Verif Require Import Base BaseProofs AmountModel UintModel UintSpec UintProofs PrimModel PrimSpec PrimProofs ScheduleModel BlockTreeModel ConsensusModel ConsensusSpec ConsensusProofs.
Local Open Scope N_scope.

(** * C28 *)
(** For every supply from 1000 to 2^86 atoms (the main network's is below 2^66), every balance below the supply and every pledge
    up to the balance the effective balance exists and is the documented formula. *)
Theorem C28_documented_formula pledge balance supply : 1000 <= supply -> supply <= 2 ^ 86 -> balance < supply -> pledge <= balance ->
  effective_pool_balance pledge balance supply = Ok (documented_balance pledge balance supply).
Proof.
  intros H1 H2 Hb Hp. rewrite eb_spec; [|transitivity (2 ^ 86); [done|vm_compute; done]|done|done].
  set (z := saturation supply). assert (Hz : z <= 2 ^ 86 / 1000) by (apply N.div_le_mono; done). assert (Hg : capped balance supply <= z) by (unfold capped, z; lia).
  assert (Hm : capped balance supply * (z * z) <= (2 ^ 86 / 1000) * ((2 ^ 86 / 1000) * (2 ^ 86 / 1000))) by (repeat apply N.mul_le_mono; try done; etransitivity; done).
  rewrite (proj2 (N.leb_le 1000 supply)) by done.
  rewrite (proj2 (N.ltb_lt _ (capacity 4))) by (apply (N.le_lt_trans _ _ _ Hm); vm_compute; done). cbn [andb].
  rewrite (proj2 (N.ltb_lt _ (capacity 4))); [done|]. apply (N.le_lt_trans _ ((2 ^ 86 / 1000) * ((2 ^ 86 / 1000) * (2 ^ 86 / 1000)) * influence_n)); [|vm_compute; done].
  apply N.mul_le_mono_r. etransitivity; [apply shortfall_le|]. exact Hm.
Qed.
Print Assumptions C28_documented_formula.
(** For all 128-bit inputs: exactly when a result exists, and that nothing else happens. *)
Theorem C28_defined_exactly pledge balance supply : supply <= U128_MAX ->
  effective_pool_balance pledge balance supply =
    if supply =? 0 then Err EbSupplyZero
    else if supply <=? balance then Err EbBalanceGreaterThanSupply
    else if balance <? pledge then Err EbPledgeGreaterThanBalance
    else let z := saturation supply in
         if (1000 <=? supply) && (capped balance supply * (z * z) <? 2 ^ 256) && (shortfall (capped balance supply) (capped pledge supply) z * influence_n <? 2 ^ 256)
         then Ok (documented_balance pledge balance supply) else Err EbArithmetic.
Proof.
  intros Hs. destruct (supply =? 0) eqn:E0.
  { unfold effective_pool_balance, effective_pool_balance_impl. rewrite (proj2 (N.ltb_ge 0 supply)) by lia. done. }
  destruct (supply <=? balance) eqn:E1.
  { unfold effective_pool_balance, effective_pool_balance_impl. rewrite (proj2 (N.ltb_lt 0 supply)) by lia. rewrite (proj2 (N.ltb_ge balance supply)) by lia. done. }
  destruct (balance <? pledge) eqn:E2.
  { unfold effective_pool_balance, effective_pool_balance_impl. rewrite (proj2 (N.ltb_lt 0 supply)) by lia. rewrite (proj2 (N.ltb_lt balance supply)) by lia. rewrite (proj2 (N.leb_gt pledge balance)) by lia. done. }
  rewrite eb_spec by lia. change (capacity 4) with (2 ^ 256). done.
Qed.
Print Assumptions C28_defined_exactly.
(** Whenever there is a result it is at most the balance, at most a thousandth of the supply, and at least the capped balance
    divided by one plus the influence parameter. *)
Theorem C28_capped pledge balance supply e : supply <= U128_MAX -> effective_pool_balance pledge balance supply = Ok e ->
  e <= balance /\ e <= supply / 1000 /\ N.min balance (supply / 1000) * 1000000000 <= e * 1075375728.
Proof.
  intros Hs E. rewrite C28_defined_exactly in E by done. destruct (supply =? 0) eqn:E0; [done|]. destruct (supply <=? balance) eqn:E1; [done|]. destruct (balance <? pledge) eqn:E2; [done|].
  cbv zeta in E. destruct (1000 <=? supply) eqn:E3; cbn [andb] in E; [|done]. destruct (_ <? 2 ^ 256); cbn [andb] in E; [|done]. destruct (_ <? 2 ^ 256); [|done]. injection E as <-.
  pose proof (documented_floor pledge balance supply) as F. split; [|split; [|apply F; lia]].
  - etransitivity; [apply N.le_sub_l|apply N.le_min_l].
  - etransitivity; [apply N.le_sub_l|apply N.le_min_r].
Qed.
Print Assumptions C28_capped.
(** More balance with the same pledge never counts for less. *)
Theorem C28_balance_monotone pledge b1 b2 supply e1 e2 : supply <= U128_MAX -> b1 <= b2 ->
  effective_pool_balance pledge b1 supply = Ok e1 -> effective_pool_balance pledge b2 supply = Ok e2 -> e1 <= e2.
Proof.
  intros Hs Hb E1 E2. rewrite C28_defined_exactly in E1, E2 by done. destruct (supply =? 0); [done|].
  destruct (supply <=? b1); [done|]. destruct (supply <=? b2); [done|]. destruct (b1 <? pledge) eqn:F1; [done|]. destruct (b2 <? pledge); [done|]. cbv zeta in *.
  destruct (1000 <=? supply) eqn:F2; cbn [andb] in *; [|done]. repeat (destruct (_ <? 2 ^ 256) in E1; cbn [andb] in E1; [|done]). repeat (destruct (_ <? 2 ^ 256) in E2; cbn [andb] in E2; [|done]).
  injection E1 as <-. injection E2 as <-. apply documented_balance_mono; lia.
Qed.
Print Assumptions C28_balance_monotone.
(** Pledging more, up to half of the pool's balance, never counts for less; in pools that are at least half saturated this
    holds for every pledge. *)
Theorem C28_pledge_helps_up_to_half p1 p2 balance supply e1 e2 : supply <= U128_MAX -> p1 <= p2 ->
  2 * p2 <= balance \/ supply / 1000 <= 2 * balance ->
  effective_pool_balance p1 balance supply = Ok e1 -> effective_pool_balance p2 balance supply = Ok e2 -> e1 <= e2.
Proof.
  intros Hs Hp Hc E1 E2. rewrite C28_defined_exactly in E1, E2 by done. destruct (supply =? 0); [done|].
  destruct (supply <=? balance); [done|]. destruct (balance <? p1) eqn:F1; [done|]. destruct (balance <? p2) eqn:F3; [done|]. cbv zeta in *.
  destruct (1000 <=? supply) eqn:F2; cbn [andb] in *; [|done]. repeat (destruct (_ <? 2 ^ 256) in E1; cbn [andb] in E1; [|done]). repeat (destruct (_ <? 2 ^ 256) in E2; cbn [andb] in E2; [|done]).
  injection E1 as <-. injection E2 as <-. apply documented_pledge_mono; try lia. unfold capped, saturation in *. set (z := supply / 1000) in *. clearbody z. clear -Hc F3.
  destruct (N.le_gt_cases z balance) as [L|L].
  - rewrite (N.min_r balance z) by done. rewrite N.sub_diag. lia.
  - rewrite (N.min_l balance z) by lia. rewrite (N.min_l p2 z) by lia. destruct Hc as [Hc|Hc].
    + transitivity (balance * z); [apply N.mul_le_mono; lia|]. lia.
    + rewrite (N.mul_comm z). rewrite <- N.mul_assoc. rewrite (N.mul_comm 2). transitivity (balance * ((z - balance) * 2)); [rewrite <- N.mul_assoc; apply N.mul_le_mono_r; lia|]. apply N.mul_le_mono_l. lia.
Qed.
Print Assumptions C28_pledge_helps_up_to_half.
(** The expectation that a larger pledge never counts for less is false: in a small pool the staker who owns everything counts
    for less than one who owns half of it. The comment in the code describes this peak. *)
Theorem C28_more_pledge_never_hurts_refuted : ~ (forall p1 p2 balance supply e1 e2, supply <= 2 ^ 86 -> p1 <= p2 ->
  effective_pool_balance p1 balance supply = Ok e1 -> effective_pool_balance p2 balance supply = Ok e2 -> e1 <= e2).
Proof.
  intro H. pose proof (H 50000 100000 100000 1000000000 93184 93061 ltac:(vm_compute; done) ltac:(vm_compute; done)) as X.
  apply X; vm_compute; reflexivity.
Qed.
Print Assumptions C28_more_pledge_never_hurts_refuted.
(** For supplies far above any real one the 256-bit intermediate values overflow and there is no result. *)
Theorem C28_defined_for_every_supply_refuted : ~ (forall pledge balance supply, 1000 <= supply -> supply <= U128_MAX -> balance < supply -> pledge <= balance ->
  exists e, effective_pool_balance pledge balance supply = Ok e).
Proof.
  intro H. destruct (H 0 (U128_MAX - 1) U128_MAX) as [e E]; [vm_compute; done..|]. assert (X : effective_pool_balance 0 (U128_MAX - 1) U128_MAX = Err EbArithmetic) by (vm_compute; reflexivity). rewrite X in E. discriminate E.
Qed.
Print Assumptions C28_defined_for_every_supply_refuted.
Example C28_example : effective_pool_balance 4000000000000000 20000000000000000 59999080000000000000 = Ok 18679147907594054 /\
  effective_pool_balance 59999080000000000 59999080000000000 59999080000000000000 = Ok 59999080000000000 /\ effective_pool_balance 5 5 999 = Err EbArithmetic /\ effective_pool_balance 6 5 2000 = Err EbPledgeGreaterThanBalance.
Proof. split_and!; vm_compute; reflexivity. Qed.

(** * C55: who may produce a block *)
(** A stake hash is accepted exactly when it does not exceed the target times the balance that counts, computed without
    overflow, for all 256-bit hashes and targets. *)
Theorem C55_hash_check_exact version hash target pledge balance supply : words 4 hash -> words 4 target -> balance <= U128_MAX -> supply <= U128_MAX ->
  check_pos_hash version hash target pledge balance supply = Ok tt <->
  exists counted, uval hash <= counted * uval target /\
    match version with PosV0 => counted = balance | PosV1 => effective_pool_balance pledge balance supply = Ok counted | PosOther => False end.
Proof.
  intros Hh Ht Hb Hs. destruct version; cbn [check_pos_hash].
  - rewrite hash_below_spec by done. destruct (uval hash <=? balance * uval target) eqn:E; split; intro X; try done; [exists balance; split; [lia|done]|].
    destruct X as (c & L & ->). lia.
  - destruct (effective_pool_balance pledge balance supply) as [e| |] eqn:E; cbn [rmap_err rbind]; [|split; [done|intros (c & _ & X); done]..].
    destruct (C28_capped _ _ _ _ Hs E) as (Le & _). rewrite hash_below_spec; [|done|done|lia].
    destruct (uval hash <=? e * uval target) eqn:F; split; intro X; try done; [exists e; split; [lia|done]|]. destruct X as (c & L & [= <-]). lia.
  - split; [done|]. intros (c & _ & []).
Qed.
Print Assumptions C55_hash_check_exact.
Lemma check_no_panic version hash target pledge balance supply : words 4 hash -> words 4 target -> balance <= U128_MAX -> supply <= U128_MAX ->
  check_pos_hash version hash target pledge balance supply <> Panic.
Proof.
  intros Hh Ht Hb Hs. destruct version; cbn [check_pos_hash]; [rewrite hash_below_spec by done; by destruct (_ <=? _)| |done].
  destruct (effective_pool_balance pledge balance supply) as [e| |] eqn:E; cbn [rmap_err rbind]; [|done|].
  - destruct (C28_capped _ _ _ _ Hs E) as (Le & _). rewrite hash_below_spec; [by destruct (_ <=? _)|done|done|lia].
  - rewrite C28_defined_exactly in E by done. cbv zeta in E. repeat (destruct (_ : bool) in E; try done).
Qed.
(** The search for a timestamp returns the first one in the given range at which the staker's hash is accepted, and nothing
    only if there is none in the range. *)
Theorem C55_search_finds_first vrf version bits target pledge balance supply first max : compact_decode bits = Ok target ->
  (forall t h, vrf t = Some h -> words 4 h) -> balance <= U128_MAX -> supply <= U128_MAX -> first <= max ->
  let good t := exists h, vrf t = Some h /\ check_pos_hash version h target pledge balance supply = Ok tt in
  exists r, find_timestamp_for_staking vrf version bits pledge balance supply first max = Ok r /\
    match r with
    | Some t => first <= t <= max /\ good t /\ forall t', first <= t' < t -> ~ good t'
    | None => forall t, first <= t <= max -> ~ good t
    end.
Proof.
  intros Hd Hv Hb Hs Hm good. unfold find_timestamp_for_staking. rewrite Hd. cbn [rbind]. rewrite (proj2 (N.leb_le first max)) by done. cbn [negb].
  destruct (decode_ok bits target Hd) as (_ & _ & _ & Wt & _).
  assert (G : forall count from, exists r, search_timestamps vrf version target pledge balance supply from count = Ok r /\
    match r with
    | Some t => from <= t < from + N.of_nat count /\ good t /\ forall t', from <= t' < t -> ~ good t'
    | None => forall t, from <= t < from + N.of_nat count -> ~ good t
    end).
  { induction count as [|count IH]; intro from; cbn [search_timestamps]; [exists None; split; [done|intros t Ht; lia]|].
    destruct (IH (from + 1)) as (r & E & R).
    assert (Skip : ~ good from -> exists r, search_timestamps vrf version target pledge balance supply (from + 1) count = Ok r /\
      match r with
      | Some t => from <= t < from + N.of_nat (S count) /\ good t /\ forall t', from <= t' < t -> ~ good t'
      | None => forall t, from <= t < from + N.of_nat (S count) -> ~ good t
      end).
    { intro Ng. exists r. split; [done|]. destruct r as [t|].
      - destruct R as (Rt & Gt & Lt). split; [lia|]. split; [done|]. intros t' Ht'. destruct (N.eq_dec t' from) as [->|]; [done|]. apply Lt. lia.
      - intros t Ht. destruct (N.eq_dec t from) as [->|]; [done|]. apply R. lia. }
    destruct (vrf from) as [h|] eqn:Ev.
    - destruct (check_pos_hash version h target pledge balance supply) as [[]|e|] eqn:Ec.
      + exists (Some from). split; [done|]. split; [lia|]. split; [by exists h|]. intros; lia.
      + apply Skip. intros (h' & Eh & Ec'). congruence.
      + destruct (check_no_panic version h target pledge balance supply); eauto.
    - apply Skip. intros (h' & Eh & _). congruence. }
  destruct (G (N.to_nat (max - first + 1)) first) as (r & E & R). exists r. split; [done|]. destruct r as [t|].
  - destruct R as (Rt & Gt & Lt). split; [lia|]. split; [done|]. done.
  - intros t Ht. apply R. lia.
Qed.
Print Assumptions C55_search_finds_first.
Definition ex_vrf (t : N) : option uint := Some [0; 0; 0; if t mod 3 =? 0 then 0 else 18446744073709551615].
Example C55_example : compact_decode 486604799 = Ok [0; 0; 0; 4294901760] /\ (forall t h, ex_vrf t = Some h -> words 4 h) /\
  find_timestamp_for_staking ex_vrf PosV1 486604799 50000 100000 1000000000 100 200 = Ok (Some 102) /\
  find_timestamp_for_staking ex_vrf PosV1 486604799 50000 100000 1000000000 100 101 = Ok None.
Proof.
  split; [vm_compute; reflexivity|]. split; [|split; vm_compute; reflexivity].
  intros t h [= <-]. split; [done|]. rewrite !Forall_cons. split_and!; [vm_compute; done..| |by constructor]. destruct (t mod 3 =? 0); vm_compute; done.
Qed.

(** * C29 *)
(** The next staking target: with [p] the previous target and [avg] the average block time, the exact target is p * avg / spacing,
    forced into p plus or minus the allowed fraction and below the limit; what is returned is its compact form. *)
Definition exact_pos_target (cf : pos_config) (spacing p avg : N) : N :=
  let change := p * change_limit cf / 1000 in
  N.min (uval (target_limit cf)) (clamp (p * N.max 1 avg / spacing) (p - change) (p + change)).
Definition good_config (cf : pos_config) : Prop := words 4 (target_limit cf) /\ change_limit cf <= 1000 /\ 2 <= count_to_average cf <= 2 ^ 62.
(** First block of the averaging window *)
Definition window_start (cf : pos_config) (height : N) : N := height - (count_to_average cf - 1).
Lemma average_spec cf height time time_at a : good_config cf -> height <= 2 ^ 62 ->
  average_block_time cf height time time_at = a ->
  match a with
  | Ok avg => exists t0, time_at (window_start cf height) = Some t0 /\ t0 <= time /\ window_start cf height < height /\ avg = (time - t0) / (height - window_start cf height)
  | Err e => (e = PosEmptyTimespan /\ height = 0) \/ (e = PosAncestor /\ time_at (window_start cf height) = None) \/ (e = PosNotMonotonic /\ exists t0, time_at (window_start cf height) = Some t0 /\ time < t0)
  | Panic => False
  end.
Proof.
  intros (_ & _ & Hc) Hh. unfold average_block_time, window_start.
  assert (Es : (match height_sub height (Z.of_N (count_to_average cf) - 1) with Ok h => h | _ => 0 end) = height - (count_to_average cf - 1)).
  { unfold height_sub, i64_of_u64, i64_checked, u64_of_i64. assert (I64_MAX = 9223372036854775807%Z) as -> by reflexivity. assert (I64_MIN = (-9223372036854775808)%Z) as -> by reflexivity.
    rewrite (proj2 (Z.leb_le (Z.of_N height) 9223372036854775807)) by lia. cbn [ok_or rbind]. rewrite (proj2 (Z.ltb_ge (Z.of_N height) 0)) by lia.
    rewrite (proj2 (Z.leb_le (-9223372036854775808) (Z.of_N height - (Z.of_N (count_to_average cf) - 1)))) by lia.
    rewrite (proj2 (Z.leb_le (Z.of_N height - (Z.of_N (count_to_average cf) - 1)) 9223372036854775807)) by lia. cbn [andb ok_or rbind].
    destruct (_ <? 0)%Z eqn:E; [lia|]. rewrite (proj2 (Z.leb_le _ _)) by lia. cbn. lia. }
  rewrite Es. set (start := height - (count_to_average cf - 1)). assert (Hst : start <= height) by lia.
  destruct (start <? height) eqn:E; cbn [negb].
  2: { intros <-. left. split; [done|]. unfold start in *. lia. }
  destruct (time_at start) as [t0|] eqn:Et; cbn [ok_or rbind]; [|intros <-; right; left; done].
  unfold checked_sub. destruct (t0 <=? time) eqn:El; cbn [ok_or rbind]; [|intros <-; right; right; split; [done|]; exists t0; split; [done|lia]].
  assert (Ed : height_diff height start = Ok (Z.of_N height - Z.of_N start)%Z).
  { unfold height_diff, i64_of_u64, i64_checked. assert (I64_MAX = 9223372036854775807%Z) as -> by reflexivity. assert (I64_MIN = (-9223372036854775808)%Z) as -> by reflexivity.
    rewrite (proj2 (Z.leb_le (Z.of_N height) 9223372036854775807)) by lia. rewrite (proj2 (Z.leb_le (Z.of_N start) 9223372036854775807)) by lia. cbn [ok_or rbind].
    rewrite (proj2 (Z.leb_le (-9223372036854775808) (Z.of_N height - Z.of_N start))) by lia. rewrite (proj2 (Z.leb_le (Z.of_N height - Z.of_N start) 9223372036854775807)) by lia. done. }
  rewrite Ed. cbn [rexpect rbind]. assert (Ez : Z.to_N (Z.of_N height - Z.of_N start) = height - start) by lia. rewrite Ez. unfold checked_div.
  rewrite (proj2 (N.eqb_neq (height - start) 0)) by lia. intros <-. exists t0. split_and!; try done; lia.
Qed.
Theorem C29_stake_target ups spacing cf height time bits time_at c : good_config cf -> 0 < spacing -> spacing <= U64_MAX -> height <= 2 ^ 62 -> time <= U64_MAX ->
  consensus_status ups height = Ok (PoSOngoing cf) ->
  pos_target_required ups spacing (PosOngoing cf) (PrevBlock height time (PosData bits)) time_at = Ok c ->
  exists p t0 w, compact_decode bits = Ok p /\ time_at (window_start cf height) = Some t0 /\ t0 <= time /\ compact_decode c = Ok w /\
    rounded (exact_pos_target cf spacing (uval p) ((time - t0) / (height - window_start cf height))) (uval w) /\
    uval w <= uval (target_limit cf) /\ uval w * 1000 <= uval p * (1000 + change_limit cf) /\
    N.min (uval (target_limit cf)) (uval p - uval p * change_limit cf / 1000) * 2 ^ 15 <= uval w * (2 ^ 15 + 1).
Proof.
  intros Hc Hs Hs' Hh Ht St E. cbn [pos_target_required] in E. unfold pos_target_internal in E. rewrite St in E. cbn [rexpect rbind] in E.
  destruct (compact_decode bits) as [p| |] eqn:Ep; cbn [rmap_err rbind] in E; [|done..].
  destruct (average_block_time cf height time time_at) as [avg| |] eqn:Ea; cbn [rbind] in E; [|done..].
  apply average_spec in Ea; [|done|done]. destruct Ea as (t0 & Et & Lt & Lw & ->). rewrite (proj2 (N.eqb_neq spacing 0)) in E by lia.
  destruct (decode_ok bits p Ep) as (_ & _ & _ & Wp & _). destruct Hc as (Hl & Hc & Hn).
  set (avg := (time - t0) / (height - window_start cf height)) in *. assert (Ba : avg <= U64_MAX).
  { apply N.div_le_upper_bound; [lia|]. transitivity (1 * U64_MAX); [lia|]. apply N.mul_le_mono_r. lia. }
  destruct (pos_new_target_spec cf p avg spacing Wp Hl Ba Hs Hs' Hc) as (v & Wv & Ev & Vv). rewrite Ev in E.
  destruct (compact_round v Wv) as (c' & w & E1 & _ & E2 & Ww & R1 & R2 & _). rewrite E1 in E. cbn [rexpect] in E. injection E as <-.
  assert (Vx : uval v = exact_pos_target cf spacing (uval p) avg) by done. clear Vv. exists p, t0, w. split; [done|]. split; [done|]. split; [done|]. split; [done|]. split; [fold avg; by rewrite <- Vx|]. split_and!.
  - transitivity (uval v); [done|]. rewrite Vx. unfold exact_pos_target. lia.
  - transitivity (uval v * 1000); [lia|]. rewrite Vx. unfold exact_pos_target, clamp. set (P := uval p) in *. set (ch := P * change_limit cf / 1000).
    assert (Dp : ch * 1000 <= P * change_limit cf) by (rewrite N.mul_comm; apply N.mul_div_le; done). clearbody ch. set (x := P * N.max 1 avg / spacing). clearbody x.
    rewrite N.mul_add_distr_l. set (Q := P * change_limit cf) in *. clearbody Q. lia.
  - change (2 ^ 15) with 32768 in *. assert (M : N.min (uval (target_limit cf)) (uval p - uval p * change_limit cf / 1000) <= uval v).
    { rewrite Vx. unfold exact_pos_target, clamp. set (x := uval p * N.max 1 avg / spacing). set (ch := uval p * change_limit cf / 1000). clearbody x ch. lia. }
    set (m := N.min _ _) in *. clearbody m. clear -M R1 R2. lia.
Qed.
Print Assumptions C29_stake_target.
(** Blocks slower than intended never make staking harder, faster blocks never make it easier (before compact rounding). *)
Theorem C29_stake_target_direction cf spacing p avg : 0 < spacing -> change_limit cf <= 1000 ->
  (spacing <= avg -> N.min (uval (target_limit cf)) p <= exact_pos_target cf spacing p avg) /\
  (avg <= spacing -> exact_pos_target cf spacing p avg <= p).
Proof.
  intros Hs Hc. unfold exact_pos_target, clamp. set (ch := p * change_limit cf / 1000). clearbody ch. split; intro H.
  - assert (p <= p * N.max 1 avg / spacing) by (apply N.div_le_lower_bound; [lia|]; rewrite N.mul_comm; apply N.mul_le_mono_l; lia). set (x := p * _ / _) in *. clearbody x. lia.
  - assert (p * N.max 1 avg / spacing <= p) by (apply N.div_le_upper_bound; [lia|]; rewrite (N.mul_comm spacing); apply N.mul_le_mono_l; lia). set (x := p * _ / _) in *. clearbody x. lia.
Qed.
Print Assumptions C29_stake_target_direction.
(** Computing the next staking target never crashes after a proof-of-stake block. *)
Theorem C29_stake_target_no_crash ups spacing cf st height time bits time_at : good_config cf -> spacing <= U64_MAX -> height <= 2 ^ 62 -> time <= U64_MAX ->
  (exists cf', consensus_status ups height = Ok (PoSOngoing cf') \/ exists d, consensus_status ups height = Ok (PoSThreshold d cf')) ->
  st = PosOngoing cf \/ (exists d, st = PosThreshold d cf) ->
  pos_target_required ups spacing st (PrevBlock height time (PosData bits)) time_at <> Panic /\ pos_target_required ups spacing st PrevGenesis time_at <> Panic.
Proof.
  intros Hc Hs Hh Ht St Hst. destruct Hc as (Hl & Hc & Hn).
  assert (Int : pos_target_internal ups spacing cf height time (PosData bits) time_at <> Panic).
  { unfold pos_target_internal.
    assert (X : (let? prev_target := rmap_err (fun _ => PosBadBits) (compact_decode bits) in let? average := average_block_time cf height time time_at in
          if spacing =? 0 then Err PosInvalidSpacing else rexpect (pos_new_target cf prev_target average spacing)) <> Panic).
    { destruct (compact_decode bits) as [p| |] eqn:Ep; cbn [rmap_err rbind]; [|done|by destruct (decode_no_panic bits)].
      destruct (average_block_time cf height time time_at) as [avg| |] eqn:Ea; cbn [rbind]; [|done|].
      - apply average_spec in Ea; [|done|done]. destruct Ea as (t0 & Et & Lt & Lw & ->). destruct (spacing =? 0) eqn:E0; [done|].
        destruct (decode_ok bits p Ep) as (_ & _ & _ & Wp & _). set (avg := (time - t0) / (height - window_start cf height)) in *. assert (Ba : avg <= U64_MAX).
        { apply N.div_le_upper_bound; [lia|]. transitivity (1 * U64_MAX); [lia|]. apply N.mul_le_mono_r. lia. }
        destruct (pos_new_target_spec cf p avg spacing Wp Hl Ba ltac:(lia) Hs Hc) as (v & Wv & -> & Vv). destruct (compact_round v Wv) as (c' & w & -> & _). done.
      - by apply average_spec in Ea. }
    destruct St as (cf' & [St|(d & St)]); rewrite St; cbn [rexpect rbind]; [done|]. destruct d; done. }
  assert (Gen : rexpect (E := unit) (F := pos_err) (compact_encode (target_limit cf)) <> Panic).
  { destruct (compact_round _ Hl) as (c & w & -> & _). done. }
  destruct Hst as [->|(d & ->)]; cbn [pos_target_required]; [done|]. destruct d; done.
Qed.
Print Assumptions C29_stake_target_no_crash.
(** At a switch of the rules that sets a target, that target is required; the first block after the genesis needs the easiest
    target there is, up to the rounding of its encoding; a switch that sets none changes nothing. *)
Theorem C29_stake_target_at_switch ups spacing cf d prev time_at :
  pos_target_required ups spacing (PosThreshold (Some d) cf) prev time_at = Ok d /\
  pos_target_required ups spacing (PosThreshold None cf) prev time_at = pos_target_required ups spacing (PosOngoing cf) prev time_at /\
  (words 4 (target_limit cf) -> exists c w, pos_target_required ups spacing (PosOngoing cf) PrevGenesis time_at = Ok c /\ compact_decode c = Ok w /\
     rounded (uval (target_limit cf)) (uval w)).
Proof.
  split; [done|]. split; [done|]. intros Hw. destruct (compact_round _ Hw) as (c & w & E & _ & E2 & Ww & R1 & R2 & _). cbn [pos_target_required]. rewrite E. exists c, w. done.
Qed.
Print Assumptions C29_stake_target_at_switch.
(** The next work target after a retarget: at most the limit, at most four times and at least a quarter of the previous one up
    to rounding; the latter under the condition the retargeting networks meet, that the limit times the longest period fits. *)
Theorem C29_work_target cf height time bits new_time time_at c : words 4 (pow_limit cf) -> no_retargeting cf = false -> height < U64_MAX ->
  (height + 1) mod ADJUSTMENT_INTERVAL = 0 ->
  get_work_required cf height time (PowData bits) new_time time_at = Ok c ->
  exists old t0 v w, compact_decode bits = Ok old /\ time_at (height - (ADJUSTMENT_INTERVAL - 1)) = Some t0 /\ t0 <= time /\ compact_decode c = Ok w /\
    rounded v (uval w) /\ v <= uval (pow_limit cf) /\ v <= 4 * uval old /\
    (uval old <= uval (pow_limit cf) -> uval (pow_limit cf) * MAX_TIMESPAN < 2 ^ 256 ->
       v = N.min (uval (pow_limit cf)) (uval old * clamp (time - t0) MIN_TIMESPAN MAX_TIMESPAN / TARGET_TIMESPAN) /\ uval old / 4 <= v).
Proof.
  intros Wl Nr Hh Hm E. cbn [get_work_required] in E. rewrite Nr in E. unfold checked_add in E. rewrite (proj2 (N.leb_le (height + 1) U64_MAX)) in E by (unfold U64_MAX in *; lia). cbn [expect rbind] in E.
  rewrite Hm in E. change (0 =? 0) with true in E. cbn [negb] in E.
  assert (Hi : ADJUSTMENT_INTERVAL = 2016) by reflexivity.
  assert (Hge : 2015 <= height).
  { rewrite Hi in Hm. apply N.mod_divide in Hm; [|done]. destruct Hm as [k Hk]. destruct k; lia. }
  unfold checked_sub in E. rewrite Hi in *. change (2016 - 1) with 2015 in *. rewrite (proj2 (N.leb_le 2015 height)) in E by done. cbn [expect rbind] in E.
  destruct (time_at (height - 2015)) as [t0|] eqn:Et; cbn [ok_or rbind] in E; [|done].
  unfold next_work_required, actual_timespan, checked_sub in E. destruct (t0 <=? time) eqn:El; cbn [expect rbind] in E; [|done].
  set (span := if time - t0 <? MIN_TIMESPAN then MIN_TIMESPAN else if MAX_TIMESPAN <? time - t0 then MAX_TIMESPAN else time - t0) in *.
  assert (Mi : MIN_TIMESPAN = 302400) by reflexivity. assert (Ma : MAX_TIMESPAN = 4838400) by reflexivity. assert (Ta : TARGET_TIMESPAN = 1209600) by reflexivity.
  assert (Es : span = clamp (time - t0) MIN_TIMESPAN MAX_TIMESPAN).
  { unfold span, clamp. rewrite Mi, Ma. destruct (time - t0 <? 302400) eqn:F1; [lia|]. destruct (4838400 <? time - t0) eqn:F2; lia. }
  assert (Bs : MIN_TIMESPAN <= span <= MAX_TIMESPAN) by (rewrite Es; unfold clamp; rewrite Mi, Ma; lia).
  destruct (compact_decode bits) as [old| |] eqn:Ed; [|unfold pow_new_target in E; rewrite Ed in E; done..].
  destruct (pow_new_target_spec span TARGET_TIMESPAN bits (pow_limit cf) old Ed Wl) as (v & Wv & Ev & Vv); [rewrite Ma in Bs; unfold U64_MAX; lia|rewrite Ta; done|rewrite Ta; vm_compute; done|].
  rewrite Ev in E. destruct (compact_round v Wv) as (c' & w & E1 & _ & E2 & Ww & R1 & R2 & _). rewrite E1 in E. cbn [rexpect] in E. injection E as <-.
  exists old, t0, (uval v), w. split_and!; try done; [lia| | |].
  - rewrite Vv. apply N.le_min_l.
  - rewrite Vv. etransitivity; [apply N.le_min_r|]. etransitivity; [apply N.div_le_mono; [by rewrite Ta|apply N.le_min_l]|].
    apply N.div_le_upper_bound; [by rewrite Ta|]. rewrite Ta. transitivity (uval old * 4838400); [apply N.mul_le_mono_l; lia|]. lia.
  - intros Ho Hf. rewrite Es in Vv. rewrite Es in Bs. set (sp := clamp (time - t0) MIN_TIMESPAN MAX_TIMESPAN) in *. clearbody sp. clear Es.
    assert (Hp : uval old * sp <= uval (pow_limit cf) * MAX_TIMESPAN) by (apply N.mul_le_mono; [done|apply Bs]).
    change (capacity 4) with (2 ^ 256) in Vv. set (C := 2 ^ 256) in *. clearbody C. rewrite (N.min_l (uval old * sp) (C - 1)) in Vv by lia. split; [done|]. rewrite Vv.
    apply N.min_glb; [transitivity (uval old); [apply N.div_le_upper_bound; lia|done]|].
    apply N.div_le_lower_bound; [by rewrite Ta|]. transitivity (uval old / 4 * 4 * 302400); [rewrite Ta; lia|].
    apply N.mul_le_mono; [rewrite N.mul_comm; apply N.mul_div_le; done|rewrite Mi in Bs; lia].
Qed.
Print Assumptions C29_work_target.
(** Between retargets the required work does not change, except that networks which allow it fall back to the limit after
    twenty minutes without a block. *)
Theorem C29_work_between_retargets cf height time bits new_time time_at : words 4 (pow_limit cf) -> height < U64_MAX -> time + 1200 <= U64_MAX ->
  no_retargeting cf = true \/ (height + 1) mod ADJUSTMENT_INTERVAL <> 0 ->
  get_work_required cf height time (PowData bits) new_time time_at = Ok bits \/
  (allow_min_difficulty cf = true /\ time + 1200 < new_time /\ exists c w, get_work_required cf height time (PowData bits) new_time time_at = Ok c /\ compact_decode c = Ok w /\ rounded (uval (pow_limit cf)) (uval w)).
Proof.
  intros Wl Hh Ht Hn. cbn [get_work_required]. destruct (no_retargeting cf) eqn:Nr; [by left|]. destruct Hn as [|Hn]; [done|].
  unfold checked_add. rewrite (proj2 (N.leb_le (height + 1) U64_MAX)) by (unfold U64_MAX in *; lia). cbn [expect rbind]. rewrite (proj2 (N.eqb_neq _ 0)) by done. cbn [negb].
  destruct (allow_min_difficulty cf); [|by left]. unfold min_difficulty_work, checked_add. change (TARGET_SPACING * 2) with 1200. rewrite (proj2 (N.leb_le (time + 1200) U64_MAX)) by done. cbn [expect rbind].
  destruct (time + 1200 <? new_time) eqn:E; [|by left]. right. split; [done|]. split; [lia|].
  destruct (compact_round _ Wl) as (c & w & E1 & _ & E2 & Ww & R1 & R2 & _). exists c, w. rewrite E1. done.
Qed.
Print Assumptions C29_work_between_retargets.
(** A block is accepted for its work only if it states exactly the required target and its hash does not exceed it. *)
Theorem C29_work_check_exact cf threshold prev time bits hash time_at : words 4 hash ->
  check_pow_consensus cf threshold prev time bits hash time_at = Ok tt <->
  pow_work_required cf threshold prev time time_at = Ok bits /\ exists target, compact_decode bits = Ok target /\ uval hash <= uval target.
Proof.
  intros Wh. unfold check_pow_consensus. destruct (pow_work_required cf threshold prev time time_at) as [r| |]; cbn [rbind]; [|split; [done|intros [[=] _]]..].
  destruct (r =? bits) eqn:E; cbn [negb].
  - apply N.eqb_eq in E. subst r. unfold check_proof_of_work. destruct (compact_decode bits) as [t| |] eqn:Ed; cbn [rmap_err rbind]; [|split; [done|intros [_ (x & [=] & _)]]..].
    destruct (decode_ok bits t Ed) as (_ & _ & _ & Wt & _). rewrite (ugeb_spec 4) by done. destruct (uval hash <=? uval t) eqn:F; split; try done.
    + intros _. split; [done|]. exists t. split; [done|lia].
    + intros [_ (x & [= <-] & L)]. lia.
  - split; [done|]. intros [[= ->] _]. lia.
Qed.
Print Assumptions C29_work_check_exact.

(** The work retarget subtracts timestamps without a check. Block times need not increase: each must only reach the median of
    the eleven before it. So a chain that passes this rule can crash the node at a retarget. *)
Definition obeys_median_rule (times : N -> N) (h : N) : Prop :=
  exists m, median_of_times (times <$> (N.of_nat <$> rev (seq (N.to_nat h - 11) (N.to_nat h - (N.to_nat h - 11))))) = Ok m /\ m <= times h.
Theorem C29_work_retarget_no_crash_refuted : ~ (forall cf times bits new_time height, no_retargeting cf = false ->
  (forall h, 1 <= h <= height -> obeys_median_rule times h) ->
  get_work_required cf height (times height) (PowData bits) new_time (fun h => Some (times h)) <> Panic).
Proof.
  intro H. set (times := fun h : N => if h =? 2016 then 7200 else 0).
  apply (H (PowConfig false false (repeat (W - 1) 4)) times 486604799 0 4031 eq_refl).
  - intros h Hh. set (chk := fun h : N => match median_of_times (times <$> (N.of_nat <$> rev (seq (N.to_nat h - 11) (N.to_nat h - (N.to_nat h - 11))))) with Ok m => m <=? times h | _ => false end).
    assert (A : forallb (fun n => chk (N.of_nat n)) (seq 1 4031) = true) by (vm_compute; reflexivity).
    assert (C : chk h = true).
    { rewrite <- (N2Nat.id h). apply (proj1 (forallb_forall _ _) A). apply in_seq. lia. }
    unfold chk in C. unfold obeys_median_rule. destruct (median_of_times _) as [m| |]; [|done..]. exists m. split; [done|lia].
  - vm_compute. reflexivity.
Qed.
Print Assumptions C29_work_retarget_no_crash_refuted.
(** An example: a staking target, and the networks' work limits meet the condition of [C29_work_target]. *)
Definition ex_pos_cfg : pos_config := PosConfig [18446744073709551615; 18446744073709551615; 0; 0] 100 1 PosV1.
Definition ex_ups : list (N * consensus_upgrade pos_config) := [(0, UpIgnore); (1, UpPoS (Some 453050367) ex_pos_cfg)].
Example C29_example : good_config ex_pos_cfg /\ consensus_status ex_ups 200 = Ok (PoSOngoing ex_pos_cfg) /\
  pos_target_required ex_ups 120 (PosOngoing ex_pos_cfg) (PrevBlock 200 24000 (PosData 252000000)) (fun h => Some (h * 60)) = Ok 252000341 /\
  uval [18446744073709551615; 18446744073709551615; 18446744073709551615; 4294967295] * MAX_TIMESPAN < 2 ^ 256 /\
  uval [0; 0; 0; 3812555227136] * MAX_TIMESPAN < 2 ^ 256 /\
  get_work_required (PowConfig false false [18446744073709551615; 18446744073709551615; 18446744073709551615; 4294967295]) 2015 1814400 (PowData 453050367) 1814500 (fun h => Some (h * 900)) = Ok 453083134.
Proof.
  split.
  { split; [split; [done|cbn [target_limit ex_pos_cfg]; rewrite !Forall_cons; split_and!; [vm_compute; done..|by constructor]]|]. split_and!; vm_compute; done. }
  split_and!; vm_compute; reflexivity.
Qed.
