(** C26, C27, C47: emission schedule and network upgrades. *)
From Coq Require Import Ascii String.
From stdpp Require Import sorting.
From Verif Require Import Base AmountModel TextModel TextProperties ScheduleModel ScheduleSpec ScheduleProofs.
Local Open Scope N_scope.
Local Open Scope list_scope.

(** C26. At every height the reported supply is the initial supply plus the subsidies of all blocks so far; the only other outcome
    is a crash, exactly when that sum does not fit in 128 bits. *)
Theorem C26_supply_is_sum_of_subsidies t f h : table_ok t -> schedule t = Ok f ->
  exists s, issued t h s /\ (s <= U128_MAX -> f h = Ok s) /\ (U128_MAX < s -> f h = Panic).
Proof.
  intros Ht E. exists (issue_total t h). split; [apply total_issued, Ht|]. rewrite (schedule_spec t f h Ht E). unfold fit.
  destruct (N.leb_spec (issue_total t h) U128_MAX); split; intros; try lia; done.
Qed.
Print Assumptions C26_supply_is_sum_of_subsidies.
(** That sum is uniquely determined. *)
Theorem C26_sum_is_unique t h s s' : table_ok t -> issued t h s -> issued t h s' -> s = s'.
Proof. intros [Ht _] H H'. rewrite (issued_total t h s Ht H). symmetry. exact (issued_total t h s' Ht H'). Qed.
Print Assumptions C26_sum_is_unique.
(** C26. Preparing a schedule crashes exactly if the supply at the start of the last period does not fit. *)
Theorem C26_preparing_crashes_exactly t : table_ok t ->
  (exists f, schedule t = Ok f) /\ (forall s, issued t (tail_emission t).1 s -> s <= U128_MAX) \/
  schedule t = Panic /\ (forall s, issued t (tail_emission t).1 s -> U128_MAX < s).
Proof.
  intros Ht. destruct (schedule_total t Ht) as [(f & E & H)|[E H]].
  - left. split; [exists f; exact E|]. intros s Hs. rewrite (issued_total t _ s (proj1 Ht) Hs). exact H.
  - right. split; [exact E|]. intros s Hs. rewrite (issued_total t _ s (proj1 Ht) Hs). exact H.
Qed.
Print Assumptions C26_preparing_crashes_exactly.
(** C26. The supply never decreases. *)
Theorem C26_supply_never_decreases t f h h' a b : table_ok t -> schedule t = Ok f -> h <= h' -> f h = Ok a -> f h' = Ok b -> a <= b.
Proof.
  intros Ht E Hle. rewrite !(schedule_spec t f _ Ht E). unfold fit.
  destruct (issue_total t h <=? U128_MAX); [|done]. destruct (issue_total t h' <=? U128_MAX); [|done]. intros [= <-] [= <-].
  apply total_mono; [apply Ht|exact Hle].
Qed.
Print Assumptions C26_supply_never_decreases.
(** C26. The subsidy of a block is that of the last period starting below it; the first block has one, the genesis none (asking
    for it is a crash). *)
Theorem C26_subsidy_is_that_of_the_period t f h a : table_ok t -> schedule t = Ok f -> f h = Ok a ->
  (0 < h -> exists r, subsidy_of t h r /\ subsidy_at f h = Ok r) /\ (h = 0 -> subsidy_at f h = Panic).
Proof.
  intros Ht E Ha. split; [|intros ->; done]. intros Hh. exists (sub_at (et_subsidy t) (et_periods t) h). split; [apply sub_at_spec, Ht|].
  unfold subsidy_at, PrimModel.prev_height, checked_sub. destruct (N.leb_spec 1 h); [|lia]. cbn [expect rbind]. rewrite Ha. cbn [rbind].
  rewrite (schedule_spec t f _ Ht E) in Ha. rewrite (schedule_spec t f _ Ht E). pose proof (total_step t (h - 1) (proj1 Ht)) as Hs. replace (h - 1 + 1) with h in Hs by lia.
  unfold fit in *. destruct (N.leb_spec (issue_total t h) U128_MAX); [|done]. injection Ha as <-.
  destruct (N.leb_spec (issue_total t (h - 1)) U128_MAX); [|lia]. cbn [rbind]. unfold amount_sub, checked_sub.
  destruct (N.leb_spec (issue_total t (h - 1)) (issue_total t h)); [|lia]. cbn [expect]. f_equal. lia.
Qed.
Print Assumptions C26_subsidy_is_that_of_the_period.
(** C26. When a final supply is reported, no height ever exceeds it, it is reached at the last period, and every height has a
    supply; none is reported exactly if the last subsidy is not zero. *)
Theorem C26_final_supply_is_a_cap t o : table_ok t -> final_supply t = Ok o ->
  match o with
  | Some cap => (tail_emission t).2 = 0 /\ exists f, schedule t = Ok f /\
      forall h, exists a, f h = Ok a /\ a <= cap /\ ((tail_emission t).1 <= h -> a = cap)
  | None => (tail_emission t).2 <> 0
  end.
Proof.
  intros Ht. unfold final_supply. destruct (tail_emission t) as [tb ts] eqn:Et. destruct (N.eqb_spec ts 0) as [->|Hne]; [|intros [= <-]; exact Hne].
  destruct (schedule t) as [f| |] eqn:E; [|done|done]. cbn [rbind].
  rewrite (schedule_spec t f _ Ht E). unfold fit. destruct (N.leb_spec (issue_total t tb) U128_MAX) as [Hfit|]; [|done]. cbn [rbind]. intros [= <-].
  split; [done|]. exists f. split; [done|]. intros h. rewrite (schedule_spec t f _ Ht E). cbn [fst].
  pose proof (total_tail t h (proj1 Ht)) as Htail. rewrite Et in Htail. cbn [fst snd] in Htail. specialize (Htail eq_refl).
  assert (issue_total t h <= issue_total t tb) as Hcap.
  { destruct (N.le_ge_cases tb h) as [H|H]; [rewrite Htail by exact H; lia|apply total_mono; [apply Ht|exact H]]. }
  unfold fit. destruct (N.leb_spec (issue_total t h) U128_MAX); [|lia]. eexists. split; [done|]. split; [exact Hcap|]. exact Htail.
Qed.
Print Assumptions C26_final_supply_is_a_cap.
(** C26. Mainnet, for every block interval in whole seconds: the supply is defined at every height and never exceeds 400 million
    coins plus 761 coins for each of the blocks in a year. *)
Theorem C26_mainnet_supply_is_capped secs : 0 < secs ->
  exists t f, mainnet_schedule_table secs = Ok t /\ schedule t = Ok f /\
    final_supply t = Ok (Some (from_coins (400000000 + 761 * (31536000 / secs)))) /\
    f 0 = Ok (from_coins 400000000) /\
    forall h, exists a, f h = Ok a /\ a <= from_coins (400000000 + 761 * (31536000 / secs)).
Proof.
  intros Hs. unfold mainnet_schedule_table, checked_div. destruct (N.eqb_spec secs 0); [lia|]. cbn [expect rbind].
  change (365 * 24 * 60 * 60) with 31536000. remember (31536000 / secs) as b eqn:Hb.
  assert (b <= 31536000) as Hle. { rewrite Hb. apply N.div_le_upper_bound; [lia|]. clear - Hs. nia. }
  clear Hb n Hs. fold (mainnet_rewards b).
  remember (EmissionTable (from_coins 400000000) (from_coins 202) (bt_collect (mainnet_rewards b))) as t eqn:Et.
  destruct (mainnet_spec b t Hle Et) as (Ht & H0 & Hcap). exists t.
  assert (from_coins (400000000 + 761 * b) <= U128_MAX) as Hfit by (unfold from_coins, ATOMS_PER_COIN, U128_MAX; lia).
  destruct (schedule_total t Ht) as [(f & E & H)|[E H]]; [|lia]. exists f. split; [done|]. split; [exact E|].
  assert (final_supply t = Ok (Some (from_coins (400000000 + 761 * b)))) as Hf.
  { unfold final_supply. destruct (tail_emission t) as [tb ts]. cbn [fst snd] in *. rewrite H0. cbn [N.eqb]. rewrite E. cbn [rbind].
    rewrite (schedule_spec t f _ Ht E), Hcap. unfold fit. apply N.leb_le in Hfit. rewrite Hfit. done. }
  split; [exact Hf|]. destruct (C26_final_supply_is_a_cap t _ Ht Hf) as (_ & f' & E' & Hall). rewrite E in E'. injection E' as <-. split.
  - rewrite (schedule_spec t f 0 Ht E). unfold issue_total. rewrite supply_zero, Et. reflexivity.
  - intros h. destruct (Hall h) as (a & Ha & Hc & _). eauto.
Qed.
Print Assumptions C26_mainnet_supply_is_capped.

(** With two-minute blocks the published maximum is 599,990,800 coins. *)
Example C26_mainnet_example : exists t, mainnet_schedule_table 120 = Ok t /\ table_ok t /\
  let supply h := let? f := schedule t in f h in let subsidy h := let? f := schedule t in subsidy_at f h in
  final_supply t = Ok (Some (from_coins 599990800)) /\ supply 1 = Ok (from_coins 400000202) /\ supply 262800 = Ok (from_coins 453085600) /\
  supply 262801 = Ok (from_coins 453085751) /\ subsidy 262800 = Ok (from_coins 202) /\ subsidy 262801 = Ok (from_coins 151) /\
  supply 18446744073709551615 = Ok (from_coins 599990800).
Proof.
  eexists. split; [vm_compute; reflexivity|]. split; [|vm_compute; repeat split; reflexivity].
  split; [repeat constructor|]. split; [vm_compute; discriminate|]. split; [vm_compute; discriminate|].
  repeat constructor; vm_compute; discriminate.
Qed.

(** C47. An emission table printed and read back is the same table. *)
Theorem C47_emission_table_round_trip t : table_ok t -> exists s, show_table t = Ok s /\ parse_table s = Ok t.
Proof. exact (table_round_trip t). Qed.
Print Assumptions C47_emission_table_round_trip.
(** C47. Every accepted text gives a well-formed table: heights strictly increasing, numbers in range. *)
Theorem C47_accepted_tables_are_well_formed s t : parse_table s = Ok t -> table_ok t.
Proof. exact (parse_table_ok s t). Qed.
Print Assumptions C47_accepted_tables_are_well_formed.
Example C47_example :
  parse_table (txt " 1000+1, 20000:+0.25,10000:+0.5,40000:+0") = Ok (EmissionTable (from_coins 1000) (from_coins 1) [(10000, 50000000000); (20000, 25000000000); (40000, 0)]) /\
  show_table (EmissionTable (from_coins 1000) (from_coins 1) [(10000, 50000000000); (20000, 25000000000); (40000, 0)]) = Ok (txt "1000+1,10000:+0.5,20000:+0.25,40000:+0") /\
  parse_table (txt "100") = Err (TENoSubsidy 0) /\ parse_table (txt "100+1,5") = Err (TENoSubsidy 1) /\ parse_table (txt "100+1,x:+5") = Err (TEBlockHeight 1) /\
  parse_table (txt "+1") = Err TEInitialSupply /\ parse_table (txt "1+1,3:+4,3:+5") = Ok (EmissionTable (from_coins 1) (from_coins 1) [(3, from_coins 5)]).
Proof. vm_compute. repeat split; reflexivity. Qed.

(** C27. A list of upgrades is accepted exactly if one of them is at height zero. *)
Theorem C27_accepted_exactly_with_genesis {T} (tle : relation T) `{!RelDecision tle} `{!TotalOrder tle} ups :
  (exists u, initialize tle ups = Ok u) <-> exists v, (0, v) ∈ ups.
Proof. apply initialize_accepts; assumption. Qed.
Print Assumptions C27_accepted_exactly_with_genesis.
(** C27. Then at every height there is exactly one upgrade in force, and it is the one reported: no crash. *)
Theorem C27_last_upgrade_in_force {T} (tle : relation T) `{!RelDecision tle} `{!TotalOrder tle} ups u h :
  initialize tle ups = Ok u ->
  exists x, version_at_height u h = Ok x /\ in_force tle ups h x /\ forall y, in_force tle ups h y -> y = x.
Proof.
  intros E. destruct (initialize_ok tle ups u E) as (Hp & Hs & H0). destruct (find_last tle u h Hs H0) as (x & Hx & Hf).
  exists x. split; [exact Hx|]. pose proof (in_force_perm tle u ups h x Hp Hf) as Hf'. split; [exact Hf'|].
  intros y Hy. apply (in_force_unique tle ups h y x Hy Hf').
Qed.
Print Assumptions C27_last_upgrade_in_force.
(** C27. The answer only changes at upgrade heights. *)
Theorem C27_changes_only_at_upgrades {T} (tle : relation T) `{!RelDecision tle} `{!TotalOrder tle} ups u h :
  initialize tle ups = Ok u -> (forall v, (h + 1, v) ∉ ups) -> version_at_height u (h + 1) = version_at_height u h.
Proof.
  intros E Hno. destruct (C27_last_upgrade_in_force tle ups u h E) as (x & -> & Hf & _).
  destruct (C27_last_upgrade_in_force tle ups u (h + 1) E) as (y & -> & _ & Hu). f_equal. symmetry. apply Hu.
  destruct Hf as (H1 & H2 & H3). split; [exact H1|]. split; [lia|]. intros p Hp Hle. apply H3; [exact Hp|].
  destruct (N.le_gt_cases p.1 h) as [|Hgt]; [assumption|]. exfalso. apply (Hno p.2). replace (h + 1) with p.1 by lia. destruct p; exact Hp.
Qed.
Print Assumptions C27_changes_only_at_upgrades.
(** C27. The range reported for a version is where it is in force (for every height but the very last, which it leaves out). *)
Theorem C27_height_range_is_where_in_force {T} (tle : relation T) `{!RelDecision tle} `{!TotalOrder tle} (same : T -> T -> bool) ups u v s e h :
  (forall x y, same x y = true <-> x = y) -> initialize tle ups = Ok u -> NoDup (map fst ups) -> NoDup (map snd ups) ->
  Forall (fun p => p.1 < U64_MAX) ups -> h < U64_MAX -> height_range same u v = Some (s, e) ->
  (s <= h < e <-> version_at_height u h = Ok (s, v)).
Proof.
  intros Hsame E Hh Hv Hall Hmax Hr. destruct (initialize_ok tle ups u E) as (Hp & Hs & H0).
  rewrite (height_range_spec tle same u v h Hsame Hs); [| rewrite Hp; exact Hh | rewrite Hp; exact Hv | exact Hmax | rewrite Hp; exact Hall | exact Hr].
  destruct (find_last tle u h Hs H0) as (x & Hx & Hf). rewrite Hx. split.
  - intros Hf'. f_equal. apply (in_force_unique tle u h); assumption.
  - intros [= ->]. exact Hf.
Qed.
Print Assumptions C27_height_range_is_where_in_force.
(** C27. Consensus rules: a threshold rule exactly at the height of an upgrade, the ongoing rule after it. *)
Theorem C27_consensus_rules_by_height {C} (tle : relation (consensus_upgrade C)) `{!RelDecision tle} `{!TotalOrder tle} ups u h :
  initialize tle ups = Ok u ->
  exists h0 up, in_force tle ups h (h0, up) /\ h0 <= h /\
    consensus_status u h = Ok match up with
      | UpPoW d => if decide (h0 = h) then PoWThreshold d else PoWOngoing
      | UpPoS d c => if decide (h0 = h) then PoSThreshold d c else PoSOngoing c
      | UpIgnore => AnyConsensus
      end.
Proof.
  intros E. destruct (C27_last_upgrade_in_force tle ups u h E) as ([h0 up] & Hv & Hf & _). exists h0, up. split; [exact Hf|].
  destruct Hf as (_ & Hle & _). cbn in Hle. split; [exact Hle|]. unfold consensus_status. rewrite Hv. cbn [rbind].
  destruct up; destruct (decide (h0 = h)) as [->|Hne]; try done;
    try (destruct (N.ltb_spec h h); [lia|]; rewrite N.eqb_refl; done); destruct (N.ltb_spec h0 h); try lia; done.
Qed.
Print Assumptions C27_consensus_rules_by_height.
Example C27_example : exists u, initialize N.le [(10, 3); (0, 7); (25, 4); (10, 2)] = Ok u /\
  version_at_height u 0 = Ok (0, 7) /\ version_at_height u 9 = Ok (0, 7) /\ version_at_height u 10 = Ok (10, 3) /\ version_at_height u 24 = Ok (10, 3) /\
  version_at_height u 1000 = Ok (25, 4) /\ height_range N.eqb u 7 = Some (0, 10) /\ height_range N.eqb u 3 = Some (10, 25) /\
  height_range N.eqb u 4 = Some (25, U64_MAX) /\ initialize N.le [(1, 5)] = Err FirstUpgradeNotAtGenesis.
Proof. eexists. split; [vm_compute; reflexivity|]. vm_compute. repeat split; reflexivity. Qed.
