From Verif Require Import Base StatusModel StatusSpec.
Local Open Scope N_scope.

Lemma ones_mask k : N.shiftl 1 k - 1 = N.ones k.
Proof. unfold N.ones. rewrite N.sub_1_r. reflexivity. Qed.
Lemma get_bits_ok s lo hi : lo < hi -> hi <= 64 -> hi - lo < 64 -> get_bits s (lo, hi) = Ok (N.land (N.shiftr s lo) (N.ones (hi - lo))).
Proof.
  intros H1 H2 H3. unfold get_bits. destruct (N.ltb_spec lo hi); [|lia]. destruct (N.leb_spec hi 64); [|lia]. cbn [andb].
  destruct (N.eqb_spec (hi - lo) 64); [lia|]. rewrite ones_mask. done.
Qed.
Lemma get_bits_div s lo hi : lo < hi -> hi <= 64 -> hi - lo < 64 -> get_bits s (lo, hi) = Ok ((s / 2 ^ lo) mod 2 ^ (hi - lo)).
Proof. intros. rewrite get_bits_ok by assumption. rewrite N.land_ones, N.shiftr_div_pow2. done. Qed.
Lemma lt_bits s n : s < 2 ^ n -> forall i, n <= i -> N.testbit s i = false.
Proof.
  intros H i Hi. apply N.testbit_false. rewrite N.div_small; [done|]. eapply N.lt_le_trans; [exact H|]. apply N.pow_le_mono_r; lia.
Qed.
(** The mask-and-shift update changes the bits of the range to those of the value, and no other. *)
Lemma set_bits_spec s lo hi val : lo < hi -> hi <= 64 -> hi - lo < 64 -> val < 2 ^ (hi - lo) ->
  exists s', set_bits s (lo, hi) val = Ok s' /\
    forall i, N.testbit s' i = if (lo <=? i) && (i <? hi) then N.testbit val (i - lo) else N.testbit s i.
Proof.
  intros H1 H2 H3 Hv. unfold set_bits. destruct (N.ltb_spec lo hi); [|lia]. destruct (N.leb_spec hi 64); [|lia]. cbn [andb].
  destruct (N.eqb_spec (hi - lo) 64); [lia|]. rewrite ones_mask.
  assert (val <= N.ones (hi - lo)) as Hle by (rewrite N.ones_equiv; lia). apply N.leb_le in Hle. rewrite Hle.
  eexists. split; [done|]. intros i. rewrite N.lor_spec, N.ldiff_spec.
  destruct (N.leb_spec lo i) as [Hi|Hi]; cbn [andb].
  - rewrite !N.shiftl_spec_high' by exact Hi. destruct (N.ltb_spec i hi) as [Hi'|Hi'].
    + rewrite N.ones_spec_low by lia. rewrite andb_false_r. done.
    + rewrite N.ones_spec_high by lia. rewrite andb_true_r. rewrite (lt_bits val (hi - lo) Hv (i - lo)) by lia. apply orb_false_r.
  - rewrite !N.shiftl_spec_low by exact Hi. rewrite andb_true_r. apply orb_false_r.
Qed.
Lemma bits_lt s n : (forall i, n <= i -> N.testbit s i = false) -> s < 2 ^ n.
Proof.
  intros H. destruct (N.eq_dec s 0) as [->|Hs]; [apply N.neq_0_lt_0, N.pow_nonzero; lia|]. apply N.log2_lt_pow2; [lia|].
  destruct (N.lt_ge_cases (N.log2 s) n) as [|Hge]; [assumption|]. specialize (H _ Hge). rewrite N.bit_log2 in H by exact Hs. done.
Qed.
Lemma set_bits_fits s lo hi val s' : s < 2 ^ 64 -> hi <= 64 ->
  (forall i, N.testbit s' i = if (lo <=? i) && (i <? hi) then N.testbit val (i - lo) else N.testbit s i) -> s' < 2 ^ 64.
Proof.
  intros H H2 Hb. apply bits_lt. intros i Hi. rewrite Hb. destruct (N.ltb_spec i hi); [lia|]. rewrite andb_false_r. apply (lt_bits s 64 H i Hi).
Qed.
(** Single-bit fields. *)
Lemma get_bit s lo : lo < 64 -> (let? v := get_bits s (lo, lo + 1) in Ok (negb (v =? 0))) = Ok (N.testbit s lo).
Proof.
  intros H. rewrite get_bits_div by lia. cbn [rbind]. f_equal. replace (lo + 1 - lo) with 1 by lia.
  change (2 ^ 1) with 2. rewrite N.testbit_eqb. pose proof (N.mod_upper_bound (s / 2 ^ lo) 2 ltac:(lia)) as Hm.
  revert Hm. generalize ((s / 2 ^ lo) mod 2). intros m Hm. assert (m = 0 \/ m = 1) as [-> | ->] by lia; done.
Qed.
Lemma failed_bit s : validation_failed s = Ok (N.testbit s 8). Proof. apply (get_bit s 8). lia. Qed.
Lemma parent_bit s : has_invalid_parent s = Ok (N.testbit s 9). Proof. apply (get_bit s 9). lia. Qed.
Lemma explicit_bit s : is_explicitly_invalidated s = Ok (N.testbit s 10). Proof. apply (get_bit s 10). lia. Qed.
Lemma ok_bits s : is_ok s = Ok (negb (N.testbit s 8) && negb (N.testbit s 9) && negb (N.testbit s 10)).
Proof.
  unfold is_ok, FAIL_BITS_RANGE. rewrite get_bits_ok by lia. cbn [rbind]. change (11 - 8) with 3. f_equal.
  assert (forall i, N.testbit (N.land (N.shiftr s 8) (N.ones 3)) i = if i <? 3 then N.testbit s (i + 8) else false) as Hb.
  { intros i. rewrite N.land_spec, N.shiftr_spec by lia. destruct (N.ltb_spec i 3).
    - rewrite N.ones_spec_low by lia. apply andb_true_r.
    - rewrite N.ones_spec_high by lia. apply andb_false_r. }
  destruct (N.eqb_spec (N.land (N.shiftr s 8) (N.ones 3)) 0) as [E|E].
  - pose proof (Hb 0) as B0. pose proof (Hb 1) as B1. pose proof (Hb 2) as B2. rewrite E in B0, B1, B2. rewrite N.bits_0 in B0, B1, B2.
    change (false = N.testbit s 8) in B0. change (false = N.testbit s 9) in B1. change (false = N.testbit s 10) in B2.
    rewrite <- B0, <- B1, <- B2. done.
  - destruct (N.testbit s 8) eqn:E8; [done|]. destruct (N.testbit s 9) eqn:E9; [done|]. destruct (N.testbit s 10) eqn:E10; [done|].
    exfalso. apply E. apply N.bits_inj_0. intros i. rewrite Hb. destruct (N.ltb_spec i 3); [|done].
    assert (i = 0 \/ i = 1 \/ i = 2) as [-> | [-> | ->]] by lia; assumption.
Qed.
Lemma stage_bits s : last_valid_stage s = expect (stage_of (s mod 256)).
Proof.
  unfold last_valid_stage, get_field, area_range. rewrite get_bits_div by lia. cbn [rbind]. change (2 ^ 0) with 1. rewrite N.div_1_r. done.
Qed.
Lemma mod_bits s s' : (forall i, i < 8 -> N.testbit s' i = N.testbit s i) -> s' mod 256 = s mod 256.
Proof.
  intros H. change 256 with (2 ^ 8). rewrite <- !N.land_ones. apply N.bits_inj. intros i. rewrite !N.land_spec.
  destruct (N.lt_ge_cases i 8) as [Hi|Hi]; [rewrite H by exact Hi; done|]. rewrite N.ones_spec_high by exact Hi. rewrite !andb_false_r. done.
Qed.
Lemma stage_of_code st : stage_of (stage_code st) = Some st. Proof. destruct st; done. Qed.

(** The fields of a status, if its stage makes sense. *)
Definition rep (s : N) (v : view) : Prop :=
  s < 2 ^ 64 /\ s mod 256 = stage_code (v_stage v) /\ N.testbit s 8 = v_failed v /\ N.testbit s 9 = v_invalid_parent v /\ N.testbit s 10 = v_explicit v.
Lemma rep_shows s v : rep s v -> shows s v.
Proof.
  intros (H1 & H2 & H3 & H4 & H5). unfold shows.
  assert (last_valid_stage s = Ok (v_stage v)) as Hst by (rewrite stage_bits, H2, stage_of_code; done).
  split; [exact Hst|]. rewrite failed_bit, parent_bit, explicit_bit, ok_bits, H3, H4, H5.
  repeat (split; [done|]). unfold is_fully_valid. rewrite Hst. cbn [rbind]. rewrite ok_bits, H3, H4, H5.
  destruct (v_stage v); cbn; done.
Qed.
Lemma rep_update s v u : rep s v ->
  match updated v u with Some v' => exists s', apply_update s u = Ok s' /\ rep s' v' /\ s' / 2 ^ 11 = s / 2 ^ 11 | None => apply_update s u = Panic end.
Proof.
  intros Hr. pose proof Hr as (H1 & H2 & H3 & H4 & H5).
  assert (forall s', (forall i, 11 <= i -> N.testbit s' i = N.testbit s i) -> s' / 2 ^ 11 = s / 2 ^ 11) as Hhigh.
  { intros s' H. rewrite <- !N.shiftr_div_pow2. apply N.bits_inj. intros i. rewrite !N.shiftr_spec by lia. apply H. lia. }
  assert (forall k, 8 <= k -> k < 11 -> exists s', set_bits s (k, k + 1) 1 = Ok s' /\ s' < 2 ^ 64 /\ s' mod 256 = s mod 256 /\
     (forall i, N.testbit s' i = (i =? k) || N.testbit s i)) as Hbit.
  { intros k Hk1 Hk2. destruct (set_bits_spec s k (k + 1) 1) as (s' & E & Hb); [lia|lia|lia|replace (k + 1 - k) with 1 by lia; cbn; lia|].
    exists s'. split; [exact E|]. split; [eapply set_bits_fits; [exact H1| |exact Hb]; lia|].
    assert (forall i, N.testbit s' i = (i =? k) || N.testbit s i) as Hb'.
    { intros i. rewrite Hb. destruct (N.eqb_spec i k) as [->|Hne].
      - destruct (N.leb_spec k k); [|lia]. destruct (N.ltb_spec k (k + 1)); [|lia]. replace (k - k) with 0 by lia. done.
      - destruct (N.leb_spec k i); [|done]. destruct (N.ltb_spec i (k + 1)); [lia|]. done. }
    split; [|exact Hb']. apply mod_bits. intros i Hi. rewrite Hb'. destruct (N.eqb_spec i k); [lia|done]. }
  destruct u as [st| | | |]; cbn [updated apply_update].
  - unfold advance_validation_stage_to. rewrite stage_bits, H2, stage_of_code. cbn [expect rbind].
    assert (stage_next (v_stage v) = Some st -> exists s', set_last_valid_stage s st = Ok s' /\
      rep s' (View st (v_failed v) (v_invalid_parent v) (v_explicit v)) /\ s' / 2 ^ 11 = s / 2 ^ 11) as Hset.
    { intros _. unfold set_last_valid_stage, set_field, area_range.
      destruct (set_bits_spec s 0 8 (stage_code st)) as (s' & E & Hb); [lia|lia|lia|destruct st; cbn; lia|].
      exists s'. split; [exact E|]. split.
      2:{ apply Hhigh. intros i Hi. rewrite Hb. destruct (N.ltb_spec i 8); [lia|]. rewrite andb_false_r. done. }
      split; [eapply set_bits_fits; [exact H1| |exact Hb]; lia|]. cbn [v_stage v_failed v_invalid_parent v_explicit].
      rewrite !Hb. cbn [N.leb N.ltb N.compare andb Pos.compare Pos.compare_cont]. split; [|auto].
      rewrite <- (N.mod_small (stage_code st) 256) by (destruct st; cbn; lia). apply mod_bits. intros i Hi. rewrite Hb.
      destruct (N.leb_spec 0 i); [|lia]. destruct (N.ltb_spec i 8); [|lia]. cbn [andb]. rewrite N.sub_0_r. done. }
    destruct (v_stage v), st; cbn [stage_next] in *; (destruct (decide _) as [D|D]; [try done; apply Hset; done|try done; exfalso; apply D; done]).
  - destruct (Hbit 8) as (s' & E & Hlt & Hm & Hb); [lia|lia|]. exists s'. split; [exact E|]. split.
    + split; [exact Hlt|]. cbn [v_stage v_failed v_invalid_parent v_explicit]. split; [rewrite Hm; exact H2|]. rewrite !Hb. auto.
    + apply Hhigh. intros i Hi. rewrite Hb. destruct (N.eqb_spec i 8); [lia|done].
  - destruct (Hbit 9) as (s' & E & Hlt & Hm & Hb); [lia|lia|]. exists s'. split; [exact E|]. split.
    + split; [exact Hlt|]. cbn [v_stage v_failed v_invalid_parent v_explicit]. split; [rewrite Hm; exact H2|]. rewrite !Hb. auto.
    + apply Hhigh. intros i Hi. rewrite Hb. destruct (N.eqb_spec i 9); [lia|done].
  - destruct (Hbit 10) as (s' & E & Hlt & Hm & Hb); [lia|lia|]. exists s'. split; [exact E|]. split.
    + split; [exact Hlt|]. cbn [v_stage v_failed v_invalid_parent v_explicit]. split; [rewrite Hm; exact H2|]. rewrite !Hb. auto.
    + apply Hhigh. intros i Hi. rewrite Hb. destruct (N.eqb_spec i 10); [lia|done].
  - unfold with_cleared_fail_bits, FAIL_BITS_RANGE. destruct (set_bits_spec s 8 11 0) as (s' & E & Hb); [lia|lia|lia|cbn; lia|].
    exists s'. split; [exact E|]. split.
    + split; [eapply set_bits_fits; [exact H1| |exact Hb]; lia|]. cbn [v_stage v_failed v_invalid_parent v_explicit]. split.
      * rewrite <- H2. apply mod_bits. intros i Hi. rewrite Hb. destruct (N.leb_spec 8 i); [lia|done].
      * rewrite !Hb. auto.
    + apply Hhigh. intros i Hi. rewrite Hb. destruct (N.ltb_spec i 11); [lia|]. rewrite andb_false_r. done.
Qed.
Lemma rep_updates us : forall s v, rep s v ->
  match updated_all v us with Some v' => exists s', apply_updates s us = Ok s' /\ rep s' v' /\ s' / 2 ^ 11 = s / 2 ^ 11 | None => apply_updates s us = Panic end.
Proof.
  unfold apply_updates. induction us as [|u us IH]; intros s v Hr; [exists s; auto|]. cbn [updated_all rfold].
  pose proof (rep_update s v u Hr) as Hu. destruct (updated v u) as [v'|].
  - destruct Hu as (s' & -> & Hr' & Hh). specialize (IH s' v' Hr'). destruct (updated_all v' us) as [v''|]; [|exact IH].
    destruct IH as (s'' & E & Hr'' & Hh'). exists s''. split; [exact E|]. split; [exact Hr''|]. rewrite Hh'. exact Hh.
  - rewrite Hu. done.
Qed.
Lemma rep_fresh : rep status_new fresh.
Proof. unfold rep, status_new. cbn. repeat split; lia. Qed.

Lemma le_bytes_round n v : v < 256 ^ N.of_nat n -> of_le_bytes (le_bytes n v) = v.
Proof.
  revert v. induction n as [|n IH]; intros v Hv.
  - cbn in Hv. cbn. lia.
  - cbn [le_bytes of_le_bytes]. rewrite IH.
    + rewrite N.add_comm. symmetry. rewrite N.add_comm, N.add_comm. rewrite (N.div_mod v 256) at 1 by lia. lia.
    + apply N.div_lt_upper_bound; [lia|]. rewrite Nat2N.inj_succ, N.pow_succ_r in Hv by lia. exact Hv.
Qed.
Lemma le_bytes_length n v : length (le_bytes n v) = n.
Proof. revert v. induction n as [|n IH]; intros v; [done|]. cbn. rewrite IH. done. Qed.
