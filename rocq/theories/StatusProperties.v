(** C40: block status bits. *)
From Verif Require Import Base StatusModel StatusSpec StatusProofs.
Local Open Scope N_scope.

(** C40. After any sequence of updates of a new status, every query answers as if the stage and the three marks were kept in
    separate fields; the sequence crashes exactly if it advances the stage by anything but one step. *)
Theorem C40_marks_and_stage_are_independent us :
  match updated_all fresh us with
  | Some v => exists s, apply_updates status_new us = Ok s /\ s < 2 ^ 64 /\ shows s v
  | None => apply_updates status_new us = Panic
  end.
Proof.
  pose proof (rep_updates us _ _ rep_fresh) as H. destruct (updated_all fresh us) as [v|]; [|exact H].
  destruct H as (s & E & Hr & _). exists s. split; [exact E|]. split; [apply Hr|apply rep_shows, Hr].
Qed.
Print Assumptions C40_marks_and_stage_are_independent.
(** C40. The same from any stored 64-bit status whose stage makes sense, reserved bits included: they are kept. *)
Theorem C40_any_status us s st : s < 2 ^ 64 -> last_valid_stage s = Ok st ->
  let v := View st (N.testbit s 8) (N.testbit s 9) (N.testbit s 10) in
  shows s v /\
  match updated_all v us with
  | Some v' => exists s', apply_updates s us = Ok s' /\ s' < 2 ^ 64 /\ shows s' v' /\ s' / 2 ^ 11 = s / 2 ^ 11
  | None => apply_updates s us = Panic
  end.
Proof.
  intros Hs Hst v. assert (rep s v) as Hr.
  { split; [exact Hs|]. split; [|auto]. rewrite stage_bits in Hst. cbn [v_stage v].
    assert (forall m, expect (E := unit) (stage_of m) = Ok st -> m = stage_code st) as Hinj; [|apply Hinj, Hst].
    intros m. destruct m as [|[[p|p|]|[p|p|]|]]; cbn; intros [= <-]; done. }
  split; [apply rep_shows, Hr|]. pose proof (rep_updates us s v Hr) as H. destruct (updated_all v us) as [v'|]; [|exact H].
  destruct H as (s' & E & Hr' & Hh). exists s'. split; [exact E|]. split; [apply Hr'|]. split; [apply rep_shows, Hr'|exact Hh].
Qed.
Print Assumptions C40_any_status.
(** C40. Each field is stored in its own bits: whatever is written to a range is read from it, and no other bit changes. *)
Theorem C40_writing_a_field_touches_nothing_else s lo hi val : lo < hi -> hi <= 64 -> hi - lo < 64 -> val < 2 ^ (hi - lo) ->
  exists s', set_bits s (lo, hi) val = Ok s' /\ get_bits s' (lo, hi) = Ok val /\
    forall lo' hi', lo' < hi' -> hi' <= lo \/ hi <= lo' /\ hi' <= 64 -> get_bits s' (lo', hi') = get_bits s (lo', hi').
Proof.
  intros H1 H2 H3 Hv. destruct (set_bits_spec s lo hi val H1 H2 H3 Hv) as (s' & E & Hb). exists s'. split; [exact E|]. split.
  - rewrite get_bits_ok by assumption. f_equal. apply N.bits_inj. intros i. rewrite N.land_spec, N.shiftr_spec by lia.
    destruct (N.lt_ge_cases i (hi - lo)) as [Hi|Hi].
    + rewrite N.ones_spec_low by exact Hi. rewrite andb_true_r, Hb. destruct (N.leb_spec lo (i + lo)); [|lia].
      destruct (N.ltb_spec (i + lo) hi); [|lia]. cbn [andb]. f_equal. lia.
    + rewrite N.ones_spec_high by exact Hi. rewrite andb_false_r. symmetry. apply (lt_bits _ _ Hv _ Hi).
  - intros lo' hi' Hl Hd. rewrite !get_bits_ok by lia. f_equal. apply N.bits_inj. intros i. rewrite !N.land_spec, !N.shiftr_spec by lia.
    destruct (N.lt_ge_cases i (hi' - lo')) as [Hi|Hi]; [|rewrite N.ones_spec_high by exact Hi; rewrite !andb_false_r; done].
    f_equal. rewrite Hb. destruct (N.leb_spec lo (i + lo')); [|done]. destruct (N.ltb_spec (i + lo') hi); [|done]. lia.
Qed.
Print Assumptions C40_writing_a_field_touches_nothing_else.
(** C40. A status survives storage, whatever follows it. *)
Theorem C40_survives_storage s rest : s < 2 ^ 64 -> status_decode (status_encode s ++ rest) = Some (s, rest).
Proof.
  intros Hs. unfold status_decode, status_encode. rewrite app_length, le_bytes_length. destruct (Nat.leb_spec 8 (8 + length rest)); [|lia].
  rewrite firstn_app, skipn_app, le_bytes_length, Nat.sub_diag. cbn [firstn skipn]. rewrite app_nil_r.
  rewrite firstn_all2 by (rewrite le_bytes_length; lia). rewrite skipn_all2 by (rewrite le_bytes_length; lia).
  rewrite le_bytes_round; [done|]. exact Hs.
Qed.
Print Assumptions C40_survives_storage.

Example C40_example :
  updated_all fresh [Advance CheckBlockOk; MarkFailed; MarkInvalidParent; Advance FullyChecked] = Some (View FullyChecked true true false) /\
  apply_updates status_new [Advance CheckBlockOk; MarkFailed; MarkInvalidParent; Advance FullyChecked] = Ok 770 /\
  is_ok 770 = Ok false /\ is_fully_valid 770 = Ok false /\ with_cleared_fail_bits 770 = Ok 2 /\ is_fully_valid 2 = Ok true /\
  apply_updates status_new [Advance FullyChecked] = Panic /\ status_encode 770 = [2; 3; 0; 0; 0; 0; 0; 0] /\
  set_bits 65535 (4, 12) 9 = Ok 61599 /\ get_bits 61599 (4, 12) = Ok 9.
Proof. vm_compute. repeat split; reflexivity. Qed.
