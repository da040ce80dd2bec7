(** C03, C04: properties of accounting deltas. *)
From Verif Require Import Base AmountModel DeltaModel DeltaSpec DeltaProofs.
Local Open Scope Z_scope.

(** C03. Merging succeeds exactly when no key overflows; the result is the pointwise sum. *)
Theorem C03_balance_merge_is_sum : forall {K} `{Countable K} (m d : gmap K Z),
  canonical m -> canonical d ->
  ((exists m', merge_delta_amounts m d = (m', Ok tt)) <-> forall k, fits_i128 (change_at m k + change_at d k)) /\
  forall m', merge_delta_amounts m d = (m', Ok tt) ->
     canonical m' /\ forall k, change_at m' k = change_at m k + change_at d k.
Proof. intros K EqK CntK m d. exact (balance_merge_meaning m d). Qed.
Print Assumptions C03_balance_merge_is_sum.

(** C03. Applying the merge equals applying the parts in order. *)
Theorem C03_balance_merge_applies : forall {K} `{Countable K} (m d m' : gmap K Z) b0 b1 b2,
  canonical m -> canonical d -> merge_delta_amounts m d = (m', Ok tt) ->
  applies_to m b0 b1 -> applies_to d b1 b2 -> applies_to m' b0 b2.
Proof. intros K EqK CntK. exact balance_merge_applies. Qed.
Print Assumptions C03_balance_merge_applies.

(** C03. Associativity and commutativity. *)
Theorem C03_balance_merge_assoc : forall {K} `{Countable K} (m d e md de r1 r2 : gmap K Z),
  canonical m -> canonical d -> canonical e ->
  merge_delta_amounts m d = (md, Ok tt) -> merge_delta_amounts md e = (r1, Ok tt) ->
  merge_delta_amounts d e = (de, Ok tt) -> merge_delta_amounts m de = (r2, Ok tt) -> r1 = r2.
Proof. intros K EqK CntK. exact balance_merge_assoc. Qed.
Print Assumptions C03_balance_merge_assoc.

Theorem C03_balance_merge_comm : forall {K} `{Countable K} (m d r : gmap K Z),
  canonical m -> canonical d -> merge_delta_amounts m d = (r, Ok tt) -> merge_delta_amounts d m = (r, Ok tt).
Proof. intros K EqK CntK. exact balance_merge_comm. Qed.
Print Assumptions C03_balance_merge_comm.

(** C03. Undoing a merge restores the previous collection exactly. The one delta that cannot be undone is
    [i128::MIN], for which the code reports [DeltaUndoNegationError]. *)
Theorem C03_balance_merge_undo : forall {K} `{Countable K} (m d m' : gmap K Z),
  canonical m -> canonical d -> (forall k, change_at d k <> - 2 ^ 127) ->
  merge_delta_amounts m d = (m', Ok tt) -> undo_merge_delta_amounts m' d = (m, Ok tt).
Proof. intros K EqK CntK. exact balance_merge_undo. Qed.
Print Assumptions C03_balance_merge_undo.

Definition ex_m : gmap N Z := <[1%N := 5]> (<[2%N := -7]> ∅).
Definition ex_d : gmap N Z := <[1%N := -5]> (<[3%N := 11]> ∅).
Example C03_hypotheses_met :
  canonical ex_m /\ canonical ex_d /\ (exists r, merge_delta_amounts ex_m ex_d = (r, Ok tt) /\ r !! 1%N = None /\ r !! 2%N = Some (-7) /\ r !! 3%N = Some 11) /\
  (forall k, change_at ex_d k <> - 2 ^ 127).
Proof.
  assert (forall k z, ex_m !! k = Some z -> z = 5 \/ z = -7) as Hm.
  { intros k z. unfold ex_m. rewrite !lookup_insert_Some, lookup_empty. intuition congruence. }
  assert (forall k z, ex_d !! k = Some z -> z = -5 \/ z = 11) as Hd.
  { intros k z. unfold ex_d. rewrite !lookup_insert_Some, lookup_empty. intuition congruence. }
  split; [|split; [|split]].
  - intros k z Hz. apply Hm in Hz. unfold fits_i128. lia.
  - intros k z Hz. apply Hd in Hz. unfold fits_i128. lia.
  - eexists. split; [reflexivity|]. vm_compute. tauto.
  - intros k. unfold change_at. destruct (ex_d !! k) as [z|] eqn:Hz; [apply Hd in Hz|]; lia.
Qed.

(** C04. *)
Theorem C04_data_merge_applies : forall {K} `{Countable K} {T} `{EqDecision T}
  (m d m' u : gmap K (data_delta T)) b0 b1 b2,
  merge_delta_data m d = (m', Ok u) ->
  data_applies_to m b0 b1 -> data_applies_to d b1 b2 -> data_applies_to m' b0 b2.
Proof. intros K EqK CntK T EqT. exact data_merge_applies. Qed.
Print Assumptions C04_data_merge_applies.

(** Deltas that apply one after the other can always be merged. *)
Theorem C04_data_merge_succeeds : forall {K} `{Countable K} {T} `{EqDecision T}
  (m d : gmap K (data_delta T)) b0 b1 b2,
  data_applies_to m b0 b1 -> data_applies_to d b1 b2 -> exists m' u, merge_delta_data m d = (m', Ok u).
Proof. intros K EqK CntK T EqT. exact data_merge_succeeds_if_applies. Qed.
Print Assumptions C04_data_merge_succeeds.

(** If the left bracketing succeeds, so does the right one, with the same result. *)
Theorem C04_data_merge_assoc : forall {K} `{Countable K} {T} `{EqDecision T}
  (m d e md u1 r1 u2 : gmap K (data_delta T)),
  merge_delta_data m d = (md, Ok u1) -> merge_delta_data md e = (r1, Ok u2) ->
  exists de u3 u4, merge_delta_data d e = (de, Ok u3) /\ merge_delta_data m de = (r1, Ok u4).
Proof. intros K EqK CntK T EqT. exact data_merge_assoc. Qed.
Print Assumptions C04_data_merge_assoc.

(** Undoing a merge with the returned undo data succeeds and restores the collection up to explicit identity entries
    [(v,v)] on keys that had no entry, where [v] is the value stored below; so what the collection makes of the
    stored data is exactly as before the merge. *)
Theorem C04_data_merge_undo : forall {K} `{Countable K} {T} `{EqDecision T}
  (m d m' u : gmap K (data_delta T)) b0 b1 b2,
  merge_delta_data m d = (m', Ok u) -> data_applies_to m b0 b1 -> data_applies_to d b1 b2 ->
  exists r, undo_merge_delta_data m' u = (r, Ok tt) /\ data_applies_to r b0 b1 /\
    (forall k, r !! k = m !! k \/ (is_Some (d !! k) /\ m !! k = None /\ r !! k = Some (DataDelta (b0 k) (b0 k)))).
Proof. intros K EqK CntK T EqT. exact data_merge_undo_applies. Qed.
Print Assumptions C04_data_merge_undo.

(** d + d.invert() + d = d, as the documentation of [DataDelta] claims. *)
Theorem C04_invert_law : forall {T} `{EqDecision T} (x : data_delta T),
  exists y z, combine_delta_data x (invert x) = Ok y /\ combine_delta_data y x = Ok z /\ z = x.
Proof. intros T EqT. exact combine_invert_combine. Qed.
Print Assumptions C04_invert_law.

Definition ex_dm : gmap N (data_delta N) := <[1%N := DataDelta None (Some 10%N)]> (<[2%N := DataDelta (Some 4%N) None]> ∅).
Definition ex_dd : gmap N (data_delta N) := <[1%N := DataDelta (Some 10%N) (Some 20%N)]> (<[3%N := DataDelta (Some 7%N) (Some 8%N)]> ∅).
Definition ex_b0 (k : N) : option N := if (k =? 2)%N then Some 4%N else if (k =? 3)%N then Some 7%N else None.
Definition ex_b1 (k : N) : option N := if (k =? 1)%N then Some 10%N else if (k =? 3)%N then Some 7%N else None.
Definition ex_b2 (k : N) : option N := if (k =? 1)%N then Some 20%N else if (k =? 3)%N then Some 8%N else None.
Example C04_hypotheses_met :
  (exists m' u, merge_delta_data ex_dm ex_dd = (m', Ok u) /\ m' !! 1%N = Some (DataDelta None (Some 20%N))) /\
  data_applies_to ex_dm ex_b0 ex_b1 /\ data_applies_to ex_dd ex_b1 ex_b2.
Proof.
  split; [|split].
  - eexists _, _. split; [reflexivity|vm_compute; reflexivity].
  - intros k. unfold ex_dm. destruct (decide (k = 1%N)) as [->|H1]; [reflexivity|].
    rewrite lookup_insert_ne by congruence. destruct (decide (k = 2%N)) as [->|H2]; [reflexivity|].
    rewrite lookup_insert_ne, lookup_empty by congruence. unfold ex_b0, ex_b1.
    destruct (N.eqb_spec k 1), (N.eqb_spec k 2), (N.eqb_spec k 3); try congruence; reflexivity.
  - intros k. unfold ex_dd. destruct (decide (k = 1%N)) as [->|H1]; [reflexivity|].
    rewrite lookup_insert_ne by congruence. destruct (decide (k = 3%N)) as [->|H2]; [reflexivity|].
    rewrite lookup_insert_ne, lookup_empty by congruence. unfold ex_b1, ex_b2.
    destruct (N.eqb_spec k 1), (N.eqb_spec k 2), (N.eqb_spec k 3); try congruence; reflexivity.
Qed.
