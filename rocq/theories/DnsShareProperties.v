(** C101, continued: the share of the server's own version in an answer. *)
From Verif Require Import Base DnsAnswerModel DnsAnswerProperties.

(** [n] of [count] is at least the share [num / den], up to half a place: [n >= count * num / den - 1/2] *)
Definition at_least_share (n count num den : N) : Prop := (2 * count * num <= 2 * n * den + den)%N.

Lemma rounded (x den : N) : (0 < den)%N -> (2 * x <= 2 * ((2 * x + den) / (2 * den)) * den + den)%N /\ (2 * ((2 * x + den) / (2 * den)) * den <= 2 * x + den)%N.
Proof.
  intros D. pose proof (N.div_mod (2 * x + den) (2 * den) ltac:(lia)) as E. pose proof (N.mod_lt (2 * x + den) (2 * den) ltac:(lia)) as M.
  set (q := ((2 * x + den) / (2 * den))%N) in *. set (r := ((2 * x + den) mod (2 * den))%N) in *. clearbody q r. nia.
Qed.
Lemma preferred_spec (min_ratio count same all : N) : (min_ratio <= 1000)%N -> (same <= all)%N ->
  let n := preferred_count min_ratio count same all in
  (n <= count)%N /\ (2 * count * min_ratio <= 2 * n * 1000 + 1000)%N /\ (2 * count * same <= 2 * n * all + all)%N.
Proof.
  intros R S n. subst n. unfold preferred_count.
  assert (forall num den, (0 < den)%N -> (num <= den)%N ->
    let n := ((2 * count * num + den) / (2 * den))%N in (n <= count)%N /\ (2 * count * num <= 2 * n * den + den)%N) as K.
  { intros num den D L n. destruct (rounded (count * num) den D) as [A B]. replace (2 * (count * num))%N with (2 * count * num)%N in * by lia. fold n in A, B.
    split; [|exact A]. clearbody n. destruct (N.le_gt_cases n count) as [|G]; [done|]. exfalso.
    assert (n = count + 1 \/ count + 2 <= n)%N as [->|G2] by lia; nia. }
  destruct (N.eqb_spec all 0) as [->|NZ].
  - destruct (K min_ratio 1000%N) as [A B]; [lia..|]. split_and!; [exact A|exact B|lia].
  - destruct (N.leb_spec (same * 1000) (min_ratio * all)) as [C|C].
    + destruct (K min_ratio 1000%N) as [A B]; [lia..|]. split_and!; [exact A|exact B|].
      set (n := ((2 * count * min_ratio + 1000) / (2 * 1000))%N) in *. clearbody n.
      assert (2 * count * same * 1000 <= (2 * n * all + all) * 1000)%N; [|lia].
      apply N.le_trans with (2 * count * (min_ratio * all))%N; [nia|]. replace (2 * count * (min_ratio * all))%N with (2 * count * min_ratio * all)%N by lia. nia.
    + destruct (K same all) as [A B]; [lia..|]. split_and!; [exact A| |exact B].
      set (n := ((2 * count * same + all) / (2 * all))%N) in *. clearbody n.
      assert (2 * count * min_ratio * all <= (2 * n * 1000 + 1000) * all)%N as Q; [|nia].
      apply N.le_trans with (2 * count * (same * 1000))%N; [nia|]. replace (2 * count * (same * 1000))%N with (2 * count * same * 1000)%N by lia. nia.
Qed.

(** C101, share: if there are enough nodes of the server's own version to fill the answer, their share in it is, up to rounding, at least
    the configured one and at least their share among all served nodes. *)
Theorem C101_share (pick_same pick_other : nat -> list N -> list N) (addrs : gmap N N) (own_version min_ratio : N) (count : nat) l :
  sampler pick_same -> sampler pick_other -> (min_ratio <= 1000)%N -> count <= same_count addrs own_version ->
  select_addresses pick_same pick_other addrs own_version count
    (N.to_nat (preferred_count min_ratio (N.of_nat count) (N.of_nat (same_count addrs own_version)) (N.of_nat (size addrs)))) = Some l ->
  at_least_share (N.of_nat (running addrs own_version l)) (N.of_nat count) min_ratio 1000 /\
  at_least_share (N.of_nat (running addrs own_version l)) (N.of_nat count) (N.of_nat (same_count addrs own_version)) (N.of_nat (size addrs)).
Proof.
  intros S1 S2 R E H. pose proof (parts_size addrs own_version) as SZ.
  destruct (preferred_spec min_ratio (N.of_nat count) (N.of_nat (same_count addrs own_version)) (N.of_nat (size addrs)) R ltac:(lia)) as (A & B & C).
  set (n := preferred_count min_ratio (N.of_nat count) (N.of_nat (same_count addrs own_version)) (N.of_nat (size addrs))) in *. clearbody n.
  destruct (C101_answer pick_same pick_other addrs own_version count (N.to_nat n) S1 S2) as (l' & H' & _ & _ & _ & L & _). rewrite H in H'. injection H' as <-.
  assert (n <= N.of_nat (running addrs own_version l))%N as Q by lia. set (m := N.of_nat (running addrs own_version l)) in *. clearbody m. unfold at_least_share. split; nia.
Qed.

(** A case: seven of ten nodes run the own version, the configured share is 800 of 1000 and the answer has five places: four are for them *)
Definition share_addrs : gmap N N := list_to_map [(1, 1); (2, 1); (3, 1); (4, 1); (5, 1); (6, 1); (7, 1); (8, 2); (9, 2); (10, 2)]%N.
Example C101_case_share : preferred_count 800 5 7 10 = 4%N /\ preferred_count 500 5 7 10 = 4%N /\ preferred_count 500 5 5 10 = 3%N /\ preferred_count 500 5 0 0 = 3%N /\
  same_count share_addrs 1 = 7 /\ size share_addrs = 10 /\ exists l, select_addresses take take share_addrs 1 5 4 = Some l /\ running share_addrs 1 l = 4.
Proof. split_and!; try (vm_compute; reflexivity). eexists. split; vm_compute; reflexivity. Qed.

Print Assumptions C101_share.
