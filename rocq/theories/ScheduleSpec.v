(** What the emission schedule and the network upgrades are meant to be. *)
From stdpp Require Import sorting.
From Verif Require Import Base ScheduleModel.
Local Open Scope N_scope.

(** A table as [BTreeMap] keeps it: strictly increasing heights; all numbers are machine integers. *)
Definition table_ok (t : emission_table) : Prop :=
  StronglySorted (fun x y => x.1 < y.1) (et_periods t) /\ et_supply t <= U128_MAX /\ et_subsidy t <= U128_MAX /\
  Forall (fun p => p.1 <= U64_MAX /\ p.2 <= U128_MAX) (et_periods t).

(** The subsidy of the block at height [k]: that of the last period that starts below [k], or else the initial one. *)
Definition subsidy_of (t : emission_table) (k : N) (s : N) : Prop :=
  (exists h, (h, s) ∈ et_periods t /\ h < k /\ forall h' s', (h', s') ∈ et_periods t -> h' < k -> h' <= h) \/
  (s = et_subsidy t /\ forall h' s', (h', s') ∈ et_periods t -> k <= h').

(** [issued t h s]: the initial supply and the subsidies of blocks 1 to [h] add up to [s]. *)
Inductive issued (t : emission_table) : N -> N -> Prop :=
| issued_genesis : issued t 0 (et_supply t)
| issued_block h s r : issued t h s -> subsidy_of t (h + 1) r -> issued t (h + 1) (s + r).

(** [u] is the upgrade in force at [h] among [ups]: the last at or below, and the greatest version among those of its height. *)
Definition in_force {T} (tle : relation T) (ups : list (N * T)) (h : N) (u : N * T) : Prop :=
  u ∈ ups /\ u.1 <= h /\ forall u', u' ∈ ups -> u'.1 <= h -> u'.1 < u.1 \/ u'.1 = u.1 /\ tle u'.2 u.2.
