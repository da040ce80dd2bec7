(** C79: the filter that remembers recent items never forgets one too early. *)
From Verif Require Import Base BloomModel BloomSpec BloomProofs.

(** Whatever is inserted, in whatever order, and whatever seeds are drawn: nothing panics, and each of the last [size] items is
    reported as present *)
Theorem C79_recent_items_are_recognised {T Seed} (positions : Seed -> T -> list nat) size s0 s1 s2 items : (0 < size)%nat ->
  exists r, filled positions size s0 s1 s2 items = Ok r /\ forall x, x ∈ last_items size items -> rolling_contains positions r x = true.
Proof.
  intros S. destruct (filled_ok positions size s0 s1 s2 items S) as (r & E & O). exists r. split; [done|]. intros x X.
  destruct O as (fa & fb & fc & old & la & lb & lc & I & L & HA & HB & HC & H & C & CM & LA & LB & FB & FA & M & _).
  apply (circle_contains positions _ _ _ _ _ _ L). unfold last_items in X. rewrite <- skipn_map, H in X.
  assert (x ∈ la ++ lb ++ lc) as X'.
  { assert (length items = (length old + length la + length lb + length lc)%nat) as LI.
    { rewrite <- (map_length fst items), H, !app_length. lia. }
    destruct FA as [FA|FA].
    - destruct FB as [FB|FB].
      + assert (size <= 2 * ((size + 1) / 2))%nat as Z. { pose proof (Nat.div_mod (size + 1) 2 ltac:(lia)). pose proof (Nat.mod_upper_bound (size + 1) 2 ltac:(lia)). lia. }
        rewrite drop_app_ge in X by lia. rewrite <- (take_drop (length items - size - length old) (la ++ lb ++ lc)). apply elem_of_app. by right.
      + apply app_eq_nil in FB as [-> ->]. cbn [app] in *. rewrite <- (take_drop (length items - size) (lb ++ lc)). apply elem_of_app. by right.
    - rewrite FA in *. cbn [app] in *. rewrite <- (take_drop (length items - size) (la ++ lb ++ lc)). apply elem_of_app. by right. }
  apply elem_of_app in X' as [X'|[X'|X']%elem_of_app]; [left|right; left|right; right]; (eapply holds_contains; [eassumption|done]).
Qed.

(** Anything that is reported as present is explained by few recent items: all its positions, under one of the seeds drawn, are
    positions of at most [(size + 1) / 2] items that are among the last [(3 * size + 1) / 2]. Older items have no effect. *)
Theorem C79_older_items_are_forgotten {T Seed} (positions : Seed -> T -> list nat) size s0 s1 s2 items r x : (0 < size)%nat ->
  filled positions size s0 s1 s2 items = Ok r -> rolling_contains positions r x = true ->
  exists s g, s ∈ [s0; s1; s2] ++ map snd items /\ (length g <= (size + 1) / 2)%nat /\ (forall y, y ∈ g -> y ∈ last_items ((3 * size + 1) / 2) items) /\
    forall p, p ∈ positions s x -> exists y, y ∈ g /\ p ∈ positions s y.
Proof.
  intros S E X. destruct (filled_ok positions size s0 s1 s2 items S) as (r' & E' & O). rewrite E in E'. injection E' as <-.
  destruct O as (fa & fb & fc & old & la & lb & lc & I & L & HA & HB & HC & H & C & CM & LA & LB & FB & FA & M & SA & SB & SC).
  apply (circle_contains positions _ _ _ _ _ _ L) in X.
  assert (1 <= (size + 1) / 2)%nat as Z1. { apply (Nat.div_le_lower_bound (size + 1) 2 1); lia. }
  assert (r_max r = (size + 1) / 2)%nat as M' by lia.
  assert (length items = (length old + length la + length lb + length lc)%nat) as LI.
  { rewrite <- (map_length fst items), H, !app_length. lia. }
  assert (3 * ((size + 1) / 2) - 1 <= (3 * size + 1) / 2)%nat as Z2.
  { apply Nat.div_le_lower_bound; [lia|]. pose proof (Nat.div_mod (size + 1) 2 ltac:(lia)). lia. }
  assert (forall y, y ∈ la ++ lb ++ lc -> y ∈ last_items ((3 * size + 1) / 2) items) as W.
  { intros y Y. unfold last_items. rewrite <- skipn_map, H.
    assert (length items - (3 * size + 1) / 2 <= length old)%nat as Z3 by lia. rewrite drop_app_le by done. apply elem_of_app. by right. }
  assert (forall f l, holds positions f l -> filter_contains positions f x = true -> forall p, p ∈ positions (f_seed f) x -> exists y, y ∈ l /\ p ∈ positions (f_seed f) y) as K.
  { intros f l Hf Cf p P. apply Hf. revert p P. by apply contains_iff. }
  destruct X as [X|[X|X]].
  - exists (f_seed fa), la. split; [done|]. split; [lia|]. split; [intros y Y; apply W, elem_of_app; by left|by apply K].
  - exists (f_seed fb), lb. split; [done|]. split; [lia|]. split; [intros y Y; apply W, elem_of_app; right; apply elem_of_app; by left|by apply K].
  - exists (f_seed fc), lc. split; [done|]. split; [lia|]. split; [intros y Y; apply W, elem_of_app; right; apply elem_of_app; by right|by apply K].
Qed.

(** A filter for two items, and positions that depend on the seed: the last two are present, the first is forgotten *)
Example C79_example : let positions s x := [(s + x) mod 101; (s * x) mod 97]%nat in
  exists r, filled positions 2 1 2 3 [(10, 4); (20, 5); (30, 6); (40, 7); (50, 8)]%nat = Ok r /\
    map (rolling_contains positions r) [10; 20; 30; 40; 50]%nat = [false; false; false; true; true] /\
    last_items 2 [(10, 4); (20, 5); (30, 6); (40, 7); (50, 8)]%nat = [40; 50]%nat.
Proof. eexists. split; [vm_compute; reflexivity|]. split; vm_compute; reflexivity. Qed.

Print Assumptions C79_recent_items_are_recognised.
Print Assumptions C79_older_items_are_forgotten.
