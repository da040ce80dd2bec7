(** The tables of the scanner against a ledger: the outputs made, the ones spent, the ones that are open, and those that were locked when made. *)
From Coq Require Import Zify ZifyN ZifyBool.
From Verif Require Import Base ScannerModel ScannerSpec ScannerTables.
Local Open Scope N_scope.

Record ledger := Ledger { made_ : list made; spent_ : gset outpoint; open_ : gset outpoint; kept : gset outpoint }.
Definition counted (w : ledger) (e : made) : bool := bool_decide (place e ∈ open_ w) && (is_reward e || bool_decide (place e ∉ spent_ w)).
Definition shown (w : ledger) (a : N) (k : currency) (e : made) : N := if counted w e then value a k (what e) else 0.
Definition held (w : ledger) (a : N) (k : currency) (e : made) : N := if bool_decide (place e ∈ open_ w) then 0 else value a k (what e).
(** Until when an output is locked *)
Definition end_of (e : made) : option until :=
  match what e with
  | LockThenTransfer _ _ l => Some (match l with
      | UntilHeight x => LockedUntilHeight x | UntilTime t => LockedUntilTime t
      | ForBlockCount n => LockedUntilHeight (born e + n) | ForSeconds n => LockedUntilTime (born_time e + n) end)
  | _ => None
  end.

Record inv (w : ledger) (d : db) : Prop := {
  i_nodup : NoDup (map place (made_ w));
  i_dom : ∀ o, o ∈ spent_ w ∨ o ∈ open_ w ∨ o ∈ kept w -> o ∈ map place (made_ w);
  i_spent : ∀ o, o ∈ spent_ w -> o ∈ open_ w;
  i_kept : ∀ e, e ∈ made_ w -> place e ∉ open_ w -> place e ∈ kept w;
  i_kind : ∀ e, e ∈ made_ w -> place e ∈ kept w -> is_Some (end_of e) ∧ is_reward e = false;
  i_bal : ∀ a k, default 0 (get_address_balance a k d) = total (shown w a k) (made_ w);
  i_lock : ∀ a k, default 0 (get_address_locked_balance a k d) = total (held w a k) (made_ w);
  i_utxo : ∀ o u, get_utxo o d = Some u -> ∃ e, e ∈ made_ w ∧ place e = o ∧ u.1 = what e ∧ o ∈ open_ w ∧ (u.2 = None ↔ o ∉ spent_ w) ∧ spendable (what e) = true;
  i_utxo2 : ∀ e, e ∈ made_ w -> place e ∈ open_ w -> spendable (what e) = true -> is_Some (get_utxo (place e) d);
  i_of : ∀ a o, (a, o) ∈ utxo_of d ↔ ∃ e, e ∈ made_ w ∧ place e = o ∧ o ∈ open_ w ∧ a ∈ owners (what e);
  i_lu : ∀ o x, latest o (locked_utxo d) = Some x ↔ ∃ e, e ∈ made_ w ∧ place e = o ∧ o ∈ kept w ∧ x.1 = what e ∧ end_of e = Some x.2;
  i_luof : ∀ a o, (a, o) ∈ locked_utxo_of d ↔ ∃ e, e ∈ made_ w ∧ place e = o ∧ o ∈ kept w ∧ a ∈ owners (what e) }.

Record wf (h : N) (d : db) : Prop := {
  w_bal : upto h (balance d); w_lock : upto h (locked_balance d); w_utxo : upto h (utxo d); w_lu : upto h (locked_utxo d); w_nft : upto h (nft d);
  w_main : Forall (fun x => x.1 <= h) (main d) }.
Lemma wf_mono h h' d : h <= h' -> wf h d -> wf h' d.
Proof.
  intros Hh [? ? ? ? ? F]. split; try (by eapply upto_mono). eapply Forall_impl; [exact F|]. intros x Hx. cbv beta in *. lia.
Qed.
(** Nothing changed below a height *)
Definition same_below (h : N) (d d' : db) : Prop := ∀ n, n < h -> disconnect_tables_above_height n d' = disconnect_tables_above_height n d.
Lemma same_below_refl h d : same_below h d d.
Proof. done. Qed.
Lemma same_below_trans h d1 d2 d3 : same_below h d1 d2 -> same_below h d2 d3 -> same_below h d1 d3.
Proof. intros A B n Hn. by rewrite (B n Hn), (A n Hn). Qed.

(** * Single writes *)
Lemma nft_fields k n a h d : let d' := update_nft_owner k n a h d in
  balance d' = balance d ∧ locked_balance d' = locked_balance d ∧ utxo d' = utxo d ∧ utxo_of d' = utxo_of d ∧ locked_utxo d' = locked_utxo d ∧
  locked_utxo_of d' = locked_utxo_of d ∧ main d' = main d ∧ (upto h (nft d) -> upto h (nft d')) ∧ ∀ m, m < h -> del_above m (nft d') = del_above m (nft d).
Proof.
  cbn. unfold update_nft_owner. destruct k as [|t]; [done|]. destruct (nft d !! t) eqn:E; [|done]. destruct d; cbn in *.
  split_and!; try done. { intros U. by apply upto_set. } intros m Hm. by apply del_above_set.
Qed.
Lemma set_nft_ok t h a d d' : set_nft_token_issuance t h a d = Ok d' ->
  balance d' = balance d ∧ locked_balance d' = locked_balance d ∧ utxo d' = utxo d ∧ utxo_of d' = utxo_of d ∧ locked_utxo d' = locked_utxo d ∧
  locked_utxo_of d' = locked_utxo_of d ∧ main d' = main d ∧ (upto h (nft d) -> upto h (nft d')) ∧ ∀ m, m < h -> del_above m (nft d') = del_above m (nft d).
Proof.
  unfold set_nft_token_issuance. destruct (nft d !! t) eqn:E; [done|]. intros [= <-]. destruct d; cbn in *. split_and!; try done.
  - intros U k l. destruct (decide (t = k)) as [->|n]; [rewrite lookup_insert; intros [= <-]; split; [done|]; constructor; [cbn; lia|constructor]|].
    rewrite lookup_insert_ne by done. apply U.
  - intros m Hm. by apply del_above_fresh.
Qed.
(** The same tables but for the owners of tokens *)
Lemma inv_nft w d d' : balance d' = balance d -> locked_balance d' = locked_balance d -> utxo d' = utxo d -> utxo_of d' = utxo_of d ->
  locked_utxo d' = locked_utxo d -> locked_utxo_of d' = locked_utxo_of d -> inv w d -> inv w d'.
Proof.
  intros E1 E2 E3 E4 E5 E6 [? ? ? ? ? ? ? ? ? ? ? ?].
  split; unfold get_address_balance, get_address_locked_balance, get_utxo in *; rewrite ?E1, ?E2, ?E3, ?E4, ?E5, ?E6; done.
Qed.

Lemma increase_ok a n k h d d' : increase_address_amount a n k h d = Ok d' ->
  default 0 (get_address_balance a k d) + n <= U128_MAX ∧ d' = set_address_balance_at_height a (default 0 (get_address_balance a k d) + n) k h d.
Proof. unfold increase_address_amount, checked_add. destruct (_ <=? _) eqn:E; [|done]. cbn. intros [= <-]. split; [lia|done]. Qed.
Lemma increase_locked_ok a n k h d d' : increase_locked_address_amount a n k h d = Ok d' ->
  default 0 (get_address_locked_balance a k d) + n <= U128_MAX ∧ d' = set_address_locked_balance_at_height a (default 0 (get_address_locked_balance a k d) + n) k h d.
Proof. unfold increase_locked_address_amount, checked_add. destruct (_ <=? _) eqn:E; [|done]. cbn. intros [= <-]. split; [lia|done]. Qed.
Lemma decrease_ok a n k h d d' : decrease_address_amount a n k h d = Ok d' ->
  n <= default 0 (get_address_balance a k d) ∧ d' = set_address_balance_at_height a (default 0 (get_address_balance a k d) - n) k h d.
Proof. unfold decrease_address_amount, checked_sub. destruct (_ <=? _) eqn:E; [|done]. cbn. intros [= <-]. split; [lia|done]. Qed.
Lemma decrease_locked_ok a n k h d d' : decrease_address_locked_amount a n k h d = Ok d' ->
  n <= default 0 (get_address_locked_balance a k d) ∧ d' = set_address_locked_balance_at_height a (default 0 (get_address_locked_balance a k d) - n) k h d.
Proof. unfold decrease_address_locked_amount, checked_sub. destruct (_ <=? _) eqn:E; [|done]. cbn. intros [= <-]. split; [lia|done]. Qed.

(** What a write of a balance leaves as it was, and what it changes *)
Lemma set_balance_fields a n k h d : let d' := set_address_balance_at_height a n k h d in
  balance d' = set_at h (a, k) n (balance d) ∧ locked_balance d' = locked_balance d ∧ utxo d' = utxo d ∧ utxo_of d' = utxo_of d ∧
  locked_utxo d' = locked_utxo d ∧ locked_utxo_of d' = locked_utxo_of d ∧ main d' = main d ∧ (wf h d -> wf h d') ∧ same_below h d d'.
Proof.
  cbn. unfold set_address_balance_at_height. set (d1 := set_balance _ d).
  pose proof (nft_fields k n a h d1) as (E1 & E2 & E3 & E4 & E5 & E6 & E7 & E8 & E9). cbv zeta in *.
  rewrite E1, E2, E3, E4, E5, E6, E7. split_and!; try done.
  - intros [? ? ? ? ? ?]. split; rewrite ?E1, ?E2, ?E3, ?E5, ?E7; try done; [by apply upto_set|by apply E8].
  - intros m Hm. unfold disconnect_tables_above_height. rewrite E1, E2, E3, E4, E5, E6, E7, (E9 m Hm). subst d1. cbn. by rewrite del_above_set.
Qed.
Lemma set_locked_fields a n k h d : let d' := set_address_locked_balance_at_height a n k h d in
  balance d' = balance d ∧ locked_balance d' = set_at h (a, k) n (locked_balance d) ∧ utxo d' = utxo d ∧ utxo_of d' = utxo_of d ∧
  locked_utxo d' = locked_utxo d ∧ locked_utxo_of d' = locked_utxo_of d ∧ main d' = main d ∧ (wf h d -> wf h d') ∧ same_below h d d'.
Proof.
  cbn. unfold set_address_locked_balance_at_height. set (d1 := set_locked_balance _ d).
  pose proof (nft_fields k n a h d1) as (E1 & E2 & E3 & E4 & E5 & E6 & E7 & E8 & E9). cbv zeta in *.
  rewrite E1, E2, E3, E4, E5, E6, E7. split_and!; try done.
  - intros [? ? ? ? ? ?]. split; rewrite ?E1, ?E2, ?E3, ?E5, ?E7; try done; [by apply upto_set|by apply E8].
  - intros m Hm. unfold disconnect_tables_above_height. rewrite E1, E2, E3, E4, E5, E6, E7, (E9 m Hm). subst d1. cbn. by rewrite del_above_set.
Qed.
Lemma filter_union_known (P : N * outpoint -> Prop) `{∀ p, Decision (P p)} (X Y : gset (N * outpoint)) :
  (∀ p, p ∈ X -> P p -> p ∈ Y) -> filter P (X ∪ Y) = filter P Y.
Proof. intros HX. apply set_eq. intros p. rewrite !elem_of_filter, elem_of_union. naive_solver. Qed.
Lemma set_utxo_fields o u l h d : let d' := set_utxo_at_height o u l h d in
  (wf h d -> wf h d') ∧ ((utxo d !! o = None ∨ ∀ a, a ∈ l -> (a, o) ∈ utxo_of d) -> same_below h d d').
Proof.
  cbn. split.
  - intros [? ? ? ? ? ?]. split; cbn; try done. by apply upto_set.
  - intros Hk m Hm. unfold disconnect_tables_above_height. cbn. rewrite del_above_set by done. f_equal.
    apply filter_union_known. intros [a o'] Hp Hs. apply elem_of_list_to_set, elem_of_list_fmap in Hp as (a' & [= -> ->] & Ha). cbn in Hs.
    destruct Hk as [Hn|Hk]; [|by apply Hk]. rewrite del_above_lookup, Hn in Hs. by destruct Hs.
Qed.
Lemma set_locked_utxo_fields o u l h d : let d' := set_locked_utxo_at_height o u l h d in
  (wf h d -> wf h d') ∧ (locked_utxo d !! o = None -> same_below h d d').
Proof.
  cbn. split.
  - intros [? ? ? ? ? ?]. split; cbn; try done. by apply upto_set.
  - intros Hk m Hm. unfold disconnect_tables_above_height. cbn. rewrite del_above_set by done. f_equal.
    apply filter_union_known. intros [a o'] Hp Hs. apply elem_of_list_to_set, elem_of_list_fmap in Hp as (a' & [= -> ->] & Ha). cbn in Hs.
    rewrite del_above_lookup, Hk in Hs. by destruct Hs.
Qed.
