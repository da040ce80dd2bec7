(** The four things that happen to outputs: made and open, made and locked, spent, unlocked. *)
From Coq Require Import Zify ZifyN ZifyBool.
From Verif Require Import Base ScannerModel ScannerSpec ScannerTables ScannerLedger.
Local Open Scope N_scope.

Definition with_open (e : made) (w : ledger) : ledger := Ledger (made_ w ++ [e]) (spent_ w) ({[place e]} ∪ open_ w) (kept w).
Definition with_locked (e : made) (w : ledger) : ledger := Ledger (made_ w ++ [e]) (spent_ w) (open_ w) ({[place e]} ∪ kept w).
Definition with_spent (o : outpoint) (w : ledger) : ledger := Ledger (made_ w) ({[o]} ∪ spent_ w) (open_ w) (kept w).
Definition with_unlocked (o : outpoint) (w : ledger) : ledger := Ledger (made_ w) (spent_ w) ({[o]} ∪ open_ w) (kept w).

(** The two states differ at most in balances, locked balances and owners of tokens *)
Definition frame (d d1 : db) : Prop :=
  utxo d1 = utxo d ∧ utxo_of d1 = utxo_of d ∧ locked_utxo d1 = locked_utxo d ∧ locked_utxo_of d1 = locked_utxo_of d.

Lemma fresh_ne (l : list made) e x : place e ∉ map place l -> x ∈ l -> place x ≠ place e.
Proof. intros Hf Hx E. apply Hf. rewrite <- E. by apply elem_of_list_fmap_1. Qed.
Lemma nodup_snoc (l : list made) e : NoDup (map place l) -> place e ∉ map place l -> NoDup (map place (l ++ [e])).
Proof.
  intros ND Hf. rewrite map_app. apply NoDup_app. split_and!; [done| |apply NoDup_singleton]. intros o Ho Hin. apply elem_of_list_singleton in Hin. by subst.
Qed.
Lemma in_places_snoc (l : list made) e o : o ∈ map place (l ++ [e]) ↔ o ∈ map place l ∨ o = place e.
Proof. rewrite map_app, elem_of_app. cbn. by rewrite elem_of_list_singleton. Qed.
Lemma in_snoc (l : list made) e x : x ∈ l ++ [e] ↔ x ∈ l ∨ x = e.
Proof. by rewrite elem_of_app, elem_of_list_singleton. Qed.

Lemma fresh_utxo w h d e : inv w d -> wf h d -> place e ∉ map place (made_ w) -> utxo d !! place e = None.
Proof.
  intros I Wf Hf. eapply latest_none; [apply (w_utxo _ _ Wf)|]. destruct (latest (place e) (utxo d)) as [u|] eqn:E; [|done].
  destruct (i_utxo _ _ I _ _ E) as (x & Hx & Hp & _). exfalso. apply Hf. rewrite <- Hp. by apply elem_of_list_fmap_1.
Qed.
Lemma fresh_locked w h d e : inv w d -> wf h d -> place e ∉ map place (made_ w) -> locked_utxo d !! place e = None.
Proof.
  intros I Wf Hf. eapply latest_none; [apply (w_lu _ _ Wf)|]. destruct (latest (place e) (locked_utxo d)) as [u|] eqn:E; [|done].
  apply (i_lu _ _ I) in E as (x & Hx & Hp & _). exfalso. apply Hf. rewrite <- Hp. by apply elem_of_list_fmap_1.
Qed.

Lemma utxo_set_get o o' u l h d : upto h (utxo d) -> get_utxo o' (set_utxo_at_height o u l h d) = if bool_decide (o' = o) then Some u else get_utxo o' d.
Proof.
  intros U. unfold get_utxo, set_utxo_at_height. cbn. case_bool_decide as E; [subst; by apply latest_set|apply latest_set_ne]. congruence.
Qed.
Lemma utxo_set_of o u l h d a o' : (a, o') ∈ utxo_of (set_utxo_at_height o u l h d) ↔ (o' = o ∧ a ∈ l) ∨ (a, o') ∈ utxo_of d.
Proof.
  cbn. rewrite elem_of_union, elem_of_list_to_set, elem_of_list_fmap. split; (intros [H|H]; [left|by right]).
  - destruct H as (x & [= -> ->] & Hx). done.
  - destruct H as [-> Ha]. by exists a.
Qed.

Lemma owners_spendable out a : a ∈ owners out -> spendable out = true.
Proof. destruct out; cbn; try done; by intros ?%elem_of_nil. Qed.

(** An output is made that can be spent at once, or never *)
Lemma add_open w h d d1 e : inv w d -> wf h d1 -> frame d d1 -> place e ∉ map place (made_ w) ->
  (∀ a k, default 0 (get_address_balance a k d1) = default 0 (get_address_balance a k d) + value a k (what e)) ->
  (∀ a k, get_address_locked_balance a k d1 = get_address_locked_balance a k d) ->
  inv (with_open e w) (if spendable (what e) then set_utxo_at_height (place e) (what e, None) (owners (what e)) h d1 else d1).
Proof.
  intros I Wf (F1 & F2 & F3 & F4) Hf HB HL. set (d2 := if spendable (what e) then _ else _).
  assert (Ho : place e ∉ open_ w). { intros Ho. apply Hf. apply (i_dom _ _ I). auto. }
  assert (Hs : place e ∉ spent_ w). { intros Ho'. apply Hf. apply (i_dom _ _ I). auto. }
  assert (Hk : place e ∉ kept w). { intros Ho'. apply Hf. apply (i_dom _ _ I). auto. }
  assert (Eb : balance d2 = balance d1) by (subst d2; by destruct (spendable _)).
  assert (El : locked_balance d2 = locked_balance d1) by (subst d2; by destruct (spendable _)).
  assert (Elu : locked_utxo d2 = locked_utxo d) by (subst d2; destruct (spendable _); cbn; congruence).
  assert (Eluo : locked_utxo_of d2 = locked_utxo_of d) by (subst d2; destruct (spendable _); cbn; congruence).
  assert (Eu : ∀ o, get_utxo o d2 = if bool_decide (o = place e) && spendable (what e) then Some (what e, None) else get_utxo o d).
  { intros o. subst d2. destruct (spendable _).
    - rewrite utxo_set_get by apply Wf. rewrite andb_true_r. unfold get_utxo. by rewrite F1.
    - rewrite andb_false_r. unfold get_utxo. by rewrite F1. }
  assert (Euo : ∀ a o, (a, o) ∈ utxo_of d2 ↔ (o = place e ∧ a ∈ owners (what e)) ∨ (a, o) ∈ utxo_of d).
  { intros a o. subst d2. destruct (spendable _) eqn:Es.
    - rewrite utxo_set_of. by rewrite F2.
    - rewrite F2. split; [by right|]. intros [[_ Ha]|H]; [|done]. apply owners_spendable in Ha. congruence. }
  clearbody d2.
  assert (Hne : ∀ x, x ∈ made_ w -> place x ≠ place e) by (intros x; by apply fresh_ne).
  split; cbn.
  - by apply nodup_snoc; [apply I|].
  - intros o Ho'. apply in_places_snoc. destruct (decide (o = place e)); [by right|left]. apply (i_dom _ _ I). set_solver.
  - intros o Ho'. apply elem_of_union_r. by apply (i_spent _ _ I).
  - intros x Hx Hn. apply in_snoc in Hx as [Hx|Hx]; [|subst; set_solver]. apply (i_kept _ _ I); [done|set_solver].
  - intros x Hx Hn. apply in_snoc in Hx as [Hx|Hx]; [|by subst]. by apply (i_kind _ _ I).
  - intros a k. unfold get_address_balance. rewrite Eb. change (latest (a, k) (balance d1)) with (get_address_balance a k d1).
    rewrite HB, (i_bal _ _ I), total_app, total_cons, total_nil. f_equal.
    + apply total_ext. intros x Hx. unfold shown, counted. cbn. specialize (Hne x Hx).
      replace (bool_decide (place x ∈ {[place e]} ∪ open_ w)) with (bool_decide (place x ∈ open_ w)); [done|]. apply bool_decide_ext. set_solver.
    + unfold shown, counted. cbn. rewrite !bool_decide_eq_true_2 by set_solver. rewrite orb_true_r. cbn. lia.
  - intros a k. unfold get_address_locked_balance. rewrite El. change (latest (a, k) (locked_balance d1)) with (get_address_locked_balance a k d1).
    rewrite HL, (i_lock _ _ I), total_app, total_cons, total_nil.
    assert (held (with_open e w) a k e = 0) as ->. { unfold held. cbn. rewrite bool_decide_eq_true_2; [done|set_solver]. }
    rewrite !N.add_0_r. apply total_ext. intros x Hx. unfold held. cbn. specialize (Hne x Hx).
    replace (bool_decide (place x ∈ {[place e]} ∪ open_ w)) with (bool_decide (place x ∈ open_ w)); [done|]. apply bool_decide_ext. set_solver.
  - intros o u. rewrite Eu. destruct (bool_decide (o = place e) && spendable (what e)) eqn:B.
    + apply andb_true_iff in B as [->%bool_decide_eq_true Es]. intros [= <-]. exists e. cbn. rewrite in_snoc. set_solver.
    + intros Hu. destruct (i_utxo _ _ I _ _ Hu) as (x & Hx & Hp & E1 & E2 & E3 & E4). exists x. rewrite in_snoc. split_and!; auto. set_solver.
  - intros x Hx Hop Es. rewrite Eu. destruct (bool_decide (place x = place e) && spendable (what e)) eqn:B; [eauto|].
    apply in_snoc in Hx as [Hx|Hx].
    + apply (i_utxo2 _ _ I); [done| |done]. specialize (Hne x Hx). set_solver.
    + subst x. rewrite Es, bool_decide_eq_true_2 in B; done.
  - intros a o. rewrite Euo. rewrite (i_of _ _ I). split.
    + intros [[-> Ha]|(x & Hx & Hp & Hoo & Ha)]; [exists e|exists x]; rewrite in_snoc; set_solver.
    + intros (x & Hx & Hp & Hoo & Ha). apply in_snoc in Hx as [Hx|Hx]; [|subst x o; by left]. right. exists x. specialize (Hne x Hx). set_solver.
  - intros o x. rewrite Elu. rewrite (i_lu _ _ I). split.
    + intros (y & Hy & Hr). exists y. rewrite in_snoc. auto.
    + intros (y & Hy & Hp & Hkk & Hr). apply in_snoc in Hy as [Hy|Hy]; [by exists y|]. subst y o. done.
  - intros a o. rewrite Eluo. rewrite (i_luof _ _ I). split.
    + intros (y & Hy & Hr). exists y. rewrite in_snoc. auto.
    + intros (y & Hy & Hp & Hkk & Hr). apply in_snoc in Hy as [Hy|Hy]; [by exists y|]. subst y o. done.
Qed.

(** An output of a transaction is made that is locked *)
Lemma add_locked w h d d1 e u : inv w d -> wf h d1 -> frame d d1 -> place e ∉ map place (made_ w) -> is_reward e = false -> end_of e = Some u ->
  (∀ a k, get_address_balance a k d1 = get_address_balance a k d) ->
  (∀ a k, default 0 (get_address_locked_balance a k d1) = default 0 (get_address_locked_balance a k d) + value a k (what e)) ->
  inv (with_locked e w) (set_locked_utxo_at_height (place e) (what e, u) (owners (what e)) h d1).
Proof.
  intros I Wf (F1 & F2 & F3 & F4) Hf Hr Hu HB HL.
  assert (Ho : place e ∉ open_ w). { intros Ho. apply Hf. apply (i_dom _ _ I). auto. }
  assert (Hs : place e ∉ spent_ w). { intros Ho'. apply Hf. apply (i_dom _ _ I). auto. }
  assert (Hk : place e ∉ kept w). { intros Ho'. apply Hf. apply (i_dom _ _ I). auto. }
  assert (Hne : ∀ x, x ∈ made_ w -> place x ≠ place e) by (intros x; by apply fresh_ne).
  split; cbn.
  - by apply nodup_snoc; [apply I|].
  - intros o Ho'. apply in_places_snoc. destruct (decide (o = place e)); [by right|left]. apply (i_dom _ _ I). set_solver.
  - apply I.
  - intros x Hx Hn. apply in_snoc in Hx as [Hx|Hx]; [|subst; set_solver]. apply elem_of_union_r. by apply (i_kept _ _ I).
  - intros x Hx Hn. apply in_snoc in Hx as [Hx|Hx]; [|subst x; rewrite Hu; eauto]. apply (i_kind _ _ I); [done|]. specialize (Hne x Hx). set_solver.
  - intros a k. change (get_address_balance a k _) with (get_address_balance a k d1).
    rewrite HB, (i_bal _ _ I), total_app, total_cons, total_nil.
    assert (shown (with_locked e w) a k e = 0) as ->. { unfold shown, counted. cbn. rewrite bool_decide_eq_false_2; done. }
    rewrite !N.add_0_r. apply total_ext. done.
  - intros a k. change (get_address_locked_balance a k _) with (get_address_locked_balance a k d1).
    rewrite HL, (i_lock _ _ I), total_app, total_cons, total_nil. f_equal.
    unfold held. cbn. rewrite bool_decide_eq_false_2 by done. lia.
  - intros o v. change (get_utxo o _) with (latest o (utxo d1)). rewrite F1. intros Hv.
    destruct (i_utxo _ _ I _ _ Hv) as (x & Hx & E). exists x. rewrite in_snoc. auto.
  - intros x Hx Hop Es. change (get_utxo (place x) _) with (latest (place x) (utxo d1)). rewrite F1. apply in_snoc in Hx as [Hx|Hx]; [|by subst x].
    by apply (i_utxo2 _ _ I).
  - intros a o. rewrite F2, (i_of _ _ I). split.
    + intros (y & Hy & Hq). exists y. rewrite in_snoc. auto.
    + intros (y & Hy & Hp & Hkk & Hq). apply in_snoc in Hy as [Hy|Hy]; [by exists y|]. subst y o. done.
  - intros o [out x]. destruct (decide (o = place e)) as [->|n].
    + rewrite latest_set by apply Wf. split.
      * intros [= <- <-]. exists e. rewrite in_snoc. cbn. set_solver.
      * intros (y & Hy & Hp & _ & E1 & E2). apply in_snoc in Hy as [Hy|Hy]; [by destruct (Hne y Hy)|]. subst y. cbn in *. congruence.
    + rewrite latest_set_ne by congruence. rewrite F3, (i_lu _ _ I). split.
      * intros (y & Hy & Hp & Hq). exists y. rewrite in_snoc. set_solver.
      * intros (y & Hy & Hp & Hkk & Hq). apply in_snoc in Hy as [Hy|Hy]; [|by subst]. exists y. destruct Hq. split_and!; try done. set_solver.
  - intros a o. rewrite elem_of_union, elem_of_list_to_set, elem_of_list_fmap, F4, (i_luof _ _ I). split.
    + intros [(x & [= -> ->] & Hx)|(y & Hy & Hq)]; [exists e|exists y]; rewrite in_snoc; set_solver.
    + intros (y & Hy & Hp & Hkk & Hq). apply in_snoc in Hy as [Hy|Hy].
      * right. exists y. specialize (Hne y Hy). set_solver.
      * subst y o. left. by exists a.
Qed.

(** An open output is spent *)
Lemma do_spend w h d d1 e (s : N) : inv w d -> wf h d1 -> e ∈ made_ w -> place e ∈ open_ w -> place e ∉ spent_ w -> spendable (what e) = true ->
  utxo d1 = set_at h (place e) (what e, Some s) (utxo d) -> utxo_of d1 = utxo_of d -> locked_utxo d1 = locked_utxo d -> locked_utxo_of d1 = locked_utxo_of d ->
  upto h (utxo d) ->
  (∀ a k, default 0 (get_address_balance a k d1) + (if is_reward e then 0 else value a k (what e)) = default 0 (get_address_balance a k d)) ->
  (∀ a k, get_address_locked_balance a k d1 = get_address_locked_balance a k d) ->
  inv (with_spent (place e) w) d1.
Proof.
  intros I Wf He Ho Hs Es F1 F2 F3 F4 Uu HB HL.
  assert (Eu : ∀ o, get_utxo o d1 = if bool_decide (o = place e) then Some (what e, Some s) else get_utxo o d).
  { intros o. unfold get_utxo. rewrite F1. case_bool_decide as E; [subst; by apply latest_set|apply latest_set_ne; congruence]. }
  split; cbn.
  - apply I.
  - intros o Ho'. destruct (decide (o = place e)); [subst; by apply elem_of_list_fmap_1|]. apply (i_dom _ _ I). set_solver.
  - intros o Ho'. destruct (decide (o = place e)); [by subst|]. apply (i_spent _ _ I). set_solver.
  - apply I.
  - apply I.
  - intros a k. specialize (HB a k). rewrite (i_bal _ _ I) in HB.
    assert (C : total (shown (with_spent (place e) w) a k) (made_ w) + shown w a k e = total (shown w a k) (made_ w) + shown (with_spent (place e) w) a k e).
    { apply total_change; [apply I|done|]. intros x Hx Hn. unfold shown, counted. cbn.
      replace (bool_decide (place x ∉ {[place e]} ∪ spent_ w)) with (bool_decide (place x ∉ spent_ w)); [done|]. apply bool_decide_ext. set_solver. }
    assert (A1 : shown w a k e = value a k (what e)).
    { unfold shown, counted. rewrite !bool_decide_eq_true_2 by done. by rewrite orb_true_r. }
    assert (A2 : shown (with_spent (place e) w) a k e = if is_reward e then value a k (what e) else 0).
    { unfold shown, counted. cbn. rewrite bool_decide_eq_true_2 by done. rewrite bool_decide_eq_false_2 by set_solver. rewrite orb_false_r. done. }
    rewrite A1, A2 in C. destruct (is_reward e); lia.
  - intros a k. rewrite HL. apply I.
  - intros o u. rewrite Eu. case_bool_decide as E.
    + intros [= <-]. subst o. exists e. cbn. split_and!; try done. set_solver.
    + intros Hu. destruct (i_utxo _ _ I _ _ Hu) as (x & Hx & Hp & E1 & E2 & E3 & E4). exists x. split_and!; auto. set_solver.
  - intros x Hx Hop Esx. rewrite Eu. case_bool_decide; [eauto|]. by apply (i_utxo2 _ _ I).
  - intros a o. rewrite F2. apply I.
  - intros o x. rewrite F3. apply I.
  - intros a o. rewrite F4. apply I.
Qed.

(** A locked output is unlocked *)
Lemma do_unlock w h d d1 e : inv w d -> wf h d1 -> frame d d1 -> e ∈ made_ w -> place e ∈ kept w -> place e ∉ open_ w -> spendable (what e) = true ->
  (∀ a k, default 0 (get_address_balance a k d1) = default 0 (get_address_balance a k d) + value a k (what e)) ->
  (∀ a k, default 0 (get_address_locked_balance a k d1) + value a k (what e) = default 0 (get_address_locked_balance a k d)) ->
  inv (with_unlocked (place e) w) (set_utxo_at_height (place e) (what e, None) (owners (what e)) h d1).
Proof.
  intros I Wf (F1 & F2 & F3 & F4) He Hk Ho Es HB HL.
  assert (Hs : place e ∉ spent_ w). { intros Hs. apply Ho. by apply (i_spent _ _ I). }
  assert (Hp : place e ∈ map place (made_ w)) by (by apply elem_of_list_fmap_1).
  split; cbn -[get_utxo utxo_of].
  - apply I.
  - intros o Ho'. destruct (decide (o = place e)); [by subst|]. apply (i_dom _ _ I). set_solver.
  - intros o Ho'. apply elem_of_union_r. by apply (i_spent _ _ I).
  - intros x Hx Hn. apply (i_kept _ _ I); [done|set_solver].
  - apply I.
  - intros a k. change (get_address_balance a k _) with (get_address_balance a k d1). rewrite HB, (i_bal _ _ I).
    assert (C : total (shown (with_unlocked (place e) w) a k) (made_ w) + shown w a k e = total (shown w a k) (made_ w) + shown (with_unlocked (place e) w) a k e).
    { apply total_change; [apply I|done|]. intros x Hx Hn. unfold shown, counted. cbn.
      replace (bool_decide (place x ∈ {[place e]} ∪ open_ w)) with (bool_decide (place x ∈ open_ w)); [done|]. apply bool_decide_ext. set_solver. }
    assert (A1 : shown w a k e = 0).
    { unfold shown, counted. rewrite bool_decide_eq_false_2 by done. done. }
    assert (A2 : shown (with_unlocked (place e) w) a k e = value a k (what e)).
    { unfold shown, counted. cbn. rewrite !bool_decide_eq_true_2 by set_solver. by rewrite orb_true_r. }
    rewrite A1, A2 in C. lia.
  - intros a k. change (get_address_locked_balance a k _) with (get_address_locked_balance a k d1). specialize (HL a k). rewrite (i_lock _ _ I) in HL.
    assert (C : total (held (with_unlocked (place e) w) a k) (made_ w) + held w a k e = total (held w a k) (made_ w) + held (with_unlocked (place e) w) a k e).
    { apply total_change; [apply I|done|]. intros x Hx Hn. unfold held. cbn.
      replace (bool_decide (place x ∈ {[place e]} ∪ open_ w)) with (bool_decide (place x ∈ open_ w)); [done|]. apply bool_decide_ext. set_solver. }
    assert (A1 : held w a k e = value a k (what e)).
    { unfold held. rewrite bool_decide_eq_false_2 by done. done. }
    assert (A2 : held (with_unlocked (place e) w) a k e = 0).
    { unfold held. cbn. rewrite !bool_decide_eq_true_2 by set_solver. done. }
    rewrite A1, A2 in C. lia.
  - intros o u. rewrite utxo_set_get by apply Wf. case_bool_decide as E.
    + intros [= <-]. subst o. exists e. cbn. split_and!; try done. set_solver.
    + unfold get_utxo. rewrite F1. intros Hu. destruct (i_utxo _ _ I _ _ Hu) as (x & Hx & Hpx & E1 & E2 & E3 & E4). exists x. split_and!; auto. set_solver.
  - intros x Hx Hop Esx. rewrite utxo_set_get by apply Wf. case_bool_decide; [eauto|]. unfold get_utxo. rewrite F1. apply (i_utxo2 _ _ I); [done| |done]. set_solver.
  - intros a o. rewrite utxo_set_of, F2, (i_of _ _ I). split.
    + intros [[-> Ha]|(y & Hy & Hq)]; [exists e|exists y]; set_solver.
    + intros (y & Hy & Hpy & Hoo & Ha). destruct (decide (o = place e)) as [->|n].
      * left. split; [done|]. by rewrite <- (place_inj _ _ _ (i_nodup _ _ I) Hy He Hpy).
      * right. exists y. set_solver.
  - intros o x. rewrite F3. apply I.
  - intros a o. rewrite F4. apply I.
Qed.
