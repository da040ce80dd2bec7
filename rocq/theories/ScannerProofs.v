(** The scanner, step by step against the ledger. *)
From Coq Require Import Zify ZifyN ZifyBool.
From Verif Require Import Base ScannerModel ScannerSpec ScannerTables ScannerLedger ScannerSteps.
Local Open Scope N_scope.

Global Arguments set_address_balance_at_height : simpl never.
Global Arguments set_address_locked_balance_at_height : simpl never.
Global Arguments set_utxo_at_height : simpl never.
Global Arguments set_locked_utxo_at_height : simpl never.

Lemma bind_ok {E A B} (m : res E A) (f : A -> res E B) x : rbind m f = Ok x -> ∃ a, m = Ok a ∧ f a = Ok x.
Proof. destruct m; cbn; try done. eauto. Qed.

Record ok_step (h : N) (d : db) (w' : ledger) (d' : db) : Prop := {
  s_inv : inv w' d'; s_wf : wf h d'; s_below : same_below h d d'; s_main : main d' = main d;
  s_nft : ∀ t, is_Some (nft d' !! t) -> is_Some (nft d !! t) ∨ ∃ e a, e ∈ made_ w' ∧ what e = IssueNft t a }.
Lemma nft_balance a n k h d t : is_Some (nft (set_address_balance_at_height a n k h d) !! t) -> is_Some (nft d !! t).
Proof.
  unfold set_address_balance_at_height, update_nft_owner. destruct k as [|t']; [done|]. cbn. destruct (nft d !! t') eqn:E; [|done]. cbn. unfold set_at.
  destruct (decide (t' = t)) as [->|n']; [rewrite E; eauto|by rewrite lookup_insert_ne].
Qed.
Lemma nft_locked a n k h d t : is_Some (nft (set_address_locked_balance_at_height a n k h d) !! t) -> is_Some (nft d !! t).
Proof.
  unfold set_address_locked_balance_at_height, update_nft_owner. destruct k as [|t']; [done|]. cbn. destruct (nft d !! t') eqn:E; [|done]. cbn. unfold set_at.
  destruct (decide (t' = t)) as [->|n']; [rewrite E; eauto|by rewrite lookup_insert_ne].
Qed.

Lemma balance_set a n k h d a' k' : wf h d ->
  get_address_balance a' k' (set_address_balance_at_height a n k h d) = if bool_decide (k = k' ∧ a = a') then Some n else get_address_balance a' k' d.
Proof.
  intros W. unfold get_address_balance. destruct (set_balance_fields a n k h d) as (-> & _). case_bool_decide as E.
  - destruct E as [-> ->]. apply latest_set, W.
  - apply latest_set_ne. naive_solver.
Qed.
Lemma locked_set a n k h d a' k' : wf h d ->
  get_address_locked_balance a' k' (set_address_locked_balance_at_height a n k h d) = if bool_decide (k = k' ∧ a = a') then Some n else get_address_locked_balance a' k' d.
Proof.
  intros W. unfold get_address_locked_balance. destruct (set_locked_fields a n k h d) as (_ & -> & _). case_bool_decide as E.
  - destruct E as [-> ->]. apply latest_set, W.
  - apply latest_set_ne. naive_solver.
Qed.
Lemma balance_locked_set a n k h d a' k' : get_address_balance a' k' (set_address_locked_balance_at_height a n k h d) = get_address_balance a' k' d.
Proof. unfold get_address_balance. by destruct (set_locked_fields a n k h d) as (-> & _). Qed.
Lemma locked_balance_set a n k h d a' k' : get_address_locked_balance a' k' (set_address_balance_at_height a n k h d) = get_address_locked_balance a' k' d.
Proof. unfold get_address_locked_balance. by destruct (set_balance_fields a n k h d) as (_ & -> & _). Qed.

Lemma frame_balance a n k h d : frame d (set_address_balance_at_height a n k h d).
Proof. destruct (set_balance_fields a n k h d) as (_ & _ & ? & ? & ? & ? & _). done. Qed.
Lemma frame_locked a n k h d : frame d (set_address_locked_balance_at_height a n k h d).
Proof. destruct (set_locked_fields a n k h d) as (_ & _ & ? & ? & ? & ? & _). done. Qed.
Lemma frame_trans d1 d2 d3 : frame d1 d2 -> frame d2 d3 -> frame d1 d3.
Proof. unfold frame. intros (? & ? & ? & ?) (? & ? & ? & ?). split_and!; congruence. Qed.
Lemma wf_balance a n k h d : wf h d -> wf h (set_address_balance_at_height a n k h d).
Proof. by destruct (set_balance_fields a n k h d) as (_ & _ & _ & _ & _ & _ & _ & ? & _). Qed.
Lemma wf_locked a n k h d : wf h d -> wf h (set_address_locked_balance_at_height a n k h d).
Proof. by destruct (set_locked_fields a n k h d) as (_ & _ & _ & _ & _ & _ & _ & ? & _). Qed.
Lemma below_balance a n k h d : same_below h d (set_address_balance_at_height a n k h d).
Proof. by destruct (set_balance_fields a n k h d) as (_ & _ & _ & _ & _ & _ & _ & _ & ?). Qed.
Lemma below_locked a n k h d : same_below h d (set_address_locked_balance_at_height a n k h d).
Proof. by destruct (set_locked_fields a n k h d) as (_ & _ & _ & _ & _ & _ & _ & _ & ?). Qed.
Lemma main_balance a n k h d : main (set_address_balance_at_height a n k h d) = main d.
Proof. by destruct (set_balance_fields a n k h d) as (_ & _ & _ & _ & _ & _ & ? & _ & _). Qed.
Lemma main_locked a n k h d : main (set_address_locked_balance_at_height a n k h d) = main d.
Proof. by destruct (set_locked_fields a n k h d) as (_ & _ & _ & _ & _ & _ & ? & _ & _). Qed.

(** An output that is open, with what it adds to a balance *)
Lemma open_step w h d d1 e : inv w d -> wf h d1 -> same_below h d d1 -> main d1 = main d -> frame d d1 -> place e ∉ map place (made_ w) ->
  (∀ a k, default 0 (get_address_balance a k d1) = default 0 (get_address_balance a k d) + value a k (what e)) ->
  (∀ a k, get_address_locked_balance a k d1 = get_address_locked_balance a k d) -> wf h d ->
  (∀ t, is_Some (nft d1 !! t) -> is_Some (nft d !! t)) ->
  ok_step h d (with_open e w) (if spendable (what e) then set_utxo_at_height (place e) (what e, None) (owners (what e)) h d1 else d1).
Proof.
  intros I W1 B1 M1 F Hf HB HL Wd HN. split.
  - by eapply add_open.
  - destruct (spendable _); [|done]. by apply (set_utxo_fields (place e) (what e, None) (owners (what e)) h d1).
  - eapply same_below_trans; [exact B1|]. destruct (spendable _); [|done]. apply (set_utxo_fields (place e) (what e, None) (owners (what e)) h d1).
    left. destruct F as (-> & _). by eapply fresh_utxo.
  - destruct (spendable _); done.
  - intros t. destruct (spendable _); intros Ht; left; by apply HN.
Qed.
Lemma open_credit w h d e a n k : inv w d -> wf h d -> place e ∉ map place (made_ w) -> (∀ a' k', value a' k' (what e) = if bool_decide (k = k' ∧ a = a') then n else 0) ->
  spendable (what e) = true ->
  ok_step h d (with_open e w) (set_utxo_at_height (place e) (what e, None) (owners (what e)) h
    (set_address_balance_at_height a (default 0 (get_address_balance a k d) + n) k h d)).
Proof.
  intros I W Hf HV Es. pose proof (open_step w h d (set_address_balance_at_height a (default 0 (get_address_balance a k d) + n) k h d) e) as Q.
  rewrite Es in Q. apply Q; try done.
  - by apply wf_balance.
  - apply below_balance.
  - apply main_balance.
  - apply frame_balance.
  - intros a' k'. rewrite balance_set by done. rewrite HV. case_bool_decide as E; [destruct E as [-> ->]; done|]. cbn. lia.
  - intros. apply locked_balance_set.
  - intros t. apply nft_balance.
Qed.
Lemma open_plain w h d e : inv w d -> wf h d -> place e ∉ map place (made_ w) -> (∀ a' k', value a' k' (what e) = 0) ->
  ok_step h d (with_open e w) (if spendable (what e) then set_utxo_at_height (place e) (what e, None) (owners (what e)) h d else d).
Proof. intros I W Hf HV. apply open_step; try done. intros a k. rewrite HV. lia. Qed.

(** Another state that differs in the owners of tokens only *)
Lemma ok_step_from h d d0 w' d' : ok_step h d0 w' d' -> same_below h d d0 -> main d0 = main d ->
  (∀ t, is_Some (nft d0 !! t) -> is_Some (nft d !! t) ∨ ∃ e a, e ∈ made_ w' ∧ what e = IssueNft t a) -> ok_step h d w' d'.
Proof. intros [? ? ? E Hn] B M HN. split; [done|done|by eapply same_below_trans|by rewrite E|]. intros t Ht. destruct (Hn t Ht); [by apply HN|by right]. Qed.

Lemma lock_rule id i out v a l h time m : out = LockThenTransfer v a l -> let e := Made (Transaction id, i) out h time in
  (check_timelock l h time h m = true -> is_open h m e = true) ∧
  ∀ u, check_timelock l h time h m = false -> from_output_lock l time h = Ok u -> is_open h m e = false ∧ end_of e = Some u.
Proof.
  intros ->. cbn. destruct l as [x|t|n|n]; cbn.
  - split; [done|]. by intros u E [= <-].
  - split; [done|]. by intros u E [= <-].
  - unfold checked_add. split.
    + destruct (h + n <=? U64_MAX) eqn:E; destruct (n <=? _) eqn:En; done.
    + intros u. destruct (h + n <=? U64_MAX) eqn:E; [|done]. cbn. intros H [= <-]. split; [|done].
      destruct (n <=? _) eqn:En; [done|]. clear E H. lia.
  - unfold checked_add. split.
    + destruct (time + n <=? U64_MAX) eqn:E; done.
    + intros u. destruct (time + n <=? U64_MAX) eqn:E; [|done]. cbn. intros H [= <-]. done.
Qed.
Definition with_output (h m : N) (w : ledger) (e : made) : ledger := if is_open h m e then with_open e w else with_locked e w.

Lemma scan_output_step id h time m w d i out d' : let e := Made (Transaction id, N.of_nat i) out h time in
  inv w d -> wf h d -> place e ∉ map place (made_ w) -> proper_output out -> scan_output id h time m d (i, out) = Ok d' ->
  ok_step h d (with_output h m w e) d'.
Proof.
  intros e I W Hf Hp. unfold scan_output. cbn [fst snd]. unfold with_output.
  destruct out as [[k n] a|[k n] a l|v sp rf|t a|pool dec|a pool|a pool|n del| |v| |].
  - intros H. apply bind_ok in H as (d1 & H1 & [= <-]). apply increase_ok in H1 as [_ ->].
    apply (open_credit w h d e a n k); done.
  - destruct (lock_rule id (N.of_nat i) _ (k, n) a l h time m eq_refl) as [R1 R2]. fold e in R1, R2. destruct (check_timelock l h time h m) eqn:C.
    + rewrite R1 by done. intros H. apply bind_ok in H as (d1 & H1 & [= <-]). apply increase_ok in H1 as [_ ->].
      apply (open_credit w h d e a n k); done.
    + intros H. apply bind_ok in H as (d1 & H1 & H). apply bind_ok in H as (u & H2 & [= <-]).
      destruct (R2 u eq_refl H2) as [R3 Eu]; rewrite R3. apply increase_locked_ok in H1 as [_ ->].
      assert (W1 : wf h (set_address_locked_balance_at_height a (default 0 (get_address_locked_balance a k d) + n) k h d)) by (by apply wf_locked).
      destruct (set_locked_utxo_fields (place e) (LockThenTransfer (k, n) a l, u) [a] h (set_address_locked_balance_at_height a (default 0 (get_address_locked_balance a k d) + n) k h d)) as [Q1 Q2].
      split.
      * apply (add_locked w h d _ e u); try done; [apply frame_locked|intros; apply balance_locked_set|].
        intros a' k'. rewrite locked_set by done. cbn. case_bool_decide as E; [destruct E as [-> ->]; done|]. cbn. lia.
      * by apply Q1.
      * eapply same_below_trans; [apply below_locked|]. apply Q2. destruct (frame_locked a (default 0 (get_address_locked_balance a k d) + n) k h d) as (_ & _ & -> & _).
        by eapply (fresh_locked w h d e).
      * apply (main_locked a _ k h d).
      * intros t Ht. left. exact (nft_locked a _ k h d t Ht).
  - intros [= <-]. apply (open_plain w h d e); done.
  - intros H. apply bind_ok in H as (d0 & H0 & H). apply bind_ok in H as (d1 & H1 & [= <-]). apply increase_ok in H1 as [_ ->].
    assert (HN : ∀ t', is_Some (nft d0 !! t') -> is_Some (nft d !! t') ∨ t' = t).
    { unfold set_nft_token_issuance in H0. destruct (nft d !! t); [done|]. injection H0 as <-. cbn. intros t'. destruct (decide (t' = t)); [by right|].
      rewrite lookup_insert_ne by done. by left. }
    apply set_nft_ok in H0 as (E1 & E2 & E3 & E4 & E5 & E6 & E7 & E8 & E9).
    assert (W0 : wf h d0). { destruct W. split; rewrite ?E1, ?E2, ?E3, ?E5, ?E7; auto. }
    apply (ok_step_from h d d0).
    + apply (open_credit w h d0 e a 1 (TokenId t)); try done. by eapply inv_nft.
    + intros n Hn. unfold disconnect_tables_above_height. by rewrite E1, E2, E3, E4, E5, E6, E7, E9.
    + done.
    + intros t' Ht. destruct (HN t' Ht) as [| ->]; [by left|right]. exists e, a. cbn. rewrite in_snoc. auto.
  - intros [= <-]. apply (open_plain w h d e); done.
  - done.
  - intros [= <-]. apply (open_plain w h d e); done.
  - intros [= <-]. apply (open_plain w h d e); done.
  - intros [= <-]. apply (open_plain w h d e); done.
  - intros [= <-]. apply (open_plain w h d e); done.
  - intros [= <-]. apply (open_plain w h d e); done.
  - intros [= <-]. apply (open_plain w h d e); done.
Qed.

Lemma scan_reward_step id h time w d i out d' : let e := Made (BlockReward id, N.of_nat i) out h time in
  inv w d -> wf h d -> place e ∉ map place (made_ w) -> proper_reward out -> scan_reward_output id h d (i, out) = Ok d' ->
  ok_step h d (with_open e w) d'.
Proof.
  intros e I W Hf Hp. unfold scan_reward_output. cbn [fst snd].
  destruct out as [[k n] a|[k n] a l|v sp rf|t a|pool dec|a pool|a pool|n del| |v| |]; try done.
  - intros H. apply bind_ok in H as (d1 & H1 & [= <-]). apply increase_ok in H1 as [_ ->]. apply (open_credit w h d e a n k); done.
  - intros H. apply bind_ok in H as (d1 & H1 & [= <-]). apply increase_ok in H1 as [_ ->]. apply (open_credit w h d e a n k); done.
  - intros [= <-]. apply (open_plain w h d e); done.
  - intros [= <-]. apply (open_plain w h d e); done.
Qed.

(** * Spending *)
Lemma destination_owner out a : spendable out = true -> get_tx_output_destination out = Some a -> a ∈ owners out.
Proof. destruct out; cbn; try done; intros _ [= ->]; set_solver. Qed.
Lemma spendable_destination out : spendable out = true -> is_Some (get_tx_output_destination out).
Proof. destruct out; cbn; try done; intros; eauto. Qed.
Lemma mark_spent w h d e : inv w d -> wf h d -> e ∈ made_ w -> place e ∈ open_ w -> spendable (what e) = true ->
  let d1 := set_utxo (place e) (what e) h true d in
  utxo d1 = set_at h (place e) (what e, Some h) (utxo d) ∧ utxo_of d1 = utxo_of d ∧ locked_utxo d1 = locked_utxo d ∧ locked_utxo_of d1 = locked_utxo_of d ∧
  balance d1 = balance d ∧ locked_balance d1 = locked_balance d ∧ main d1 = main d ∧ wf h d1 ∧ same_below h d d1 ∧ nft d1 = nft d.
Proof.
  intros I W He Ho Es. cbn. unfold set_utxo. destruct (spendable_destination _ Es) as [a Ea]. rewrite Ea.
  assert (Hin : (a, place e) ∈ utxo_of d). { apply (i_of _ _ I). exists e. split_and!; try done. by apply destination_owner. }
  destruct (set_utxo_fields (place e) (what e, Some h) [a] h d) as [Q1 Q2]. split_and!; try done.
  - unfold set_utxo_at_height. cbn. set_solver.
  - by apply Q1.
  - apply Q2. right. intros a' ->%elem_of_list_singleton. done.
Qed.
Lemma scan_kernel_step h w d e d' : inv w d -> wf h d -> e ∈ made_ w -> place e ∈ open_ w -> place e ∉ spent_ w -> spendable (what e) = true ->
  (is_reward e = false -> ∀ a k, value a k (what e) = 0) ->
  scan_kernel_input h d (place e) = Ok d' -> ok_step h d (with_spent (place e) w) d'.
Proof.
  intros I W He Ho Hs Es HV. unfold scan_kernel_input. intros H. apply bind_ok in H as (u & H1 & [= <-]).
  destruct (get_utxo (place e) d) as [u'|] eqn:Eu; [|done]. injection H1 as ->. destruct (i_utxo _ _ I _ _ Eu) as (x & Hx & Hp & E1 & _).
  rewrite (place_inj _ _ _ (i_nodup _ _ I) Hx He Hp) in E1. rewrite E1.
  destruct (mark_spent w h d e I W He Ho Es) as (F1 & F2 & F3 & F4 & F5 & F6 & F7 & F8 & F9 & F10). split; try done; [|rewrite F10; auto].
  apply (do_spend w h d _ e h); try done; [apply W| |].
  - intros a k. unfold get_address_balance. rewrite F5. destruct (is_reward e); [lia|]. rewrite HV by done. lia.
  - intros a k. unfold get_address_locked_balance. by rewrite F6.
Qed.
Lemma scan_input_step h w d e d' : inv w d -> wf h d -> e ∈ made_ w -> place e ∈ open_ w -> place e ∉ spent_ w -> spendable (what e) = true ->
  scan_input h d (place e) = Ok d' -> ok_step h d (with_spent (place e) w) d'.
Proof.
  intros I W He Ho Hs Es. unfold scan_input. intros H. apply bind_ok in H as (u & H1 & H).
  destruct (get_utxo (place e) d) as [u'|] eqn:Eu; [|done]. injection H1 as ->. destruct (i_utxo _ _ I _ _ Eu) as (x & Hx & Hp & E1 & _).
  rewrite (place_inj _ _ _ (i_nodup _ _ I) Hx He Hp) in E1. rewrite E1 in H.
  destruct (mark_spent w h d e I W He Ho Es) as (F1 & F2 & F3 & F4 & F5 & F6 & F7 & F8 & F9 & F10).
  set (d1 := set_utxo (place e) (what e) h true d) in *. clearbody d1.
  assert (Free : (is_reward e = false -> ∀ a k, value a k (what e) = 0) -> ok_step h d (with_spent (place e) w) d1).
  { intros HV. split; try done; [|rewrite F10; auto]. apply (do_spend w h d _ e h); try done; [apply W| |].
    - intros a k. unfold get_address_balance. rewrite F5. destruct (is_reward e); [lia|]. rewrite HV by done. lia.
    - intros a k. unfold get_address_locked_balance. by rewrite F6. }
  assert (Debit : ∀ a n k, is_reward e = false -> (∀ a' k', value a' k' (what e) = if bool_decide (k = k' ∧ a = a') then n else 0) ->
     decrease_address_amount a n k h d1 = Ok d' -> ok_step h d (with_spent (place e) w) d').
  { intros a n k Hr HV Hd. apply decrease_ok in Hd as [Hle ->]. destruct (frame_balance a (default 0 (get_address_balance a k d1) - n) k h d1) as (G1 & G2 & G3 & G4).
    split.
    - apply (do_spend w h d _ e h); try done; try congruence; [by apply wf_balance|apply W| |].
      + intros a' k'. rewrite Hr, HV, balance_set by done. case_bool_decide as E.
        * destruct E as [-> ->]. cbn. unfold get_address_balance in *. rewrite F5 in *. lia.
        * unfold get_address_balance. rewrite F5. lia.
      + intros a' k'. rewrite locked_balance_set. unfold get_address_locked_balance. by rewrite F6.
    - by apply wf_balance.
    - eapply same_below_trans; [exact F9|apply below_balance].
    - by rewrite main_balance.
    - intros t Ht. left. apply nft_balance in Ht. by rewrite F10 in Ht. }
  unfold is_reward in *. destruct (place e).1 as [i|i].
  - destruct (what e) as [[k n] a|[k n] a l|v sp rf|t a|pool dec|a pool|a pool|n del| |v| |]; try (injection H as <-; by apply Free).
    + by apply (Debit a n k).
    + by apply (Debit a n k).
    + by apply (Debit a 1 (TokenId t)).
  - injection H as <-. by apply Free.
Qed.

(** * Unlocking *)
Lemma unlock_step h w d e d' : inv w d -> wf h d -> e ∈ made_ w -> place e ∈ kept w -> place e ∉ open_ w ->
  unlock h d (place e, what e) = Ok d' -> ok_step h d (with_unlocked (place e) w) d'.
Proof.
  intros I W He Hk Ho. unfold unlock. cbn [fst snd]. destruct (what e) as [| [k n] a l| | | | | | | | | |] eqn:Ew; try done.
  intros H. apply bind_ok in H as (d1 & H1 & H). apply bind_ok in H as (d2 & H2 & [= <-]).
  apply increase_ok in H1 as [_ ->]. apply decrease_locked_ok in H2 as [Hle ->]. rewrite locked_balance_set in *.
  set (d1 := set_address_balance_at_height a _ k h d). set (d2 := set_address_locked_balance_at_height a _ k h d1).
  assert (W1 : wf h d1) by (by apply wf_balance). assert (W2 : wf h d2) by (by apply wf_locked).
  assert (F : frame d d2) by (eapply frame_trans; [apply frame_balance|apply frame_locked]).
  destruct (set_utxo_fields (place e) (LockThenTransfer (k, n) a l, None) [a] h d2) as [Q1 Q2]. split.
  - pose proof (do_unlock w h d d2 e) as Q. rewrite Ew in Q. apply Q; try done.
    + intros a' k'. unfold d2. rewrite balance_locked_set. unfold d1. rewrite balance_set by done. cbn. case_bool_decide as E; [destruct E as [-> ->]; done|]. lia.
    + intros a' k'. unfold d2. rewrite locked_set by done. unfold d1. rewrite locked_balance_set. cbn. case_bool_decide as E; [destruct E as [-> ->]; cbn; lia|]. lia.
  - by apply Q1.
  - eapply same_below_trans; [apply below_balance|]. eapply same_below_trans; [apply below_locked|]. apply Q2. left. destruct F as (-> & _).
    eapply latest_none; [apply (w_utxo _ _ W)|]. destruct (latest (place e) (utxo d)) as [u|] eqn:E; [|done].
    by destruct (i_utxo _ _ I _ _ E) as (x & _ & _ & _ & Hx & _).
  - cbn. etrans; [apply main_locked|apply main_balance].
  - intros t Ht. left. eapply nft_balance, nft_locked. exact Ht.
Qed.
