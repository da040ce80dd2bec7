(** The scanner does not panic on chains whose numbers fit. *)
From Coq Require Import Zify ZifyN ZifyBool.
From Verif Require Import Base ScannerModel ScannerSpec ScannerTables ScannerLedger ScannerSteps ScannerProofs ScannerChain.
Local Open Scope N_scope.

(** What can be shown at most *)
Definition room (w : ledger) (a : N) (k : currency) : N := total (fun e => if is_reward e || bool_decide (place e ∉ spent_ w) then value a k (what e) else 0) (made_ w).
Lemma room_turnover w l s a k : made_ w = l -> (∀ o, o ∈ spent_ w ↔ o ∈ s) -> room w a k = turnover l s a k.
Proof.
  intros <- Hs. unfold room, turnover. apply total_ext. intros e He. replace (bool_decide (place e ∉ s)) with (bool_decide (place e ∉ spent_ w)); [done|].
  apply bool_decide_ext. by rewrite Hs.
Qed.
Lemma shown_room w a k e x : e ∈ made_ w -> place e ∉ open_ w -> NoDup (map place (made_ w)) -> (∀ o, o ∈ spent_ w -> o ∈ open_ w) ->
  x = value a k (what e) -> total (shown w a k) (made_ w) + x <= room w a k.
Proof.
  intros He Ho ND HS ->. set (f := fun y => if bool_decide (place y = place e) then value a k (what e) else shown w a k y).
  assert (C : total f (made_ w) + shown w a k e = total (shown w a k) (made_ w) + f e).
  { apply total_change; try done. intros y Hy Hn. unfold f. by rewrite bool_decide_eq_false_2. }
  assert (shown w a k e = 0) as Z. { unfold shown, counted. by rewrite bool_decide_eq_false_2. }
  assert (f e = value a k (what e)) as Fe. { unfold f. by rewrite bool_decide_eq_true_2. }
  assert (total f (made_ w) <= room w a k); [|lia]. apply total_le. intros y Hy. unfold f. case_bool_decide as E.
  - rewrite (place_inj _ _ _ ND Hy He E). rewrite bool_decide_eq_true_2; [rewrite orb_true_r; lia|]. intros Hs. by apply Ho, HS.
  - unfold shown, counted. destruct (bool_decide (place y ∈ open_ w)); cbn; [|lia]. destruct (is_reward y || _); lia.
Qed.
Lemma shown_room_new w a k e : place e ∉ spent_ w -> total (shown w a k) (made_ w) + value a k (what e) <=
  total (fun e => if is_reward e || bool_decide (place e ∉ spent_ w) then value a k (what e) else 0) (made_ w ++ [e]).
Proof.
  intros Hs. rewrite total_app, total_cons, total_nil. rewrite (bool_decide_eq_true_2 (place e ∉ spent_ w)) by done. rewrite orb_true_r.
  assert (total (shown w a k) (made_ w) <= total (fun e0 => if is_reward e0 || bool_decide (place e0 ∉ spent_ w) then value a k (what e0) else 0) (made_ w)); [|lia].
  apply total_le. intros y Hy. unfold shown, counted. destruct (bool_decide (place y ∈ open_ w)); cbn; [|lia]. destruct (is_reward y || _); lia.
Qed.
Lemma held_room_new w a k e : place e ∉ spent_ w -> (∀ o, o ∈ spent_ w -> o ∈ open_ w) -> total (held w a k) (made_ w) + value a k (what e) <=
  total (fun e => if is_reward e || bool_decide (place e ∉ spent_ w) then value a k (what e) else 0) (made_ w ++ [e]).
Proof.
  intros Hs HS. rewrite total_app, total_cons, total_nil. rewrite (bool_decide_eq_true_2 (place e ∉ spent_ w)) by done. rewrite orb_true_r.
  assert (total (held w a k) (made_ w) <= total (fun e0 => if is_reward e0 || bool_decide (place e0 ∉ spent_ w) then value a k (what e0) else 0) (made_ w)); [|lia].
  apply total_le. intros y Hy. unfold held. case_bool_decide as E; [lia|]. rewrite (bool_decide_eq_true_2 (place y ∉ spent_ w)) by naive_solver. rewrite orb_true_r. lia.
Qed.

Lemma increase_runs a n k h d : default 0 (get_address_balance a k d) + n <= U128_MAX -> ∃ d', increase_address_amount a n k h d = Ok d'.
Proof. intros H. unfold increase_address_amount, checked_add. assert ((_ <=? _) = true) as ->; [by apply N.leb_le|]. cbn. eauto. Qed.
Lemma increase_locked_runs a n k h d : default 0 (get_address_locked_balance a k d) + n <= U128_MAX -> ∃ d', increase_locked_address_amount a n k h d = Ok d'.
Proof. intros H. unfold increase_locked_address_amount, checked_add. assert ((_ <=? _) = true) as ->; [by apply N.leb_le|]. cbn. eauto. Qed.
Lemma decrease_runs a n k h d : n <= default 0 (get_address_balance a k d) -> ∃ d', decrease_address_amount a n k h d = Ok d'.
Proof. intros H. unfold decrease_address_amount, checked_sub. assert ((_ <=? _) = true) as ->; [by apply N.leb_le|]. cbn. eauto. Qed.
Lemma decrease_locked_runs a n k h d : n <= default 0 (get_address_locked_balance a k d) -> ∃ d', decrease_address_locked_amount a n k h d = Ok d'.
Proof. intros H. unfold decrease_address_locked_amount, checked_sub. assert ((_ <=? _) = true) as ->; [by apply N.leb_le|]. cbn. eauto. Qed.

Lemma value_self (k : currency) (a n : N) : (if bool_decide (k = k ∧ a = a) then n else 0) = n.
Proof. by rewrite bool_decide_eq_true_2. Qed.

Lemma scan_output_runs id h time m w d i out : let e := Made (Transaction id, N.of_nat i) out h time in
  inv w d -> wf h d -> place e ∉ map place (made_ w) ->
  (∀ a k, total (fun e => if is_reward e || bool_decide (place e ∉ spent_ w) then value a k (what e) else 0) (made_ w ++ [e]) <= U128_MAX) ->
  lock_fits e -> (∀ t a, out = IssueNft t a -> nft d !! t = None) ->
  ∃ d', scan_output id h time m d (i, out) = Ok d'.
Proof.
  intros e I W Hf HR HL HN.
  assert (Hs : place e ∉ spent_ w). { intros Hs. apply Hf. apply (i_dom _ _ I). auto. }
  pose proof (fun a k => N.le_trans _ _ _ (shown_room_new w a k e Hs) (HR a k)) as R1.
  pose proof (fun a k => N.le_trans _ _ _ (held_room_new w a k e Hs (i_spent _ _ I)) (HR a k)) as R2.
  unfold scan_output. cbn [fst snd]. destruct out as [[k n] a|[k n] a l|v sp rf|t a|pool dec|a pool|a pool|n del| |v| |]; try (cbn; by eauto).
  - specialize (R1 a k). cbn in R1. rewrite value_self in R1. destruct (increase_runs a n k h d) as [d1 ->]; [rewrite (i_bal _ _ I); done|]. cbn. eauto.
  - specialize (R1 a k). specialize (R2 a k). cbn in R1, R2. rewrite value_self in R1, R2. destruct (check_timelock l h time h m).
    + destruct (increase_runs a n k h d) as [d1 ->]; [rewrite (i_bal _ _ I); done|]. cbn. eauto.
    + destruct (increase_locked_runs a n k h d) as [d1 ->]; [rewrite (i_lock _ _ I); done|]. cbn [rbind].
      assert (∃ u, from_output_lock l time h = Ok u) as [u ->]; [|cbn; eauto].
      unfold lock_fits in HL. cbn in HL. destruct l; cbn; eauto; unfold checked_add; (assert ((_ <=? _) = true) as ->; [by apply N.leb_le|]); cbn; eauto.
  - specialize (R1 a (TokenId t)). cbn in R1. rewrite value_self in R1. unfold set_nft_token_issuance. rewrite (HN t a eq_refl). cbn [rbind].
    destruct (increase_runs a 1 (TokenId t) h (set_nft (<[t := [(h, Some a)]]> (nft d)) d)) as [d1 ->]; [|cbn; eauto].
    change (get_address_balance a (TokenId t) _) with (get_address_balance a (TokenId t) d). rewrite (i_bal _ _ I). done.
Qed.
Lemma scan_reward_runs id h time w d i out : let e := Made (BlockReward id, N.of_nat i) out h time in
  inv w d -> place e ∉ map place (made_ w) ->
  (∀ a k, total (fun e => if is_reward e || bool_decide (place e ∉ spent_ w) then value a k (what e) else 0) (made_ w ++ [e]) <= U128_MAX) ->
  ∃ d', scan_reward_output id h d (i, out) = Ok d'.
Proof.
  intros e I Hf HR.
  assert (Hs : place e ∉ spent_ w). { intros Hs. apply Hf. apply (i_dom _ _ I). auto. }
  pose proof (fun a k => N.le_trans _ _ _ (shown_room_new w a k e Hs) (HR a k)) as R1.
  unfold scan_reward_output. cbn [fst snd]. destruct out as [[k n] a|[k n] a l|v sp rf|t a|pool dec|a pool|a pool|n del| |v| |]; try (cbn; by eauto).
  - specialize (R1 a k). cbn in R1. rewrite value_self in R1. destruct (increase_runs a n k h d) as [d1 ->]; [rewrite (i_bal _ _ I); done|]. cbn. eauto.
  - specialize (R1 a k). cbn in R1. rewrite value_self in R1. destruct (increase_runs a n k h d) as [d1 ->]; [rewrite (i_bal _ _ I); done|]. cbn. eauto.
Qed.
Lemma set_utxo_balance o out h s d a k : get_address_balance a k (set_utxo o out h s d) = get_address_balance a k d.
Proof. unfold set_utxo. by destruct (get_tx_output_destination out). Qed.
Lemma scan_input_runs h w d e : inv w d -> e ∈ made_ w -> place e ∈ open_ w -> place e ∉ spent_ w -> spendable (what e) = true ->
  ∃ d', scan_input h d (place e) = Ok d'.
Proof.
  intros I He Ho Hs Es. unfold scan_input. destruct (i_utxo2 _ _ I e He Ho Es) as [u Eu]. rewrite Eu. cbn [expect rbind].
  destruct (i_utxo _ _ I _ _ Eu) as (x & Hx & Hp & E1 & _). rewrite (place_inj _ _ _ (i_nodup _ _ I) Hx He Hp) in E1. rewrite E1.
  assert (B : ∀ a k, value a k (what e) <= default 0 (get_address_balance a k (set_utxo (place e) (what e) h true d))).
  { intros a k. rewrite set_utxo_balance, (i_bal _ _ I). etrans; [|by eapply (total_elem _ _ e)]. unfold shown, counted. rewrite !bool_decide_eq_true_2 by done.
    rewrite orb_true_r. done. }
  destruct (place e).1; [|eauto]. destruct (what e) as [[k n] a|[k n] a l|v sp rf|t a|pool dec|a pool|a pool|n del| |v| |]; eauto.
  - apply decrease_runs. specialize (B a k). cbn in B. by rewrite value_self in B.
  - apply decrease_runs. specialize (B a k). cbn in B. by rewrite value_self in B.
  - apply decrease_runs. specialize (B a (TokenId t)). cbn in B. by rewrite value_self in B.
Qed.
Lemma scan_kernel_runs h w d e : inv w d -> e ∈ made_ w -> place e ∈ open_ w -> spendable (what e) = true -> ∃ d', scan_kernel_input h d (place e) = Ok d'.
Proof. intros I He Ho Es. unfold scan_kernel_input. destruct (i_utxo2 _ _ I e He Ho Es) as [u ->]. cbn. eauto. Qed.
Lemma unlock_runs h w d e : inv w d -> e ∈ made_ w -> place e ∈ kept w -> place e ∉ open_ w -> (∀ a k, room w a k <= U128_MAX) ->
  ∃ d', unlock h d (place e, what e) = Ok d'.
Proof.
  intros I He Hk Ho HR. unfold unlock. cbn [fst snd]. destruct (i_kind _ _ I e He Hk) as [[u Hu] _]. unfold end_of in Hu.
  destruct (what e) as [| [k n] a l| | | | | | | | | |] eqn:Ew; try done.
  assert (V : n = value a k (what e)). { rewrite Ew. cbn. by rewrite value_self. }
  destruct (increase_runs a n k h d) as [d1 E1].
  { rewrite (i_bal _ _ I). etrans; [|apply (HR a k)]. eapply shown_room; try done; apply I. }
  rewrite E1. cbn [rbind]. apply increase_ok in E1 as [_ ->].
  destruct (decrease_locked_runs a n k h (set_address_balance_at_height a (default 0 (get_address_balance a k d) + n) k h d)) as [d2 ->]; [|cbn; eauto].
  rewrite locked_balance_set, (i_lock _ _ I). etrans; [|by eapply (total_elem _ _ e)]. unfold held. rewrite bool_decide_eq_false_2 by done. by rewrite <- V.
Qed.

(** * Folds *)
Definition known (w : ledger) (d : db) : Prop := ∀ t, is_Some (nft d !! t) -> ∃ e a, e ∈ made_ w ∧ what e = IssueNft t a.
Lemma known_phase h m w d l s w' d' : phase h m w d l s w' d' -> known w d -> known w' d'.
Proof.
  intros P K t Ht. destruct (p_nft _ _ _ _ _ _ _ _ P t Ht) as [Ht'|]; [|done]. destruct (K t Ht') as (e & a & He & Hw). exists e, a. split; [|done].
  rewrite (p_made _ _ _ _ _ _ _ _ P). apply elem_of_app. by left.
Qed.
Lemma turnover_le l l' s s' a k : (∀ o, o ∈ s' -> o ∈ s) -> turnover l s a k <= turnover (l ++ l') s' a k.
Proof.
  intros Hs. unfold turnover. rewrite total_app. assert (total (λ e, if is_reward e || bool_decide (place e ∉ s) then value a k (what e) else 0) l
    <= total (λ e, if is_reward e || bool_decide (place e ∉ s') then value a k (what e) else 0) l); [|lia].
  apply total_le. intros e _. destruct (is_reward e); cbn; [lia|]. destruct (bool_decide (place e ∉ s)) eqn:E; [|lia]. apply bool_decide_eq_true in E.
  rewrite bool_decide_eq_true_2; [lia|]. intros Q. by apply E, Hs.
Qed.
Lemma fits_one w l s a k : made_ w = l -> (∀ o, o ∈ s ↔ o ∈ spent_ w) ->
  total (fun e => if is_reward e || bool_decide (place e ∉ spent_ w) then value a k (what e) else 0) l = turnover l s a k.
Proof. intros <- Hs. apply total_ext. intros e He. replace (bool_decide (place e ∉ s)) with (bool_decide (place e ∉ spent_ w)); [done|]. apply bool_decide_ext. by rewrite Hs. Qed.
Lemma fresh_nft (l : list made) e t a l2 d w : NoDup (omap nft_of (l ++ e :: l2)) -> known w d -> made_ w = l -> what e = IssueNft t a -> nft d !! t = None.
Proof.
  intros ND K <- Hw. destruct (nft d !! t) eqn:E; [|done]. destruct (K t) as (x & a' & Hx & Hxw); [eauto|]. rewrite omap_app in ND. apply NoDup_app in ND as (_ & ND & _).
  exfalso. apply (ND t).
  - apply elem_of_list_omap. exists x. split; [done|]. unfold nft_of. by rewrite Hxw.
  - apply elem_of_list_omap. exists e. split; [left|]. unfold nft_of. by rewrite Hw.
Qed.

Lemma turnover_ext l s s' a k : (∀ o, o ∈ s ↔ o ∈ s') -> turnover l s a k = turnover l s' a k.
Proof. intros Hs. apply total_ext. intros e _. replace (bool_decide (place e ∉ s')) with (bool_decide (place e ∉ s)); [done|]. apply bool_decide_ext. by rewrite Hs. Qed.
Lemma imap_snoc {A B} (f : nat -> A -> B) l x : imap f (l ++ [x]) = imap f l ++ [f (length l) x].
Proof. rewrite imap_app. cbn. by rewrite Nat.add_0_r. Qed.
Lemma outputs_runs id h time m w d outs : let mk := fun i out => Made (Transaction id, N.of_nat i) out h time in
  inv w d -> wf h d -> opened h m w -> known w d -> Forall proper_output outs ->
  NoDup (map place (made_ w ++ imap mk outs)) -> NoDup (omap nft_of (made_ w ++ imap mk outs)) -> (∀ e, e ∈ imap mk outs -> lock_fits e) ->
  (∀ a k, turnover (made_ w ++ imap mk outs) (elements (spent_ w)) a k <= U128_MAX) ->
  ∃ d', rfold (scan_output id h time m) (imap pair outs) d = Ok d'.
Proof.
  cbv zeta. intros I W O K. induction outs as [|out outs IH] using rev_ind; intros FP ND NT LF TO; [cbn; eauto|].
  rewrite !imap_snoc in ND, NT, LF. setoid_rewrite imap_snoc in TO. rewrite imap_snoc, rfold_app.
  apply Forall_app in FP as [FP _]. rewrite app_assoc in ND, NT. pose proof (NoDup_place_fresh _ _ _ ND) as Hf.
  destruct IH as [d1 E1]; try done.
  { rewrite map_app in ND. by apply NoDup_app in ND as (ND & _). }
  { rewrite omap_app in NT. by apply NoDup_app in NT as (NT & _). }
  { intros e He. apply LF. apply elem_of_app. by left. }
  { intros a k. etrans; [|apply (TO a k)]. rewrite app_assoc. by apply turnover_le. }
  rewrite E1. cbn [rbind rfold].
  assert (ND' : NoDup (map place (made_ w ++ imap (λ i out, Made (Transaction id, N.of_nat i) out h time) outs))).
  { rewrite map_app in ND. by apply NoDup_app in ND as (ND & _). }
  destruct (outputs_phase id h time m w d outs d1 I W O FP ND' E1) as [w1 P1]. pose proof (p_made _ _ _ _ _ _ _ _ P1) as M1.
  destruct (scan_output_runs id h time m w1 d1 (length outs) out) as [d2 E2].
  - apply P1.
  - apply P1.
  - rewrite M1. exact Hf.
  - intros a k. etrans; [|apply (TO a k)]. rewrite M1, app_assoc. apply N.eq_le_incl. unfold turnover. apply total_ext. intros e _.
    replace (bool_decide (place e ∉ elements (spent_ w))) with (bool_decide (place e ∉ spent_ w1)); [done|]. apply bool_decide_ext.
    rewrite (p_spent _ _ _ _ _ _ _ _ P1), elem_of_elements. cbn. set_solver.
  - apply LF. apply elem_of_app. right. cbn. left.
  - intros t a Eo. eapply (fresh_nft _ _ t a []); [exact NT|exact (known_phase _ _ _ _ _ _ _ _ P1 K)|exact M1|exact Eo].
  - rewrite E2. eauto.
Qed.
Lemma reward_runs id h time m w d outs : let mk := fun i out => Made (BlockReward id, N.of_nat i) out h time in
  inv w d -> wf h d -> opened h m w -> Forall proper_reward outs ->
  NoDup (map place (made_ w ++ imap mk outs)) ->
  (∀ a k, turnover (made_ w ++ imap mk outs) (elements (spent_ w)) a k <= U128_MAX) ->
  ∃ d', update_tables_from_block_reward id h outs d = Ok d'.
Proof.
  cbv zeta. intros I W O. unfold update_tables_from_block_reward. induction outs as [|out outs IH] using rev_ind; intros FP ND TO; [cbn; eauto|].
  rewrite !imap_snoc in ND. setoid_rewrite imap_snoc in TO. rewrite imap_snoc, rfold_app.
  apply Forall_app in FP as [FP _]. rewrite app_assoc in ND. pose proof (NoDup_place_fresh _ _ _ ND) as Hf.
  destruct IH as [d1 E1]; try done.
  { rewrite map_app in ND. by apply NoDup_app in ND as (ND & _). }
  { intros a k. etrans; [|apply (TO a k)]. rewrite app_assoc. by apply turnover_le. }
  rewrite E1. cbn [rbind rfold].
  assert (ND' : NoDup (map place (made_ w ++ made_by_reward id h time outs))).
  { rewrite map_app in ND. by apply NoDup_app in ND as (ND & _). }
  destruct (reward_phase id h time m w d outs d1 I W O FP ND' E1) as [w1 P1]. pose proof (p_made _ _ _ _ _ _ _ _ P1) as M1.
  destruct (scan_reward_runs id h time w1 d1 (length outs) out) as [d2 E2].
  - apply P1.
  - rewrite M1. exact Hf.
  - intros a k. etrans; [|apply (TO a k)]. rewrite M1, app_assoc. apply N.eq_le_incl. unfold turnover. apply total_ext. intros e _.
    replace (bool_decide (place e ∉ elements (spent_ w))) with (bool_decide (place e ∉ spent_ w1)); [done|]. apply bool_decide_ext.
    rewrite (p_spent _ _ _ _ _ _ _ _ P1), elem_of_elements. cbn. set_solver.
  - rewrite E2. eauto.
Qed.
Lemma inputs_run h m w d sp : inv w d -> wf h d -> opened h m w -> NoDup sp ->
  (∀ o, o ∈ sp -> ∃ e, e ∈ made_ w ∧ place e = o ∧ place e ∈ open_ w ∧ place e ∉ spent_ w ∧ spendable (what e) = true) ->
  ∃ d', rfold (scan_input h) sp d = Ok d'.
Proof.
  intros I W O. induction sp as [|o sp IH] using rev_ind; intros ND HS; [cbn; eauto|].
  apply NoDup_app in ND as (ND & Hd & _). destruct IH as [d1 E1]; [done| |]. { intros x Hx. apply HS, elem_of_app. by left. }
  rewrite rfold_app, E1. cbn [rbind rfold].
  destruct (inputs_phase h m w d sp d1 I W O ND) as (w1 & P1 & Ho1); [|done|]. { intros x Hx. apply HS, elem_of_app. by left. }
  destruct (HS o) as (e & He & Hp & Ho & Hs & Es); [apply elem_of_app; right; left|].
  destruct (scan_input_runs h w1 d1 e) as [d2 E2]; try done.
  - apply P1.
  - rewrite (p_made _ _ _ _ _ _ _ _ P1), app_nil_r. done.
  - by rewrite Ho1.
  - rewrite (p_spent _ _ _ _ _ _ _ _ P1). apply not_elem_of_union. split; [done|]. rewrite elem_of_list_to_set. rewrite Hp. intros Q. apply (Hd _ Q). left.
  - rewrite Hp in E2. rewrite E2. eauto.
Qed.
Lemma kernel_runs h m w d sp : inv w d -> wf h d -> opened h m w -> NoDup sp ->
  (∀ o, o ∈ sp -> may_stake (made_ w) (elements (spent_ w)) o) -> ∃ d', rfold (scan_kernel_input h) sp d = Ok d'.
Proof.
  intros I W O. induction sp as [|o sp IH] using rev_ind; intros ND HS; [cbn; eauto|].
  apply NoDup_app in ND as (ND & Hd & _). destruct IH as [d1 E1]; [done| |]. { intros x Hx. apply HS, elem_of_app. by left. }
  rewrite rfold_app, E1. cbn [rbind rfold].
  destruct (kernel_phase h m w d sp d1 I W O ND) as (w1 & P1); [|done|]. { intros x Hx. apply HS, elem_of_app. by left. }
  destruct (HS o) as (e & He & Hp & Hs & Hk); [apply elem_of_app; right; left|].
  assert (He1 : e ∈ made_ w1). { rewrite (p_made _ _ _ _ _ _ _ _ P1), app_nil_r. done. }
  destruct (scan_kernel_runs h w1 d1 e) as [d2 E2]; try done.
  - apply P1.
  - apply (p_opened _ _ _ _ _ _ _ _ P1 e He1). unfold is_open. destruct (what e); try done; apply orb_true_r.
  - by destruct (what e).
  - rewrite Hp in E2. rewrite E2. eauto.
Qed.
Lemma fetch_runs w d sp : inv w d ->
  (∀ o, o ∈ sp -> ∃ e, e ∈ made_ w ∧ place e = o ∧ place e ∈ open_ w ∧ place e ∉ spent_ w ∧ spendable (what e) = true) -> fetch_utxos sp d = Ok tt.
Proof.
  intros I HS. unfold fetch_utxos. assert (forallb (λ o, bool_decide (is_Some (get_utxo o d))) sp = true) as ->; [|done].
  apply forallb_forall. intros o Ho. apply elem_of_list_In in Ho. destruct (HS o Ho) as (e & He & <- & ? & ? & ?). apply bool_decide_eq_true. by apply (i_utxo2 _ _ I).
Qed.
Lemma tx_runs h time m m' w d x : inv w d -> wf h d -> opened h m w -> known w d -> m' <= m -> NoDup (spends x) -> Forall proper_output (outs x) ->
  (∀ o, o ∈ spends x -> may_spend (made_ w) (elements (spent_ w)) h m' o) -> NoDup (map place (made_ w ++ made_by_tx h time x)) ->
  NoDup (omap nft_of (made_ w ++ made_by_tx h time x)) -> (∀ e, e ∈ made_by_tx h time x -> lock_fits e) ->
  (∀ a k, turnover (made_ w ++ made_by_tx h time x) (elements (spent_ w) ++ spends x) a k <= U128_MAX) ->
  ∃ d', scan_tx h time m d x = Ok d'.
Proof.
  intros I W O K Hm ND FP HS NDm NT LF TO.
  assert (HS' : ∀ o, o ∈ spends x -> ∃ e, e ∈ made_ w ∧ place e = o ∧ place e ∈ open_ w ∧ place e ∉ spent_ w ∧ spendable (what e) = true).
  { intros o Ho. eapply (may_spend_open h m h m'); try done. by apply HS. }
  unfold scan_tx. rewrite (fetch_runs w d _ I HS'). cbn [rbind].
  destruct (inputs_run h m w d (spends x) I W O ND HS') as [d1 E1]. rewrite E1. cbn [rbind].
  destruct (inputs_phase h m w d (spends x) d1 I W O ND HS' E1) as (w1 & P1 & _).
  assert (M1 : made_ w1 = made_ w). { by rewrite (p_made _ _ _ _ _ _ _ _ P1), app_nil_r. }
  apply (outputs_runs (tx_id x) h time m w1 d1 (outs x)); try apply P1; try done.
  - exact (known_phase _ _ _ _ _ _ _ _ P1 K).
  - by rewrite M1.
  - by rewrite M1.
  - intros a k. rewrite M1. etrans; [|apply (TO a k)]. apply N.eq_le_incl, turnover_ext. intros o.
    rewrite elem_of_elements, (p_spent _ _ _ _ _ _ _ _ P1), elem_of_union, elem_of_app, elem_of_elements, elem_of_list_to_set. done.
Qed.
Lemma txs_run h time m m' w d l : inv w d -> wf h d -> opened h m w -> known w d -> m' <= m ->
  (∀ x, x ∈ l -> Forall proper_output (outs x)) ->
  (∀ l1 x l2, l = l1 ++ x :: l2 -> NoDup (spends x) ∧
     ∀ o, o ∈ spends x -> may_spend (made_ w ++ made_by_txs h time l1) (elements (spent_ w) ++ spent_by_txs l1) h m' o) ->
  NoDup (map place (made_ w ++ made_by_txs h time l)) -> NoDup (omap nft_of (made_ w ++ made_by_txs h time l)) -> (∀ e, e ∈ made_by_txs h time l -> lock_fits e) ->
  (∀ l1 l2 a k, l = l1 ++ l2 -> turnover (made_ w ++ made_by_txs h time l1) (elements (spent_ w) ++ spent_by_txs l1) a k <= U128_MAX) ->
  ∃ d', rfold (scan_tx h time m) l d = Ok d'.
Proof.
  intros I W O K Hm. induction l as [|x l IH] using rev_ind; intros FP HS ND NT LF TO; [cbn; eauto|].
  assert (Em : made_by_txs h time (l ++ [x]) = made_by_txs h time l ++ made_by_tx h time x).
  { unfold made_by_txs. rewrite (map_app (made_by_tx h time)), concat_app. cbn. by rewrite app_nil_r. }
  assert (Es : spent_by_txs (l ++ [x]) = spent_by_txs l ++ spends x). { unfold spent_by_txs. rewrite (map_app spends), concat_app. cbn. by rewrite app_nil_r. }
  rewrite Em, app_assoc in ND, NT. rewrite Em in LF.
  assert (ND' : NoDup (map place (made_ w ++ made_by_txs h time l))). { rewrite (map_app place) in ND. by apply NoDup_app in ND as (? & _). }
  assert (FP' : ∀ y, y ∈ l -> Forall proper_output (outs y)). { intros y Hy. apply FP, elem_of_app. by left. }
  assert (HS' : ∀ l1 y l2, l = l1 ++ y :: l2 -> NoDup (spends y) ∧ ∀ o, o ∈ spends y -> may_spend (made_ w ++ made_by_txs h time l1) (elements (spent_ w) ++ spent_by_txs l1) h m' o).
  { intros l1 y l2 El. apply (HS l1 y (l2 ++ [x])). rewrite El. by rewrite <- app_assoc. }
  destruct IH as [d1 E1]; try done.
  { rewrite omap_app in NT. by apply NoDup_app in NT as (? & _). }
  { intros e He. apply LF, elem_of_app. by left. }
  { intros l1 l2 a k El. apply (TO l1 (l2 ++ [x])). rewrite El. by rewrite <- app_assoc. }
  rewrite rfold_app, E1. cbn [rbind rfold].
  destruct (txs_phase h time m m' w d l d1 I W O Hm FP' HS' ND' E1) as [w1 P1]. pose proof (p_made _ _ _ _ _ _ _ _ P1) as M1.
  destruct (HS l x []) as [N1 N2]; [done|].
  destruct (tx_runs h time m m' w1 d1 x) as [d2 E2]; try done; try apply P1.
  - exact (known_phase _ _ _ _ _ _ _ _ P1 K).
  - apply FP, elem_of_app. right. left.
  - intros o Ho. rewrite M1. eapply may_spend_ext; [|by apply N2].
    intros y Hy. rewrite elem_of_elements, (p_spent _ _ _ _ _ _ _ _ P1), elem_of_union in Hy. rewrite elem_of_app, elem_of_elements. by rewrite elem_of_list_to_set in Hy.
  - by rewrite M1.
  - by rewrite M1.
  - intros e He. apply LF, elem_of_app. by right.
  - intros a k. rewrite M1. etrans; [|apply (TO (l ++ [x]) [] a k); by rewrite app_nil_r]. rewrite Em, Es, app_assoc. apply N.eq_le_incl, turnover_ext.
    intros o. rewrite !elem_of_app, !elem_of_elements, (p_spent _ _ _ _ _ _ _ _ P1), elem_of_union, elem_of_list_to_set. tauto.
  - rewrite E2. eauto.
Qed.
Lemma unlock_all_runs h prev new w d : inv w d -> wf (h + 1) d -> opened h prev w -> prev <= new -> (∀ a k, room w a k <= U128_MAX) ->
  ∃ d', update_locked_amounts_for_current_block (h + 1) prev new d = Ok d'.
Proof.
  intros I W O Hle HR. unfold update_locked_amounts_for_current_block.
  assert (HS : ∀ x, x ∈ get_locked_utxos_until_now (h + 1) prev new d -> ∃ e, e ∈ made_ w ∧ place e = x.1 ∧ what e = x.2 ∧ x.1 ∈ kept w ∧ x.1 ∉ open_ w).
  { intros [o out] Hx. apply until_now_spec in Hx as (u & E & Op). apply (i_lu _ _ I) in E as (e & He & Hp & Hk & Hw & Hu). cbn in Hw, Hu.
    exists e. cbn. split_and!; try done. subst o. rewrite (O e He). destruct (i_kind _ _ I e He Hk) as [_ ->].
    apply (opens_iff h prev new e u Hu Hle) in Op as [-> _]. done. }
  pose proof (until_now_nodup (h + 1) prev new d) as ND. revert HS ND. generalize (get_locked_utxos_until_now (h + 1) prev new d). intros xs.
  clear O Hle. revert w d I W HR. induction xs as [|[o out] xs IH]; intros w d I W HR HS ND; [cbn; eauto|].
  cbn in ND. apply NoDup_cons in ND as [Hn ND]. destruct (HS (o, out) (elem_of_list_here _ _)) as (e & He & Hp & Hw & Hk & Ho). cbn in Hp, Hw, Hk, Ho. subst o out.
  destruct (unlock_runs (h + 1) w d e I He Hk Ho HR) as [d1 F]. cbn [rfold]. rewrite F. cbn [rbind].
  destruct (unlock_step (h + 1) w d e d1 I W He Hk Ho F) as [S1 S2 S3 S4 S5].
  apply (IH (with_unlocked (place e) w) d1 S1 S2); [done| |done].
  intros x Hx. destruct (HS x) as (y & Hy & Hyp & Hyw & Hyk & Hyo); [by right|]. exists y. cbn. split_and!; try done.
  apply not_elem_of_union. split; [|done]. apply not_elem_of_singleton. intros Q. apply Hn. rewrite <- Q. by apply elem_of_list_fmap_1.
Qed.

(** * Blocks and chains *)
Lemma known_main w d x : known w d -> known w (set_main x d).
Proof. done. Qed.
Lemma turnover_kernel l s s' a k : (∀ e, e ∈ l -> place e ∈ s' -> value a k (what e) = 0) -> turnover l s a k <= turnover l (s ++ s') a k.
Proof.
  intros HZ. apply total_le. intros e He. destruct (is_reward e); cbn; [lia|]. destruct (bool_decide (place e ∉ s)) eqn:E; [|lia].
  destruct (bool_decide (place e ∉ s ++ s')) eqn:E'; [lia|]. apply bool_decide_eq_true in E. apply bool_decide_eq_false in E'.
  rewrite (HZ e He); [lia|]. rewrite elem_of_app in E'. destruct (decide (place e ∈ s')); [done|]. exfalso. apply E'. tauto.
Qed.
Lemma connect_runs g c w d b : chain_inv g c w d -> known w d -> valid_block g c b -> NoDup (map place (made_on g (c ++ [b]))) ->
  tokens_unique g (c ++ [b]) -> locks_fit g (c ++ [b]) ->
  (∀ a k, turnover (made_on g c) (spent_on c) a k <= U128_MAX) -> (∀ a k, turnover (made_on g (c ++ [b])) (spent_on (c ++ [b])) a k <= U128_MAX) ->
  (∀ l l' a k, txs b = l ++ l' -> turnover (made_on g c ++ made_by_txs (height c + 1) (timestamp b) l) (spent_on c ++ spent_by_txs l) a k <= U128_MAX) ->
  ∃ d', connect_block g d (height c + 1) b = Ok d' ∧ ∃ w', chain_inv g (c ++ [b]) w' d' ∧ known w' d'.
Proof.
  intros (I & W & O & M & Sp & Mn) K V ND NT LF T0 T2 T1. unfold connect_block. rewrite (medians g c b d Mn). cbn [rbind].
  pose proof (median_grows g c b (valid_time _ _ _ V)) as Hm.
  unfold tokens_unique in NT. rewrite made_on_snoc in ND, NT. unfold made_by_block in ND, NT. rewrite app_assoc in ND, NT.
  assert (W' : wf (height c + 1) d) by (eapply wf_mono; [|exact W]; lia).
  destruct (unlock_all_runs (height c) (median_at g c) (median_at g (c ++ [b])) w d I W' O Hm) as [d1 H1].
  { intros a k. rewrite (room_turnover w (made_on g c) (spent_on c)); [done|done|]. intros o. by rewrite Sp, elem_of_list_to_set. }
  rewrite H1. cbn [rbind].
  destruct (unlock_phase (height c) _ _ w d d1 I W' O Hm H1) as (w1 & P1).
  assert (M1 : made_ w1 = made_on g c) by (rewrite (p_made _ _ _ _ _ _ _ _ P1), M; by rewrite app_nil_r).
  assert (S1 : ∀ x, x ∈ spent_ w1 ↔ x ∈ spent_on c).
  { intros x. rewrite (p_spent _ _ _ _ _ _ _ _ P1), Sp. cbn. rewrite elem_of_union, elem_of_list_to_set. set_solver. }
  assert (HSp : ∀ l1 x l2, txs b = l1 ++ x :: l2 -> NoDup (spends x) ∧
     ∀ o, o ∈ spends x -> may_spend (made_ w1 ++ made_by_txs (height c + 1) (timestamp b) l1) (elements (spent_ w1) ++ spent_by_txs l1) (height c + 1) (median_at g c) o).
  { intros l1 x l2 E. destruct (valid_spends _ _ _ V l1 x l2 E) as [N1 N2]. split; [done|]. intros o Ho. rewrite M1.
    eapply may_spend_ext; [|by apply N2]. intros y. rewrite !elem_of_app, elem_of_elements, S1. done. }
  assert (ND1 : NoDup (map place (made_ w1 ++ made_by_txs (height c + 1) (timestamp b) (txs b)))).
  { rewrite M1. rewrite (map_app place) in ND. by apply NoDup_app in ND as (? & _). }
  destruct (txs_run (height c + 1) (timestamp b) (median_at g (c ++ [b])) (median_at g c) w1 d1 (txs b)) as [d2 H2]; try apply P1; try done.
  { exact (known_phase _ _ _ _ _ _ _ _ P1 K). }
  { apply V. }
  { rewrite M1. rewrite omap_app in NT. by apply NoDup_app in NT as (? & _). }
  { intros e He. apply LF.
    - rewrite made_on_snoc. unfold made_by_block. rewrite !elem_of_app. tauto.
    - unfold made_by_txs in He. apply elem_of_list_In, in_concat in He as (l & Hl & He). apply in_map_iff in Hl as (x & <- & _).
      apply elem_of_list_In, elem_of_lookup_imap in He as (i & out & -> & _). done. }
  { intros l1 l2 a k E. rewrite M1. etrans; [|apply (T1 l1 l2 a k E)]. apply N.eq_le_incl, turnover_ext. intros o. by rewrite !elem_of_app, elem_of_elements, S1. }
  rewrite H2. cbn [rbind].
  destruct (txs_phase (height c + 1) (timestamp b) (median_at g (c ++ [b])) (median_at g c) w1 d1 (txs b) d2) as (w2 & P2); try apply P1; try done.
  { apply V. }
  pose proof (phase_app _ _ _ _ _ _ _ _ _ _ _ _ P1 P2) as P12. cbn [app] in P12.
  set (d3 := set_mainchain_block (block_id b) (timestamp b) (height c + 1) d2) in *.
  assert (I3 : inv w2 d3) by (apply inv_main, P2).
  assert (W3 : wf (height c + 1) d3).
  { destruct (p_wf _ _ _ _ _ _ _ _ P2) as [A1 A2 A3 A4 A5 A6]. split; try done. unfold d3, set_mainchain_block. cbn. by apply put_upto. }
  assert (M2 : made_ w2 = made_on g c ++ made_by_txs (height c + 1) (timestamp b) (txs b)) by (by rewrite (p_made _ _ _ _ _ _ _ _ P2), M1).
  destruct (valid_kernel _ _ _ V) as [K1 K2].
  destruct (reward_runs (block_id b) (height c + 1) (timestamp b) (median_at g (c ++ [b])) w2 d3 (reward b)) as [d4 H4]; try done.
  { apply P2. } { apply V. } { by rewrite M2. }
  { intros a k. etrans; [|apply (T2 a k)]. rewrite M2, made_on_snoc. unfold made_by_block. rewrite app_assoc, spent_on_snoc, app_assoc.
    etrans; [|apply turnover_kernel].
    - apply N.eq_le_incl, turnover_ext. intros o. rewrite elem_of_elements, (p_spent _ _ _ _ _ _ _ _ P2), elem_of_union, elem_of_list_to_set, S1, elem_of_app. done.
    - intros e He Hk. destruct (K2 _ Hk) as (x & Hx & Hp & _ & Hxk). assert (x = e) as ->; [|by destruct (what e)].
      eapply place_inj; [exact ND| |exact He|done]. apply elem_of_app. by left. }
  rewrite H4. cbn [rbind].
  destruct (reward_phase (block_id b) (height c + 1) (timestamp b) (median_at g (c ++ [b])) w2 d3 (reward b) d4) as (w4 & P4); try done; [apply P2|apply V|by rewrite M2|].
  assert (M4 : made_ w4 = made_on g (c ++ [b])).
  { rewrite (p_made _ _ _ _ _ _ _ _ P4), M2, made_on_snoc. unfold made_by_block. by rewrite app_assoc. }
  assert (S4 : ∀ x, x ∈ spent_ w4 ↔ x ∈ spent_on c ++ spent_by_txs (txs b)).
  { intros x. rewrite (p_spent _ _ _ _ _ _ _ _ P4), (p_spent _ _ _ _ _ _ _ _ P2). cbn. rewrite elem_of_union, elem_of_union, elem_of_list_to_set, S1, elem_of_app. set_solver. }
  assert (HK : ∀ o, o ∈ kernel b -> may_stake (made_ w4) (elements (spent_ w4)) o).
  { intros o Ho. destruct (K2 o Ho) as (e & He & Hp & Hn & Hk). exists e. split_and!; try done.
    - rewrite M4, made_on_snoc. unfold made_by_block. rewrite app_assoc. apply elem_of_app. by left.
    - rewrite elem_of_elements, S4. done. }
  destruct (kernel_runs (height c + 1) (median_at g (c ++ [b])) w4 d4 (kernel b)) as [d5 H5]; try apply P4; try done.
  destruct (kernel_phase (height c + 1) (median_at g (c ++ [b])) w4 d4 (kernel b) d5) as (w5 & P5); try apply P4; try done.
  exists d5. split; [done|]. exists w5. split.
  - unfold chain_inv. rewrite height_snoc. split_and!; try apply P5.
    + rewrite (p_made _ _ _ _ _ _ _ _ P5), M4. by rewrite app_nil_r.
    + apply set_eq. intros x. rewrite (p_spent _ _ _ _ _ _ _ _ P5), elem_of_union, S4, elem_of_list_to_set, elem_of_list_to_set, spent_on_snoc.
      rewrite !elem_of_app. tauto.
    + rewrite (p_main _ _ _ _ _ _ _ _ P5), (p_main _ _ _ _ _ _ _ _ P4). unfold d3, set_mainchain_block. cbn. rewrite (p_main _ _ _ _ _ _ _ _ P12), Mn, main_of_snoc.
      pose proof (w_main _ _ W) as F. rewrite Mn in F. destruct (main_of c) as [|[h' x] l]; [done|]. apply Forall_inv in F. cbn in F |- *.
      assert ((h' <? height c + 1) = true) as ->; [lia|done].
  - eapply known_phase; [exact P5|]. eapply known_phase; [exact P4|]. apply known_main. exact (known_phase _ _ _ _ _ _ _ _ P12 K).
Qed.
Lemma genesis_runs g : NoDup (map place (made_on g [])) -> Forall proper_reward (genesis_outs g) -> (∀ a k, turnover (made_on g []) [] a k <= U128_MAX) ->
  ∃ d w, scan_genesis g = Ok d ∧ chain_inv g [] w d ∧ known w d.
Proof.
  intros ND FP T. assert (E : made_on g [] = made_by_reward (genesis_id g) 0 (genesis_time g) (genesis_outs g)). { unfold made_on. cbn. by rewrite app_nil_r. }
  rewrite E in ND. setoid_rewrite E in T.
  destruct (reward_runs (genesis_id g) 0 (genesis_time g) (median_at g []) no_ledger empty_db (genesis_outs g)) as [d H]; try done.
  - apply inv_empty.
  - apply wf_empty.
  - intros e He. by apply elem_of_nil in He.
  - exists d. destruct (reward_phase (genesis_id g) 0 (genesis_time g) (median_at g []) no_ledger empty_db (genesis_outs g) d) as (w & P); try done.
    + apply inv_empty.
    + apply wf_empty.
    + intros e He. by apply elem_of_nil in He.
    + exists w. split_and!; [done| |].
      * unfold chain_inv. split_and!; try apply P.
        -- rewrite (p_made _ _ _ _ _ _ _ _ P). by rewrite E.
        -- rewrite (p_spent _ _ _ _ _ _ _ _ P). cbn. set_solver.
      * eapply known_phase; [exact P|]. intros t [? Ht]. cbn in Ht. by rewrite lookup_empty in Ht.
Qed.
Lemma scan_chain_runs g c : valid_chain g c -> amounts_fit g c -> locks_fit g c -> tokens_unique g c ->
  ∃ d w, scan_chain g c = Ok d ∧ chain_inv g c w d ∧ known w d.
Proof.
  induction c as [|b c IH] using rev_ind; intros V [A1 A2] LF NT.
  - destruct (genesis_runs g) as (d & w & E & CI & K).
    + apply V. + apply V. + intros a k. apply (A1 [] []). done.
    + exists d, w. split_and!; try done. unfold scan_chain. rewrite E. cbn [rbind]. unfold scan_blocks. cbn. f_equal. exact (disconnect_id g [] w d CI).
  - destruct (valid_chain_snoc _ _ _ V) as (V1 & V2 & V3). destruct IH as (d & w & E & CI & K); try done.
    + split; [intros c1 c2 a k Ec|intros c1 x c2 l l' a k Ec El].
      * apply (A1 c1 (c2 ++ [b])). by rewrite Ec, <- app_assoc.
      * eapply (A2 c1 x (c2 ++ [b])); [|exact El]. by rewrite Ec, <- app_assoc.
    + intros e He. apply LF. rewrite made_on_snoc. apply elem_of_app. by left.
    + unfold tokens_unique in *. rewrite made_on_snoc, omap_app in NT. by apply NoDup_app in NT as (? & _).
    + destruct (connect_runs g c w d b) as (d' & E' & w' & CI' & K'); try done.
      * intros a k. by apply (A1 c [b]).
      * intros a k. apply (A1 (c ++ [b]) []). by rewrite app_nil_r.
      * intros l l' a k El. by eapply (A2 c b []).
      * exists d', w'. split_and!; try done. rewrite (scan_chain_from g c [b] V1), E. cbn [rbind]. unfold scan_from. cbn. rewrite N.add_0_r, E'. done.
Qed.
