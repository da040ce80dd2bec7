(** Proofs about the completion of requests: the loop over the tokens, and the whole. *)
From Coq Require Import ZArith NArith.
From Verif Require Import Base AmountModel OrdersModel PrimModel ChainModel ConstraintsModel CoinSelectModel SendModel.
From Verif Require Import OrdersSpec ConstraintsSpec ConstraintsProofs CoinSelectSpec CoinSelectProofs SendSpec SendProofs.
From Verif Require CoinSelectProperties.
Local Open Scope N_scope.

Section Loop.
Context (cf : config) (isz : tx_input -> option tx_output -> option N) (osz : tx_output -> N) (empty : N).
Context (infos : N -> option order_info) (rate consolidate_rate : N) (change_to : currency -> N).
Context (orc : currency -> oracle (tx_input * tx_output)) (algo : selection_algo) (max_tx_size : N).

Lemma lift_ok {A} (m : res select_error A) x : lift_select m = Ok x -> m = Ok x.
Proof. apply rmap_err_ok. Qed.
Lemma add_change_ok (r r' : selection (tx_input * tx_output)) a : add_change r a = Ok r' ->
  s_outputs r' = s_outputs r /\ s_weight r' = s_weight r /\ s_fees r' = s_fees r /\ s_change r' = s_change r + a /\ s_change r' <= U128_MAX.
Proof.
  unfold add_change. intros H. apply rbind_ok in H as (c & Hc & [= <-]). apply ok_or_ok, CoinSelectProofs.amount_add_some in Hc as [-> ?].
  done.
Qed.
Lemma change_needed c a c' : value (of_currency c') (needed cf [change_output change_to c a]) = only c c' a.
Proof.
  unfold needed. cbn [map concat]. rewrite app_nil_r. unfold change_output. cbn [output_costs]. rewrite worth_value. by destruct c.
Qed.

Definition all_of (t : tokens_state) : list (tx_input * tx_output) := concat (map s_outputs (ts_selected t)).

Definition loop_inv (p : list (currency * (N * N))) (gs : list (currency * group (tx_input * tx_output))) (A : currency -> N)
  (outs : list tx_output) (done : list currency) (t : tokens_state) : Prop :=
  exists changes, ts_outputs t = outs ++ changes /\
    length changes = length (List.filter has_change (ts_selected t)) /\
    (forall c L, c ∈ done -> value (of_currency c) (unlocked cf L (map pick_input (all_of t))) + brought_at c p =
                             A c + value (of_currency c) (needed cf changes)) /\
    (forall c L, c ∉ done -> value (of_currency c) (unlocked cf L (map pick_input (all_of t))) = 0 /\
                             value (of_currency c) (needed cf changes) = 0) /\
    plain (map pick_input (all_of t)) /\
    inputs_size isz (map pick_input (all_of t)) <= ts_size t /\
    fee_for rate (ts_size t) <= ts_fees t /\
    all_of t ⊆+ outputs_in (from_keys done gs).

Lemma token_step_ok p gs A outs done t c a t' : fair_sources orc -> Forall (fun x => sound_group isz rate x.1 x.2) gs ->
  c <> Coin -> c ∉ done -> a = A c -> loop_inv p gs A outs done t ->
  token_step osz rate change_to orc algo max_tx_size p gs t (c, a) = Ok t' ->
  loop_inv p gs A outs (done ++ [c]) t'.
Proof.
  intros Hfair Hgs Hc Hn -> (changes & I1 & I2 & I3 & I4 & I5 & I6 & I7 & I8) H.
  unfold token_step in H. fold (brought_at c p) in H. apply rbind_ok in H as (coc & Hcoc & H). apply compute_fee_ok in Hcoc.
  apply rbind_ok in H as (r & Hr & H). apply lift_ok in Hr.
  assert (pays_fee c = DoNotPayFeeWithThisCurrency) as Hpf by (destruct c; done).
  pose proof (Hfair c) as Hf. rewrite Hpf in Hf.
  destruct (CoinSelectProperties.C68_selection_pays_and_accounts _ _ _ _ _ _ _ _ Hf Hr)
    as (chosen & Hsub & (M1 & M2 & M3) & (rest & B1 & B2) & _ & _ & _).
  cbn [fees_taken change_fee_taken] in *.
  assert (total g_value chosen = A c - brought_at c p + s_change r) as HV by lia. clear B1 B2 rest.
  apply rbind_ok in H as (fees & Hfees & H). apply add_amount_ok in Hfees as [-> _].
  apply rbind_ok in H as (r' & Hr' & H). apply lift_ok, add_change_ok in Hr' as (R1 & R2 & R3 & R4 & _).
  pose proof (groups_of_sound isz rate c gs Hgs) as Hgc.
  pose proof (submseteq_Forall _ _ _ Hsub Hgc) as Hch.
  destruct (chosen_sums cf isz rate c chosen Hch) as (S1 & S2 & S3 & S4).
  pose proof (from_keys_snoc done c gs Hn) as Hkeys.
  assert (forall sel', sel' = ts_selected t ++ [r'] ->
    concat (map s_outputs sel') = all_of t ++ concat (map g_outputs chosen)) as Hall.
  { intros sel' ->. unfold all_of. rewrite map_app, concat_app. cbn [map concat]. rewrite app_nil_r, R1, M1. done. }
  assert (exists changes' fees' size',
    t' = TokensState (ts_outputs t ++ changes') fees' size' (ts_selected t ++ [r']) /\
    length changes' = (if has_change r' then 1 else 0)%nat /\
    (forall c', value (of_currency c') (needed cf changes') = only c c' (s_change r')) /\
    ts_size t + s_weight r <= size' /\ fee_for rate size' <= fees') as (changes' & fees' & size' & -> & C1 & C2 & C3 & C4).
  { rewrite <- M2 in S4. rewrite <- M3 in S4. pose proof (fee_for_add rate (ts_size t) (s_weight r)) as Hfa.
    destruct (0 <? s_change r') eqn:Ech.
    - apply rbind_ok in H as (fees' & Hfees' & [= <-]). apply add_amount_ok in Hfees' as [-> _].
      eexists [_], _, _. split; [reflexivity|]. unfold has_change. rewrite Ech. split_and!; [done|intros c'; apply change_needed|lia|].
      pose proof (fee_for_add rate (ts_size t + s_weight r) (change_size osz change_to c)). lia.
    - injection H as <-. eexists [], _, _. rewrite app_nil_r. split; [reflexivity|]. unfold has_change. rewrite Ech.
      split_and!; [done| |lia|lia]. intros c'. unfold needed. cbn [map concat]. rewrite value_nil.
      replace (s_change r') with 0 by lia. by rewrite only_zero. }
  clear H. unfold loop_inv. cbn [ts_outputs ts_selected ts_size ts_fees]. unfold all_of. cbn [ts_selected].
  rewrite (Hall _ eq_refl). exists (changes ++ changes'). rewrite map_app.
  assert (forall c' L, value (of_currency c') (unlocked cf L (map pick_input (all_of t) ++ map pick_input (concat (map g_outputs chosen)))) =
    value (of_currency c') (unlocked cf L (map pick_input (all_of t))) + only c c' (total g_value chosen)) as Hval.
  { intros c' L. rewrite unlocked_app, value_app, plain_after by done. by rewrite S2. }
  split_and!.
  - by rewrite I1, app_assoc.
  - rewrite List.filter_app, !app_length, I2, C1. cbn [List.filter]. by destruct (has_change r').
  - intros c' L Hin. rewrite Hval, needed_app, value_app, C2. apply elem_of_app in Hin as [Hin|Hin%elem_of_list_singleton].
    + assert (c' <> c) by (intros ->; done). unfold only. destruct (decide (c' = c)); [done|].
      pose proof (I3 c' L Hin). lia.
    + subst c'. destruct (I4 c L Hn) as [-> ->]. unfold only. destruct (decide (c = c)); [|done]. lia.
  - intros c' L Hin. rewrite Hval, needed_app, value_app, C2. destruct (I4 c' L) as [-> ->]; [set_solver|].
    unfold only. destruct (decide (c' = c)); [set_solver|]. done.
  - apply Forall_app. split; [done|exact S1].
  - rewrite inputs_size_app, S3. lia.
  - exact C4.
  - rewrite Hkeys. apply submseteq_app; [done|]. by apply concat_submseteq.
Qed.
Lemma tokens_ok p gs A outs tokens : fair_sources orc -> Forall (fun x => sound_group isz rate x.1 x.2) gs ->
  forall done t t', NoDup (done ++ map fst tokens) -> Forall (fun x => x.1 <> Coin /\ x.2 = A x.1) tokens ->
  loop_inv p gs A outs done t ->
  rfold (token_step osz rate change_to orc algo max_tx_size p gs) tokens t = Ok t' ->
  loop_inv p gs A outs (done ++ map fst tokens) t'.
Proof.
  intros Hfair Hgs. induction tokens as [|[c a] tokens IH]; intros done t t' Hnd Hall Hinv H; cbn [rfold] in H.
  { injection H as <-. cbn [map]. by rewrite app_nil_r. }
  apply Forall_cons in Hall as [[Hc Ha] Hall]. cbn [fst snd] in *. apply rbind_ok in H as (t1 & H1 & H).
  cbn [map fst] in *. replace (done ++ c :: map fst tokens) with ((done ++ [c]) ++ map fst tokens) in * by (by rewrite <- app_assoc).
  eapply IH; [done|done| |exact H]. eapply token_step_ok; try done.
  apply NoDup_app in Hnd as (Hnd & _ & _). apply NoDup_app in Hnd as (_ & Hx & _). intros Hin. apply (Hx c Hin). set_solver.
Qed.

Lemma send_request_ok L ins outs utxos r :
  fair_sources orc -> informed cf L infos ins -> larger_is_not_shorter osz ->
  send_request cf isz osz empty infos rate consolidate_rate change_to orc algo max_tx_size ins outs utxos = Ok r ->
  exists picked changes, cp_inputs r = ins ++ picked /\ picked ⊆+ offered utxos /\ cp_outputs r = outs ++ changes /\
    plain picked /\
    (forall c, c <> Coin -> named cf L ins outs c ->
       value (of_currency c) (unlocked cf L (cp_inputs r)) =
       value (of_currency c) (charged cf L ins) + value (of_currency c) (needed cf (cp_outputs r))) /\
    (forall c, c <> Coin -> ~ named cf L ins outs c ->
       value (of_currency c) (unlocked cf L (cp_inputs r)) = value (of_currency c) (unlocked cf L ins) /\
       value (of_currency c) (needed cf (cp_outputs r)) = 0) /\
    (value (of_currency Coin) (unlocked cf L ins) <= value (of_currency Coin) (charged cf L ins) + value (of_currency Coin) (needed cf outs) ->
     exists paid,
       value (of_currency Coin) (unlocked cf L (cp_inputs r)) =
       value (of_currency Coin) (charged cf L ins) + value (of_currency Coin) (needed cf (cp_outputs r)) + paid /\
       cp_fee r <= paid /\ rate * transaction_size isz osz empty (cp_inputs r) (cp_outputs r) <= 1000 * paid /\
       (value (of_currency Coin) (needed cf changes) <> 0 -> paid = cp_fee r)).
Proof.
  intros Hfair Hinf Hlong H. unfold send_request in H.
  apply rbind_ok in H as (pre & Hpre & H). apply rbind_ok in H as (am0 & Ham0 & H). apply rbind_ok in H as (am & Ham & H).
  apply rbind_ok in H as (gs & Hgs & H). unfold utxo_groups in Hgs. apply rbind_ok in Hgs as (gs0 & Hgs0 & [= <-]).
  destruct (preselected_counted cf infos isz rate ins L _ _ Hinf Hpre) as (P1 & P2 & P3 & P4).
  cbn [pr_amounts pr_sizes pr_fees] in *. specialize (P2 ltac:(constructor)). rewrite fee_for_zero in P4. specialize (P4 ltac:(done)).
  assert (forall c, brought_at c (pr_amounts pre) = value (of_currency c) (unlocked cf L ins)) as Pb by (intros c; rewrite (proj1 (P1 c)); done).
  assert (forall c, burned_at c (pr_amounts pre) = value (of_currency c) (charged cf L ins)) as Pc by (intros c; rewrite (proj2 (P1 c)); done).
  clear P1. destruct (outputs_grouped cf outs _ _ Ham0) as (O1 & O2 & O3). specialize (O3 ltac:(apply NoDup_singleton)).
  destruct (burns_added _ _ _ Ham) as (U1 & U2 & U3). specialize (U3 O3).
  assert (forall c, amount_at c am = value (of_currency c) (charged cf L ins) + value (of_currency c) (needed cf outs)) as Hamt.
  { intros c. rewrite U1, O1, burn_of_at, Pc by done. unfold amount_at at 1. cbn [find_at]. destruct (decide _); cbn; lia. }
  assert (forall c, c <> Coin -> (c ∈ map fst am <-> named cf L ins outs c)) as Hkeys.
  { intros c Hc. rewrite U2, O2, burn_of_at, Pc by done. unfold named. cbn [map fst]. rewrite elem_of_list_singleton. tauto. }
  clear U1 U2 O1 O2 Ham Ham0 O3.
  set (tokens := List.filter (fun x => negb (bool_decide (x.1 = Coin))) am) in *.
  apply rbind_ok in H as (t & Ht & H).
  assert (Forall (fun x => sound_group isz rate x.1 x.2) (List.filter worth_keeping gs0)) as Hsound.
  { destruct (groups_made isz rate consolidate_rate _ _ Hgs0) as [G1 _]. rewrite Forall_forall in G1 |- *. intros x Hx.
    apply elem_of_list_In, filter_In in Hx as [Hx _]. apply elem_of_list_In in Hx. auto. }
  set (gs := List.filter worth_keeping gs0) in *.
  assert (map pick_input (outputs_in gs) ⊆+ offered utxos) as Hoff.
  { destruct (groups_made isz rate consolidate_rate _ _ Hgs0) as [_ <-]. apply fmap_submseteq. subst gs. unfold outputs_in.
    clear. induction gs0 as [|x gs0 IH]; [done|]. cbn [List.filter]. destruct (worth_keeping x); cbn [map concat].
    - by apply submseteq_skips_l.
    - by apply submseteq_inserts_l. }
  assert (NoDup (map fst tokens)) as Hnd.
  { subst tokens. clear - U3. induction am as [|[c a] am IH]; [constructor|]. cbn [map fst] in U3. apply NoDup_cons in U3 as [Hn Hd].
    cbn [List.filter fst]. destruct (negb _); [|auto]. cbn [map fst]. apply NoDup_cons. split; [|auto].
    intros Hin. apply Hn. apply elem_of_list_fmap in Hin as (y & -> & Hy). apply elem_of_list_In, filter_In in Hy as [Hy _].
    apply elem_of_list_fmap. exists y. split; [done|]. by apply elem_of_list_In. }
  assert (forall c, c ∈ map fst tokens <-> c <> Coin /\ named cf L ins outs c) as Htk.
  { intros c. transitivity (c <> Coin /\ c ∈ map fst am); [|split; intros [? ?]; (split; [done|]); by apply Hkeys].
    subst tokens. split.
    - intros Hin. apply elem_of_list_fmap in Hin as (y & -> & Hy). apply elem_of_list_In, filter_In in Hy as [Hy Hb].
      apply negb_true_iff, bool_decide_eq_false in Hb. split; [done|]. apply elem_of_list_fmap. exists y. split; [done|]. by apply elem_of_list_In.
    - intros [Hc Hin]. apply elem_of_list_fmap in Hin as (y & -> & Hy). apply elem_of_list_fmap. exists y. split; [done|].
      apply elem_of_list_In, filter_In. split; [by apply elem_of_list_In|]. by apply negb_true_iff, bool_decide_eq_false. }
  assert (Forall (fun x => x.1 <> Coin /\ x.2 = amount_at x.1 am) tokens) as Hfa.
  { subst tokens. apply Forall_forall. intros [c a] Hx. apply elem_of_list_In, filter_In in Hx as [Hx Hb]. cbn [fst snd] in *.
    apply negb_true_iff, bool_decide_eq_false in Hb. split; [done|]. apply elem_of_list_In in Hx. clear - U3 Hx.
    unfold amount_at. induction am as [|[c' a'] am IH]; [inversion Hx|]. cbn [map fst] in U3. apply NoDup_cons in U3 as [Hn Hd].
    cbn [find_at]. apply elem_of_cons in Hx as [[= -> ->]|Hx]; [by destruct (decide _)|]. destruct (decide (c' = c)) as [->|]; [|auto].
    exfalso. apply Hn. apply elem_of_list_fmap. by exists (c, a). }
  assert (loop_inv (pr_amounts pre) gs (fun c => amount_at c am) outs [] (TokensState outs 0 0 [])) as Hinv0.
  { exists []. rewrite app_nil_r. unfold all_of. cbn [ts_outputs ts_selected ts_size ts_fees map concat unlocked].
    split_and!; [done|done|intros c L' Hin; by apply elem_of_nil in Hin| |by apply Forall_nil|done|by rewrite fee_for_zero|apply submseteq_nil_l].
    intros c L' _. unfold needed. cbn [map concat]. rewrite value_nil. done. }
  pose proof (tokens_ok _ _ _ _ _ Hfair Hsound [] _ _ Hnd Hfa Hinv0 Ht) as (tch & I1 & I2 & I3 & I4 & I5 & I6 & I7 & I8).
  cbn [app] in I3, I4, I8. clear Hinv0 Ht Hfa.
  fold (brought_at Coin (pr_amounts pre)) in H. fold (amount_at Coin am) in H.
  rewrite !count_concat in H. fold (all_of t) in H.
  apply rbind_ok in H as (frame & Hframe & H). apply frame_size_ok in Hframe.
  apply rbind_ok in H as (ofee & Hofee & H). apply compute_fee_ok in Hofee.
  apply rbind_ok in H as (f1 & Hf1 & H). apply add_amount_ok in Hf1 as [-> _].
  apply rbind_ok in H as (f2 & Hf2 & H). apply add_amount_ok in Hf2 as [-> _].
  apply rbind_ok in H as (to_pay & Htp & H). apply add_amount_ok in Htp as [Htp _].
  apply rbind_ok in H as (coc & Hcoc & H). apply compute_fee_ok in Hcoc.
  apply rbind_ok in H as (sr & Hsr & H). apply lift_ok in Hsr.
  pose proof (Hfair Coin) as Hf. cbn [pays_fee] in Hf.
  destruct (CoinSelectProperties.C68_selection_pays_and_accounts _ _ _ _ _ _ _ _ Hf Hsr)
    as (chosen & Hsub & (M1 & M2 & M3) & (rest & B1 & B2) & _ & _ & B3).
  cbn [fees_taken change_fee_taken] in *.
  apply rbind_ok in H as (sr1 & Hsr1 & H). apply lift_ok, add_change_ok in Hsr1 as (R1 & R2 & R3 & R4 & _).
  apply rbind_ok in H as (f3 & Hf3 & H). apply add_amount_ok in Hf3 as [-> _].
  apply rbind_ok in H as (frame' & Hframe' & H). apply frame_size_ok in Hframe'.
  pose proof (groups_of_sound isz rate Coin gs Hsound) as Hgc.
  pose proof (submseteq_Forall _ _ _ Hsub Hgc) as Hch.
  destruct (chosen_sums cf isz rate Coin chosen Hch) as (S1 & S2 & S3 & S4).
  rewrite R1, R2, R3 in *. rewrite M1 in *. rewrite <- M2 in S3, S4. rewrite <- M3 in S4.
  set (csel := concat (map g_outputs chosen)) in *.
  assert (csel ⊆+ concat (map g_outputs (groups_of Coin gs))) as Hcs by (by apply concat_submseteq).
  assert (map pick_input csel ++ map pick_input (all_of t) ⊆+ offered utxos) as Hpick.
  { etransitivity; [|exact Hoff]. rewrite <- map_app. apply fmap_submseteq.
    assert (Coin ∉ map fst tokens) as HnC by (rewrite Htk; tauto).
    etransitivity; [|apply (from_keys_all (map fst tokens ++ [Coin]))]. rewrite (from_keys_snoc _ _ _ HnC).
    rewrite Permutation_app_comm. by apply submseteq_app. }
  set (picked := map pick_input csel ++ map pick_input (all_of t)) in *.
  assert (plain picked) as Hplain by (by apply Forall_app).
  assert (forall c L', value (of_currency c) (unlocked cf L' picked) =
            only Coin c (total g_value chosen) + value (of_currency c) (unlocked cf L' (map pick_input (all_of t)))) as Hval.
  { intros c L'. subst picked. rewrite unlocked_app, value_app, plain_after, S2 by done. done. }
  assert (exists last, cp_inputs r = ins ++ picked /\ cp_outputs r = outs ++ tch ++ last /\
    (forall c, c <> Coin -> value (of_currency c) (needed cf last) = 0) /\
    (value (of_currency Coin) (unlocked cf L ins) <= value (of_currency Coin) (charged cf L ins) + value (of_currency Coin) (needed cf outs) ->
     exists paid, total g_value chosen + brought_at Coin (pr_amounts pre) =
       amount_at Coin am + value (of_currency Coin) (needed cf last) + paid /\
       cp_fee r <= paid /\ rate * transaction_size isz osz empty (cp_inputs r) (cp_outputs r) <= 1000 * paid /\
       (value (of_currency Coin) (needed cf last) <> 0 -> paid = cp_fee r))) as (last & E1 & E2 & E3 & E4).
  2:{ exists picked, (tch ++ last). split_and!; try done.
      - intros c Hc Hna. rewrite E1, E2, unlocked_app, value_app, !needed_app, !value_app, Hval, (E3 c Hc).
        assert (c ∈ map fst tokens) as Hin by (by apply Htk). pose proof (I3 c (foldl (after_input cf) L ins) Hin) as Hi.
        rewrite Hamt, Pb in Hi. unfold only. destruct (decide (c = Coin)); [done|]. lia.
      - intros c Hc Hna. rewrite E1, E2, unlocked_app, value_app, !needed_app, !value_app, Hval, (E3 c Hc).
        assert (c ∉ map fst tokens) as Hin by (rewrite Htk; tauto). destruct (I4 c (foldl (after_input cf) L ins) Hin) as [-> ->].
        unfold only. destruct (decide (c = Coin)); [done|]. split; [lia|].
        assert (amount_at c am = 0) as Ha.
        { unfold amount_at. rewrite (proj2 (find_at_none c am)); [done|]. rewrite (Hkeys c Hc). done. }
        rewrite Hamt in Ha. lia.
      - intros Hle. destruct (E4 Hle) as (paid & Q1 & Q2 & Q3 & Q4). exists paid. rewrite Hamt, Pb in Q1.
        assert (Coin ∉ map fst tokens) as HnC by (rewrite Htk; tauto).
        destruct (I4 Coin (foldl (after_input cf) L ins) HnC) as [W1 W2].
        split_and!; try done.
        + rewrite E1, E2, unlocked_app, value_app, !needed_app, !value_app, Hval, W1, W2. unfold only. destruct (decide _); [|done]. lia.
        + rewrite needed_app, value_app, W2. rewrite N.add_0_l. exact Q4. }
  assert (N.of_nat (length csel) <= N.of_nat (length (concat (map g_outputs (groups_of Coin gs))))) as Hlen.
  { pose proof (submseteq_length _ _ Hcs). lia. }
  assert (forall nch, nch <= 1 -> frame' = empty + (compact_len (N.of_nat (length (ts_outputs t)) + (N.of_nat (length (List.filter has_change (ts_selected t))) + nch)) - 1) +
            2 * (compact_len (N.of_nat (length (all_of t)) + N.of_nat (length ins) + N.of_nat (length csel)) - 1) -> frame' <= frame) as Hfr.
  { intros nch Hnch ->. rewrite Hframe. apply frame_mono; lia. }
  rewrite <- (Pb Coin), <- (Hamt Coin).
  assert (forall last extra, cp_inputs r = ins ++ picked -> cp_outputs r = outs ++ tch ++ last ->
    N.of_nat (length last) <= extra ->
    frame' = empty + (compact_len (N.of_nat (length (ts_outputs t)) + (N.of_nat (length (List.filter has_change (ts_selected t))) + extra)) - 1) +
            2 * (compact_len (N.of_nat (length (all_of t)) + N.of_nat (length ins) + N.of_nat (length csel)) - 1) ->
    transaction_size isz osz empty (cp_inputs r) (cp_outputs r) <=
      frame' + outputs_size osz (ts_outputs t) + outputs_size osz last + ts_size t + pr_sizes pre + s_weight sr) as Hsize.
  { intros last extra -> -> Hl Hfr'. unfold transaction_size. rewrite (app_assoc outs), <- I1. rewrite outputs_size_app.
    rewrite inputs_size_app. subst picked. rewrite inputs_size_app, S3. rewrite P3.
    rewrite Hfr'. pose proof (frame_mono empty (N.of_nat (length (ts_outputs t ++ last))) (N.of_nat (length (ins ++ map pick_input csel ++ map pick_input (all_of t))))
      (N.of_nat (length (ts_outputs t)) + (N.of_nat (length (List.filter has_change (ts_selected t))) + extra))
      (N.of_nat (length (all_of t)) + N.of_nat (length ins) + N.of_nat (length csel))) as Hm.
    rewrite !app_length, !map_length in *. clear - Hm Hl I6. specialize (Hm ltac:(lia) ltac:(lia)). lia. }
  set (F := frame + outputs_size osz (ts_outputs t)) in *.
  set (X := outputs_size osz (ts_outputs t)) in *.
  destruct (0 <? s_change sr1) eqn:Ech.
  - specialize (Hfr 1 ltac:(lia) Hframe'). 
    apply rbind_ok in H as (f4 & Hf4 & H). apply add_amount_ok in Hf4 as [-> _].
    apply rbind_ok in H as (nf & Hnf & H). apply compute_fee_ok in Hnf.
    apply rbind_ok in H as (sr2 & Hsr2 & H). apply lift_ok, add_change_ok in Hsr2 as (_ & _ & _ & T4 & T5). injection H as <-.
    exists [change_output change_to Coin (s_change sr2)]. cbn [cp_inputs cp_outputs cp_fee].
    split_and!; [done|by rewrite I1, app_assoc| |].
    { intros c Hc. rewrite change_needed. unfold only. by destruct (decide _). }
    intros Hle. rewrite change_needed. unfold only. destruct (decide (Coin = Coin)); [|done].
    assert (nf <= ts_fees t + ofee + pr_fees pre + s_fees sr + coc) as Hnfle.
    { subst nf ofee coc. set (Q := pr_sizes pre) in *. set (T := ts_size t) in *. set (W := s_weight sr) in *.
      pose proof (fee_for_mono rate (T + (F + Q) + W - F + (frame' + X) + change_size osz change_to Coin) (T + F + Q + W + change_size osz change_to Coin)).
      pose proof (fee_for_add rate (T + F + Q + W) (change_size osz change_to Coin)). pose proof (fee_for_add rate (T + F + Q) W).
      pose proof (fee_for_add rate (T + F) Q). pose proof (fee_for_add rate T F). clear - H H0 H1 H2 H3 P4 I7 S4 Hfr. subst F. lia. }
    exists nf. split_and!; [|done| |done].
    + rewrite T4, R4. clear - B1 B2 B3 Htp Hnfle Hle M3 Ech R4. destruct B2 as [B2|B2]; lia.
    + specialize (Hsize [change_output change_to Coin (s_change sr2)] 1 eq_refl). cbn [cp_inputs cp_outputs] in Hsize.
      specialize (Hsize ltac:(by rewrite I1, app_assoc) ltac:(cbn; lia) Hframe').
      pose proof (Hlong (change_to Coin) (s_change sr2) U128_MAX T5) as Hl. 
      assert (outputs_size osz [change_output change_to Coin (s_change sr2)] <= change_size osz change_to Coin) as Hos.
      { unfold outputs_size, change_size. cbn [foldr]. unfold change_output. lia. }
      pose proof (fee_for_covers rate (ts_size t + (F + pr_sizes pre) + s_weight sr - F + (frame' + X) + change_size osz change_to Coin)) as Hcov.
      rewrite <- Hnf in Hcov. etransitivity; [|exact Hcov]. apply N.mul_le_mono_l. subst F. lia.
  - rewrite <- (N.add_0_r (N.of_nat (length (List.filter has_change (ts_selected t))))) in Hframe'.
    specialize (Hfr 0 ltac:(lia) Hframe').
    apply rbind_ok in H as (nf & Hnf & H). apply compute_fee_ok in Hnf. injection H as <-.
    exists []. cbn [cp_inputs cp_outputs cp_fee]. rewrite app_nil_r.
    assert (forall c, value (of_currency c) (needed cf []) = 0) as Hnil by done.
    split_and!; [done|done|intros; apply Hnil|].
    intros Hle. rewrite Hnil. exists (total g_value chosen + brought_at Coin (pr_amounts pre) - amount_at Coin am).
    assert (ts_fees t + ofee + pr_fees pre + s_fees sr <= total g_value chosen + brought_at Coin (pr_amounts pre) - amount_at Coin am) as Hp
      by lia.
    assert (nf <= ts_fees t + ofee + pr_fees pre + s_fees sr) as Hnfle.
    { subst nf ofee. set (Q := pr_sizes pre) in *. set (T := ts_size t) in *. set (W := s_weight sr) in *.
      pose proof (fee_for_mono rate (T + (F + Q) + W - F + (frame' + X)) (T + F + Q + W)).
      pose proof (fee_for_add rate (T + F + Q) W).
      pose proof (fee_for_add rate (T + F) Q). pose proof (fee_for_add rate T F). clear - H H0 H1 H2 P4 I7 S4 Hfr. subst F. lia. }
    split_and!; [lia|lia| |done].
    specialize (Hsize [] 0 eq_refl). cbn [cp_inputs cp_outputs] in Hsize. rewrite app_nil_r in Hsize.
    specialize (Hsize I1 ltac:(cbn; lia) Hframe').
    pose proof (fee_for_covers rate (ts_size t + (F + pr_sizes pre) + s_weight sr - F + (frame' + X))) as Hcov.
    rewrite <- Hnf in Hcov. etransitivity; [|etransitivity; [exact Hcov|]]; [apply N.mul_le_mono_l|lia].
    change (outputs_size osz []) with 0 in Hsize. subst F. lia.
Qed.
End Loop.
