(** Blocks one after the other: the ids they use, and what they do to the amounts held. *)
From Verif Require Import Base BaseProofs AmountModel DeltaModel DeltaProofs LayeredModel TokensModel OrdersModel PosModel PrimModel ChainModel
  UtxoModel ConstraintsModel RewardModel UndoCacheModel NonceModel VerifierModel.
From Verif Require Import TokensSpec TokensProofs OrdersSpec OrdersProofs PosSpec PosProofs UtxoSpec UtxoProofs ConstraintsSpec
  ConstraintsProofs RewardSpec RewardProofs UndoCacheSpec UndoCacheProofs NonceProofs VerifierRecords VerifierSteps VerifierParts VerifierTx VerifierBlock.
From Verif Require Import SupplySpec HoldingProofs VerifierChain VerifierPast.
Local Open Scope N_scope.
Local Arguments value : simpl never.

(** ** Rewards *)
Lemma got_sum l : NoDup l.*1 -> sum_over (got l) l.*1 <= tot l.
Proof.
  induction l as [|[d a] l IH]; [reflexivity|]. intros Hn. cbn [fmap list_fmap fst] in Hn |- *. apply NoDup_cons in Hn as [Hd Hn].
  rewrite sum_over_cons, tot_cons, got_cons, decide_True by reflexivity.
  assert (got l d = 0) as E0.
  { unfold got. apply sum_over_zero. intros x Hx. destruct (decide (x.1 = d)) as [<-|]; [|reflexivity]. destruct Hd. apply elem_of_list_fmap. eauto. }
  rewrite E0. assert (sum_over (got ((d, a) :: l)) l.*1 = sum_over (got l) l.*1) as ->.
  { apply sum_over_ext. intros e He. rewrite got_cons. destruct (decide (d = e)) as [->|]; [destruct (Hd He)|lia]. }
  specialize (IH Hn). lia.
Qed.
Lemma sum_map {A B} (f : B -> N) (g : A -> B) l : sum_over f (map g l) = sum_over (fun x => f (g x)) l.
Proof. induction l as [|x l IH]; [reflexivity|]. cbn [map]. rewrite !sum_over_cons, IH. reflexivity. Qed.
Lemma sum_plus {A} (f g : A -> N) l : sum_over (fun x => f x + g x) l = sum_over f l + sum_over g l.
Proof. induction l as [|x l IH]; [reflexivity|]. rewrite !sum_over_cons, IH. lia. Qed.
Lemma val_sum c d l (f : N -> N) : val c [Portion d 0 (sum_over f l)] = sum_over (fun x => val c [Portion d 0 (f x)]) l.
Proof.
  induction l as [|x l IH]; [rewrite value_one; cbn; destruct (of_currency c d 0); reflexivity|]. rewrite !sum_over_cons, val_one_add, IH. reflexivity.
Qed.
Lemma paid_gives U O c P p x l R P' : ps_pool P p = Some x -> NoDup l.*1 -> paid P p x l R P' ->
  gives (holding U P O c) (holding U P' O c) (val c [Portion Coin 0 (tot l + R)]) 0.
Proof.
  intros Hx Hl (A1 & A2 & A3 & A4 & A5). apply (gives_change _ _ (InPool p :: map InDelegation l.*1)).
  - apply NoDup_cons. split; [|apply NoDup_fmap_2; [intros ? ? [= ->]; reflexivity|exact Hl]]. intros Hin. apply elem_of_list_fmap in Hin as (? & [=] & _).
  - intros [k|q|d|o|o] Hj; cbn [holding]; try reflexivity.
    + rewrite A1, decide_False; [reflexivity|]. intros ->. apply Hj. left.
    + rewrite A4. assert (got l d = 0) as ->; [|rewrite N.add_0_r; reflexivity]. unfold got. apply sum_over_zero. intros y Hy. destruct (decide (y.1 = d)) as [<-|]; [|reflexivity].
      destruct Hj. right. apply elem_of_list_fmap. exists y.1. split; [reflexivity|]. apply elem_of_list_fmap. eauto.
  - rewrite !sum_over_cons, !(sum_map _ InDelegation).
    assert (sum_over (fun d => holding U P' O c (InDelegation d)) l.*1 =
            sum_over (fun d => holding U P O c (InDelegation d)) l.*1 + val c [Portion Coin 0 (sum_over (got l) l.*1)]) as ->.
    { rewrite val_sum, <- sum_plus. apply sum_over_ext. intros d _. cbn [holding]. rewrite A4. apply val_one_add. }
    cbn [holding]. rewrite A1, decide_True, Hx by reflexivity. cbn [with_rewards pd_pledge pd_rewards].
    rewrite N.add_assoc, !val_one_add. pose proof (val_one_mono c Coin 0 _ _ (got_sum l Hl)). lia.
Qed.


Lemma locks_no_ops cc ins outs : forallb is_lock outs = true ->
  concat (map (pos_ops_out cc ins) outs) = [] /\ concat (map (ord_ops_out cc ins) outs) = [] /\ forall c, sum_over (nfts c) outs = 0.
Proof.
  induction outs as [|o outs IH]; intros H; [auto|]. cbn in H. apply andb_true_iff in H as [Ho H]. destruct (IH H) as (A & B & C).
  destruct o; try discriminate Ho. cbn [map concat pos_ops_out ord_ops_out app]. split; [exact A|]. split; [exact B|]. intros c. rewrite sum_over_cons, C. reflexivity.
Qed.
Lemma take_all_gives U P O c : forall ks m, take_all U ks = Some m -> gives (holding U P O c) (holding m P O c) 0 0.
Proof.
  intros ks. revert U. induction ks as [|k ks IH]; intros U m H; cbn [take_all] in H; [injection H as <-; apply gives_same; reflexivity|].
  destruct (U k) as [u|] eqn:E; [|discriminate]. pose proof (take_gives U P O c k u E) as G1. pose proof (IH _ _ H) as G2.
  eapply gives_net; [exact (gives_trans _ _ _ _ _ _ _ G1 G2)|lia].
Qed.

Lemma reward_gives cc b s fees y s' c : reward_checked cc b s fees -> reward_done b (ru_subsidy (cc_rules cc (b_height b)) + fees) s y s' ->
  gives (held s c) (held s' c) (val c [Portion Coin 0 (ru_subsidy (cc_rules cc (b_height b)) + fees)]) 0.
Proof.
  intros HC HD. set (S := ru_subsidy (cc_rules cc (b_height b))) in *. pose proof (rd_ustep _ _ _ _ _ HD) as HU. cbn [utxo_step] in HU. unfold reward_of in HU. cbn [rt_inputs rt_outputs] in HU.
  destruct (take_all (us_map (k_utxo s)) _) as [U1|] eqn:E1; [|discriminate HU]. destruct (forallb spendable _) eqn:Es; [|discriminate HU]. injection HU as HU. cbn [option_list] in HU.
  rewrite <- HU. cbn [set_map us_map]. rewrite (rd_ord _ _ _ _ _ HD). pose proof (rd_pos _ _ _ _ _ HD) as HP. unfold reward_checked in HC.
  destruct (b_pos b) as [[ins pool]|].
  - destruct HC as (k & u & q & d & d' & -> & Hu & Ho & Hout). rewrite Hout. destruct HP as (x & l & R & Hx & _ & Hl & HT & Hp & _). rewrite <- HT.
    pose proof (take_all_gives _ (k_pos s) (k_ord s) c _ _ E1) as G1. pose proof (paid_gives U1 (k_ord s) c _ _ _ _ _ _ Hx Hl Hp) as G2.
    unfold created. cbn [created_from spendable put_all].
    pose proof (put_gives U1 (k_pos s') (k_ord s) c (FromReward (b_id b), 0) (Utxo (OProduceBlockFromStake d' q) (InChain (b_height b)))) as G3.
    eapply gives_net; [exact (gives_trans _ _ _ _ _ _ _ (gives_trans _ _ _ _ _ _ _ G1 G2) G3)|]. cbn [u_output kept]. rewrite value_nil. lia.
  - destruct HC as [Hlock (r & Hr)]. destruct HP as [_ ->]. cbn [option_map option_list spent_by take_all] in E1. injection E1 as <-.
    destruct (locks_no_ops cc [] _ Hlock) as (A1 & A2 & A3).
    pose proof (outputs_give (ru_values (cc_rules cc (b_height b))) cc [] c (InChain (b_height b)) (FromReward (b_id b)) (b_reward b) 0 (us_map (k_utxo s)) (k_pos s) (k_ord s)
      (k_pos s) (k_ord s)) as G. rewrite A1, A2, A3 in G. cbn [ran] in G. specialize (G eq_refl eq_refl). unfold created.
    eapply gives_net; [exact G|]. destruct (reward_values_bounded _ _ _ _ _ Hr) as [B1 B2]. fold S in B1. rewrite value_one. unfold of_currency at 2. destruct c as [|id].
    + rewrite bool_decide_true by reflexivity. lia.
    + rewrite bool_decide_false by discriminate. rewrite B2. lia.
Qed.

(** ** All the transactions of a block *)
Definition delegated_by (tx : transaction) : N := sum_over delegated (tx_outputs tx).
Definition ids_of (l : list transaction) (k : source_id) : Prop := exists tx, tx ∈ l /\ k = FromTx (tx_id tx).
Lemma fee_none S : fee_value S acc_new = 0.
Proof. rewrite fee_value_sum. cbn [acc_new ac_free ac_locked]. rewrite !sumP_empty. lia. Qed.
Definition same_ids (X l : list transaction) : Prop := forall tx tx', tx ∈ l -> tx' ∈ X ++ l -> tx_id tx = tx_id tx' -> tx = tx'.
Section blocks.
Context (cc : chain_config).
Hypothesis Hinj : forall k k', cc_pool_id cc k = cc_pool_id cc k' -> k = k'.
Hypothesis Hord : forall k k', cc_order_id cc k = cc_order_id cc k' -> k = k'.

Record fine (K : source_id -> Prop) (B : N -> Prop) (X : list transaction) (n D : N) (s : books) : Prop := {
  fi_known : known cc K B s; fi_held : at_most (held s Coin) n; fi_dead : dead_ok (k_pos s) D; fi_past : past cc K X s }.

Lemma minted_coin ins : sum_over (minted Coin) ins = 0.
Proof. apply sum_over_zero. intros i _. destruct i as [| |? []|]; reflexivity. Qed.
Lemma nfts_coin outs : sum_over (nfts Coin) outs = 0.
Proof. apply sum_over_zero. intros i _. destruct i; reflexivity. Qed.

Lemma fresh_id K X h s tx utxos fee : past cc K X s -> tx_checked cc h s tx utxos fee -> (forall tx', tx' ∈ X -> tx_id tx = tx_id tx' -> tx = tx') -> ~ K (FromTx (tx_id tx)).
Proof.
  intros HP HC Hs HK. apply (pa_ids _ _ _ _ HP) in HK. apply elem_of_list_fmap in HK as (tx' & E & Hx). rewrite (Hs _ Hx E) in HC. exact (past_refuses _ _ _ _ _ _ _ _ HP HC Hx).
Qed.

(** One transaction at a time; [J]: anything kept by every transaction *)
Lemma txs_fine_inv h b K (B : N -> Prop) X n D s l acc s1 (J : list transaction -> books -> Prop) :
  (forall K B X n D s tx utxos fee x s', fine K B X n D s -> ~ K (FromTx (tx_id tx)) -> tx_checked cc h s tx utxos fee -> tx_done cc h b s tx x s' -> J X s -> J (X ++ [tx]) s') ->
  B b -> fine K B X n D s -> J X s -> txs_done cc h b s l acc s1 -> same_ids X l ->
  (fine (fun k => K k \/ ids_of l k) B (X ++ l) (n - fee_value (of_currency Coin) acc) (D + sum_over delegated_by l) s1 /\ fee_value (of_currency Coin) acc <= n /\ NoDup (map tx_id l)) /\
  J (X ++ l) s1.
Proof.
  intros HJ Hb [Hk Hh Hd Hp] HJ0 H. induction H as [|l acc s1 tx utxos fee acc' x s2 H IH HC Hf HD]; intros Hsame.
  - rewrite fee_none. split; [|rewrite app_nil_r; exact HJ0]. split; [|split; [lia|constructor]]. rewrite N.sub_0_r, N.add_0_r, app_nil_r. constructor; [|exact Hh|exact Hd|].
    + revert Hk. apply known_mono; auto.
    + revert Hp. apply past_ext. intros k. split; [auto|]. intros [G|(t & Ht & _)]; [exact G|inversion Ht].
  - destruct IH as [[Hfine [Hle Hnd]] HJ1].
    { intros t t' Ht Ht' E. apply Hsame; [apply elem_of_app; left; exact Ht| |exact E]. rewrite app_assoc. apply elem_of_app; left; exact Ht'. }
    destruct Hfine as [Hk1 Hh1 Hd1 Hp1].
    assert (~ (K (FromTx (tx_id tx)) \/ ids_of l (FromTx (tx_id tx)))) as Hfresh.
    { apply (fresh_id _ _ _ _ _ _ _ Hp1 HC). intros tx' Hx E. apply Hsame; [apply elem_of_app; right; left| |exact E]. rewrite app_assoc. apply elem_of_app; left; exact Hx. }
    rewrite (fee_combine_value _ _ _ _ Hf). destruct (tx_gives _ _ _ _ _ _ HC _ _ _ Coin HD _ Hh1) as (n2 & Hn2 & L). rewrite minted_coin, nfts_coin in L.
    assert (forall k, (K k \/ ids_of l k) \/ k = FromTx (tx_id tx) <-> K k \/ ids_of (l ++ [tx]) k) as EK.
    { intros k. unfold ids_of. split.
      - intros [ [G|(t & Ht & ->)] | -> ]; [left; exact G|right; exists t; split; [apply elem_of_app; left; exact Ht|reflexivity]|right; exists tx; split; [apply elem_of_app; right; left|reflexivity]].
      - intros [G|(t & Ht & ->)]; [auto|]. apply elem_of_app in Ht as [Ht|Ht]; [left; right; eauto|]. apply elem_of_list_singleton in Ht as ->. right. reflexivity. }
    rewrite !app_assoc. split.
    + split; [|split; [lia|] ].
      * constructor.
        -- pose proof (known_tx cc h b _ B Hinj _ _ _ _ _ _ Hb Hk1 Hfresh HC HD) as G. revert G. apply known_mono; [auto|]. intros k. apply EK.
        -- intros j Hj. specialize (Hn2 j Hj). lia.
        -- rewrite sum_over_app, sum_over_cons. cbn [sum_over fold_right]. rewrite N.add_assoc, N.add_0_r.
           pose proof (ran_dead _ _ _ _ (td_pran _ _ _ _ _ _ _ HD) Hd1) as G. unfold pos_ops in G. rewrite sum_over_app, delegating_ins, delegating_outs in G. exact G.
        -- pose proof (past_tx cc Hord _ _ _ _ _ _ _ _ _ _ _ Hk1 Hfresh Hp1 HC HD) as G. revert G. apply past_ext. exact EK.
      * rewrite map_app. apply NoDup_app. split; [exact Hnd|]. split; [|apply NoDup_singleton]. intros t Ht Ht'. apply elem_of_list_singleton in Ht' as ->.
        apply elem_of_list_fmap in Ht as (t' & E & Ht). apply Hfresh. right. exists t'. split; [exact Ht|]. rewrite E. reflexivity.
    + exact (HJ _ _ _ _ _ _ _ _ _ _ _ (Build_fine _ _ _ _ _ _ Hk1 Hh1 Hd1 Hp1) Hfresh HC HD HJ1).
Qed.
Lemma txs_fine h b K (B : N -> Prop) X n D s l acc s1 : B b -> fine K B X n D s -> txs_done cc h b s l acc s1 -> same_ids X l ->
  fine (fun k => K k \/ ids_of l k) B (X ++ l) (n - fee_value (of_currency Coin) acc) (D + sum_over delegated_by l) s1 /\ fee_value (of_currency Coin) acc <= n /\ NoDup (map tx_id l).
Proof. intros Hb Hs Ht Hi. apply (txs_fine_inv h b K B X n D s l acc s1 (fun _ _ => True)); auto. Qed.

Definition ids_in (b : block) (k : source_id) : Prop := ids_of (b_txs b) k \/ k = FromReward (b_id b).
Definition subsidy_of (b : block) : N := ru_subsidy (cc_rules cc (b_height b)).
Definition delegated_in (b : block) : N := sum_over delegated_by (b_txs b).

Lemma fine_more K (B B' : N -> Prop) X n D s : (forall x, B x -> B' x) -> fine K B X n D s -> fine K B' X n D s.
Proof. intros HB [A1 A2 A3 A4]. constructor; [|exact A2|exact A3|exact A4]. revert A1. apply known_mono; auto. Qed.

Lemma block_fine_inv K B X n D s b s' (J : list transaction -> books -> Prop) :
  (forall K B X n D s tx utxos fee x s', fine K B X n D s -> ~ K (FromTx (tx_id tx)) -> tx_checked cc (b_height b) s tx utxos fee ->
     tx_done cc (b_height b) (b_id b) s tx x s' -> J X s -> J (X ++ [tx]) s') ->
  (forall K B X n D s fees y s', fine K B X n D s -> ~ K (FromReward (b_id b)) -> reward_checked cc b s fees -> reward_done b (subsidy_of b + fees) s y s' -> J X s -> J X (with_best s' (b_id b))) ->
  fine K B X n D s -> J X s -> ~ B (b_id b) -> ~ K (FromReward (b_id b)) -> same_ids X (b_txs b) -> block_done cc b s s' ->
  (fine (fun k => K k \/ ids_in b k) (fun x => B x \/ x = b_id b) (X ++ b_txs b) (n + subsidy_of b) (D + delegated_in b) s' /\ NoDup (map tx_id (b_txs b))) /\ J (X ++ b_txs b) s'.
Proof.
  intros HJ HJr Hs HJ0 Hb Hnew Hsame [s1 s2 acc fees y _ Ht Hf HC HD].
  pose proof (fine_more K B (fun x => B x \/ x = b_id b) X n D s (fun _ G => or_introl G) Hs) as Hs0.
  destruct (txs_fine_inv _ _ _ _ _ _ _ _ _ _ _ J HJ (or_intror eq_refl) Hs0 HJ0 Ht Hsame) as [[Hfine [Hle Hnd]] HJ1].
  assert (~ (K (FromReward (b_id b)) \/ ids_of (b_txs b) (FromReward (b_id b)))) as Hfresh.
  { intros [G|(t & _ & [=])]. exact (Hnew G). }
  split; [|exact (HJr _ _ _ _ _ _ _ _ _ Hfine Hfresh HC HD HJ1)]. split; [|exact Hnd].
  destruct Hfine as [Hk Hh Hd Hp].
  pose proof (map_fees_le _ _ _ Hf) as Hfee. destruct (reward_gives cc b s1 fees y s2 Coin HC HD _ Hh) as (n2 & Hn2 & L). rewrite val_coin in L.
  constructor.
  - pose proof (known_reward cc _ _ _ _ _ _ _ (or_intror eq_refl) Hk Hfresh HD) as G.
    assert (known cc (fun k => K k \/ ids_in b k) (fun x => B x \/ x = b_id b) s2) as G2.
    { revert G. apply known_mono; [auto|]. unfold ids_in. tauto. }
    destruct G2. constructor; assumption.
  - cbn [with_best k_utxo k_pos k_ord us_map]. intros j Hj. specialize (Hn2 j Hj). unfold subsidy_of. lia.
  - cbn [with_best k_pos]. intros q Hq. pose proof (rd_pos _ _ _ _ _ HD) as HP. destruct (b_pos b) as [[ins pool]|].
    + destruct HP as (x & l & R & Hx & _ & _ & _ & (A1 & A2 & _) & _). rewrite A1 in Hq. rewrite A2. destruct (decide (q = pool)); [discriminate|]. rewrite N.add_0_r. exact (Hd _ Hq).
    + destruct HP as [_ E]. rewrite E in Hq |- *. exact (Hd _ Hq).
  - pose proof (past_reward cc _ _ _ _ _ _ _ Hfresh Hp HD) as G.
    assert (past cc (fun k => K k \/ ids_in b k) (X ++ b_txs b) s2) as G2.
    { revert G. apply past_ext. unfold ids_in. tauto. }
    destruct G2. constructor; assumption.
Qed.
Lemma block_fine K B X n D s b s' : fine K B X n D s -> ~ B (b_id b) -> ~ K (FromReward (b_id b)) -> same_ids X (b_txs b) -> block_done cc b s s' ->
  fine (fun k => K k \/ ids_in b k) (fun x => B x \/ x = b_id b) (X ++ b_txs b) (n + subsidy_of b) (D + delegated_in b) s' /\ NoDup (map tx_id (b_txs b)).
Proof. intros Hs Hb Hk Hi Hd. apply (block_fine_inv K B X n D s b s' (fun _ _ => True)); auto. Qed.

Lemma block_connects K B X n D db s b db' : db_is db s -> fine K B X n D s -> ~ B (b_id b) -> ~ K (FromReward (b_id b)) -> same_ids X (b_txs b) ->
  (Z.of_N (n + subsidy_of b) <= I128_MAX)%Z -> (Z.of_N (D + delegated_in b) <= I128_MAX)%Z ->
  connect_block cc db b = Ok db' -> exists s', block_done cc b s s' /\ db_is db' s'.
Proof.
  intros Hdb Hs Hb Hnew Hsame Hmax Hdel.
  pose proof (fine_more K B (fun x => B x \/ x = b_id b) X n D s (fun _ G => or_introl G) Hs) as Hs0. destruct Hs as [Hk Hh Hd Hp].
  assert (forall l1 tx l2 acc1 s1, b_txs b = l1 ++ tx :: l2 -> txs_done cc (b_height b) (b_id b) s l1 acc1 s1 ->
     forall utxos fee, tx_checked cc (b_height b) s1 tx utxos fee -> tx_room cc (b_height b) (b_id b) s1 tx) as Hroom.
  { intros l1 tx l2 acc1 s1 El Ht utxos fee HC.
    assert (same_ids X l1) as Hs1.
    { intros t t' Ht1 Ht2 E. apply Hsame; rewrite ?El; [apply elem_of_app; left; exact Ht1| |exact E]. apply elem_of_app in Ht2 as [G|G]; apply elem_of_app; [left; exact G|right; apply elem_of_app; left; exact G]. }
    destruct (txs_fine _ _ _ _ _ _ _ _ _ _ _ (or_intror eq_refl) Hs0 Ht Hs1) as [[Hk1 Hh1 Hd1 Hp1] [Hle _]].
    refine (tx_room_known cc (b_height b) (b_id b) _ _ s1 tx utxos fee _ _ Hk1 _ HC Hh1 _ Hd1 _).
    - apply (fresh_id _ _ _ _ _ _ _ Hp1 HC). intros tx' Hx E. apply Hsame; rewrite ?El; [apply elem_of_app; right; left| |exact E].
      apply elem_of_app in Hx as [G|G]; apply elem_of_app; [left; exact G|right; apply elem_of_app; left; exact G].
    - clear -Hmax. lia.
    - unfold delegated_in in Hdel. rewrite El, sum_over_app, sum_over_cons in Hdel. fold (delegated_by tx). clear -Hdel. lia. }
  apply (connect_block_ok cc db s b db' Hdb); [..|exact Hroom|].
  - exact (known_none _ _ _ _ (kn_u _ _ _ _ Hk) (kn_ur _ _ _ _ Hk) Hb).
  - exact (known_none _ _ _ _ (kn_p _ _ _ _ Hk) (kn_pr _ _ _ _ Hk) Hb).
  - exact (known_none _ _ _ _ (kn_t _ _ _ _ Hk) (kn_tr _ _ _ _ Hk) Hb).
  - exact (known_none _ _ _ _ (kn_o _ _ _ _ Hk) (kn_or _ _ _ _ Hk) Hb).
  - intros acc s1 fees Ht Hf HC.
    destruct (txs_fine _ _ _ _ _ _ _ _ _ _ _ (or_intror eq_refl) Hs0 Ht Hsame) as [[Hk1 Hh1 Hd1 Hp1] [Hle _]].
    pose proof (map_fees_le _ _ _ Hf) as Hfee.
    assert (forall I R (T T0 : undo_table I R), rew_recs B T0 -> ut_reward T = ut_reward T0 -> ut_reward T !! SrcChain (b_id b) = None) as Hnone.
    { intros I R T T0 HT ->. destruct (ut_reward T0 !! SrcChain (b_id b)) eqn:E; [|reflexivity]. destruct (Hb (HT _ _ E)). }
    assert (ut_reward (k_u s1) = ut_reward (k_u s) /\ ut_reward (k_p s1) = ut_reward (k_p s)) as [Eu Ep].
    { clear -Ht. induction Ht as [|l acc s1 tx utxos fee acc' x s2 H [IH1 IH2] HC Hf HD]; [auto|].
      rewrite (td_u _ _ _ _ _ _ _ HD), (td_p _ _ _ _ _ _ _ HD), rec_add_reward. auto. }
    constructor.
    + exact (Hnone _ _ _ _ (kn_ur _ _ _ _ Hk) Eu).
    + exact (Hnone _ _ _ _ (kn_pr _ _ _ _ Hk) Ep).
    + intros k o Hin. destruct (us_map (k_utxo s1) k) as [u|] eqn:E; [|reflexivity]. apply (kn_utxo _ _ _ _ Hk1) in E.
      destruct (created_keys _ _ _ _ _ Hin) as [Ek _]. rewrite Ek in E. destruct E as [E|(t & _ & [=])]. destruct (Hnew E).
    + intros ins pool _ [x Hx].
      assert (sound_stakes (k_pos s1)) as Hsound.
      { assert (forall l r, b_txs b = l ++ r -> txs_done cc (b_height b) (b_id b) s l acc s1 -> sound_stakes (k_pos s1)) as G; [|apply (G (b_txs b) []); [rewrite app_nil_r; reflexivity|exact Ht] ].
        clear -Hroom Hdb. intros l r El Ht.
        destruct Ht as [|l acc s1 tx utxos fee acc' y s2 H HC1 Hf1 HD]; [exact (proj2 (proj2 (proj2 (proj2 (proj2 (di_pos _ _ Hdb))))))|].
        rewrite <- app_assoc in El. pose proof (Hroom _ _ _ _ _ El H _ _ HC1) as HR.
        refine (ran_sound _ _ _ _ (tr_pos _ _ _ _ _ HR) (td_pran _ _ _ _ _ _ _ HD)). destruct (tc_sound _ _ _ _ _ _ HC1) as [(_ & _ & _ & G) _]. exact G. }
      pose proof (pool_balance_le _ _ _ _ _ _ Hsound Hx Hh1). unfold subsidy_of in Hmax. clear -Hmax H Hfee Hle. lia.
Qed.
End blocks.
