(** Token ids are issued once; frozen tokens stay where they are. *)
From Verif Require Import Base BaseProofs AmountModel DeltaModel DeltaProofs LayeredModel TokensModel OrdersModel PosModel PrimModel ChainModel
  UtxoModel ConstraintsModel RewardModel UndoCacheModel NonceModel VerifierModel.
From Verif Require Import TokensSpec TokensProofs OrdersSpec OrdersProofs PosSpec PosProofs UtxoSpec UtxoProofs ConstraintsSpec
  ConstraintsProofs RewardSpec RewardProofs UndoCacheSpec UndoCacheProofs NonceProofs VerifierRecords VerifierSteps VerifierParts VerifierTx VerifierBlock.
From Verif Require Import SupplySpec HoldingProofs VerifierChain VerifierPast VerifierHistory SupplyProofs.
Local Open Scope N_scope.
Local Arguments value : simpl never.

(** ** Histories with the heights of the transactions *)
Definition dated (b : block) : list (N * transaction) := map (pair (b_height b)) (b_txs b).
Definition dated_txs (bs : list block) : list (N * transaction) := concat (map dated bs).

Lemma dated_snd bs : map snd (dated_txs bs) = txs_of bs.
Proof.
  unfold dated_txs, txs_of. induction bs as [|b bs IH]; [reflexivity|]. cbn [map concat]. rewrite map_app, IH. f_equal. unfold dated. rewrite map_map. apply map_id.
Qed.
Lemma dated_snoc bs b : dated_txs (bs ++ [b]) = dated_txs bs ++ dated b.
Proof. unfold dated_txs. rewrite map_app, concat_app. cbn. rewrite app_nil_r. reflexivity. Qed.

Section inv.
Context (cc : chain_config) (g : genesis).
Hypothesis Hids : ids_distinct cc g.
Context (J : list (N * transaction) -> books -> Prop).
Definition tx_keeps (b : block) : Prop := forall K B L n D s tx utxos fee x s', fine cc K B (map snd L) n D s -> ~ K (FromTx (tx_id tx)) ->
  tx_checked cc (b_height b) s tx utxos fee -> tx_done cc (b_height b) (b_id b) s tx x s' -> J L s -> J (L ++ [(b_height b, tx)]) s'.
Definition reward_keeps (b : block) : Prop := forall K B L n D s fees y s', fine cc K B (map snd L) n D s -> ~ K (FromReward (b_id b)) -> reward_checked cc b s fees ->
  reward_done b (subsidy_of cc b + fees) s y s' -> J L s -> J L (with_best s' (b_id b)).

Lemma block_inv bs db s b s' : tx_keeps b -> reward_keeps b -> hist cc g bs db s -> block_done cc b s s' -> no_collision g bs b -> b_id b ∉ map b_id bs ->
  ~ used g bs (FromReward (b_id b)) -> J (dated_txs bs) s -> J (dated_txs bs ++ dated b) s'.
Proof.
  intros Jt Jr H HD Hn Hb Hk HJ. pose proof (proj1 (hist_fine cc g Hids _ _ _ H)) as HF. pose proof Hids as (I1 & I2 & I3).
  pose (J' := fun X s => exists l, X = txs_of bs ++ l /\ J (dated_txs bs ++ map (pair (b_height b)) l) s).
  assert (forall K B X n D s1 tx utxos fee x s2, fine cc K B X n D s1 -> ~ K (FromTx (tx_id tx)) -> tx_checked cc (b_height b) s1 tx utxos fee ->
    tx_done cc (b_height b) (b_id b) s1 tx x s2 -> J' X s1 -> J' (X ++ [tx]) s2) as A1.
  { intros K B X n D s1 tx utxos fee x s2 F1 F2 F3 F4 (l & -> & F5). exists (l ++ [tx]). split; [apply app_assoc_reverse|].
    rewrite map_app, app_assoc. eapply Jt; try eassumption. rewrite map_app, dated_snd, map_map, map_id. exact F1. }
  assert (forall K B X n D s1 fees y s2, fine cc K B X n D s1 -> ~ K (FromReward (b_id b)) -> reward_checked cc b s1 fees ->
    reward_done b (subsidy_of cc b + fees) s1 y s2 -> J' X s1 -> J' X (with_best s2 (b_id b))) as A2.
  { intros K B X n D s1 fees y s2 F1 F2 F3 F4 (l & -> & F5). exists l. split; [reflexivity|]. eapply Jr; try eassumption. rewrite map_app, dated_snd, map_map, map_id. exact F1. }
  assert (J' (txs_of bs) s) as A0. { exists []. rewrite !app_nil_r. auto. }
  destruct (block_fine_inv cc I1 I2 _ _ _ _ _ _ _ _ J' A1 A2 HF A0 Hb Hk (proj2 (proj2 Hn)) HD) as [_ (l & E & G)].
  apply app_inv_head in E as <-. exact G.
Qed.
Lemma hist_inv_at bs db s : (forall P, ran pos_step no_stakes (concat (map pool_op (g_outputs g))) P -> J [] (genesis_books g P)) ->
  (forall b, tx_keeps b) -> (forall b, reward_keeps b) -> hist cc g bs db s -> J (dated_txs bs) s.
Proof.
  intros Jg Jt Jr. induction 1 as [db P Hg HP Hdb|bs db s b db' s' H IH Hn Hc HD Hdb]; [exact (Jg _ HP)|]. rewrite dated_snoc.
  destruct (new_block cc g _ _ _ _ _ H Hn Hc) as [Hb Hk]. exact (block_inv _ _ _ _ _ (Jt b) (Jr b) H HD Hn Hb Hk IH).
Qed.
End inv.

(** ** Token ids *)
Definition fungibles_in (cc : chain_config) (L : list (N * transaction)) : list N := concat (map (fun ht => fungibles_by cc ht.1 ht.2) L).
Definition nfts_in (L : list (N * transaction)) : list N := concat (map (fun ht => nfts_by ht.2) L).

(** One output at most issues, so one id at most is issued. *)
Lemma issues_one outs (f : tx_output -> list N) : (count is_issuance outs <= 1)%nat -> (forall o, is_issuance o = false -> f o = []) ->
  concat (map f outs) = [] \/ exists o, o ∈ outs /\ is_issuance o = true /\ concat (map f outs) = f o.
Proof.
  intros Hc Hf. assert (forall l, count is_issuance l = 0%nat -> concat (map f l) = []) as H0.
  { clear Hc. induction l as [|o l IH]; [reflexivity|]. rewrite count_cons. cbn [map concat]. destruct (is_issuance o) eqn:E; [discriminate|]. intros G. rewrite (Hf _ E). exact (IH G). }
  induction outs as [|o l IH]; [left; reflexivity|]. rewrite count_cons in Hc. cbn [map concat]. destruct (is_issuance o) eqn:E.
  - right. exists o. split; [left|]. split; [exact E|]. rewrite H0 by lia. apply app_nil_r.
  - rewrite (Hf _ E). cbn [app]. destruct IH as [G|(o' & G1 & G2 & G3)]; [exact Hc|left; exact G|right; exists o'; split; [right; exact G1|auto]].
Qed.

Section ids.
Context (cc : chain_config) (g : genesis).
Hypothesis Hids : ids_distinct cc g.
Hypothesis Htok : token_ids_distinct cc.

Record tokens_ok (L : list (N * transaction)) (s : books) : Prop := {
  tk_from : forall id, id ∈ fungibles_in cc L ++ nfts_in L ->
    exists tx i, tx ∈ map snd L /\ i ∈ tx_inputs tx /\ (forall c, i <> InOrder c) /\ id = cc_token_id cc i;
  tk_once : NoDup (fungibles_in cc L ++ nfts_in L);
  tk_data : forall id, is_Some (ts_data (k_tok s) id) <-> id ∈ fungibles_in cc L;
  tk_aux : forall id, is_Some (k_aux s id) <-> id ∈ nfts_in L;
  tk_utxo : forall k u id dat d, us_map (k_utxo s) k = Some u -> u_output u = OIssueNft id dat d -> id ∈ nfts_in L \/ OIssueNft id dat d ∈ g_outputs g }.

Lemma fungibles_snoc L h tx : fungibles_in cc (L ++ [(h, tx)]) = fungibles_in cc L ++ fungibles_by cc h tx.
Proof. unfold fungibles_in. rewrite map_app, concat_app. cbn. rewrite app_nil_r. reflexivity. Qed.
Lemma nfts_snoc L h tx : nfts_in (L ++ [(h, tx)]) = nfts_in L ++ nfts_by tx.
Proof. unfold nfts_in. rewrite map_app, concat_app. cbn. rewrite app_nil_r. reflexivity. Qed.

(** The input a token id is made from *)
Lemma token_id_input h s tx utxos fee id : tx_checked cc h s tx utxos fee -> token_id cc h (tx_inputs tx) = Some id ->
  exists i, i ∈ tx_inputs tx /\ (forall c, i <> InOrder c) /\ id = cc_token_id cc i.
Proof.
  intros HC E. unfold token_id, make_token_id in E. destruct (ru_token_id_any_input (cc_rules cc h)) eqn:Er.
  - pose proof (tc_order_ins _ _ _ _ _ _ HC) as Ho. rewrite (proj2 Htok _ Er) in Ho. destruct (tx_inputs tx) as [|i l]; [discriminate E|]. cbn in E. injection E as <-.
    exists i. split; [left|]. split; [|reflexivity]. intros c ->. cbn in Ho. destruct c; discriminate Ho.
  - destruct (first_outpoint (tx_inputs tx)) as [k|] eqn:Ek; [|discriminate E]. cbn in E. injection E as <-. exists (InUtxo k). split; [|split; [discriminate|reflexivity]].
    clear -Ek. induction (tx_inputs tx) as [|i l IH]; [discriminate Ek|]. destruct i; cbn in Ek; try (right; exact (IH Ek)). injection Ek as ->. left.
Qed.
(** It has not been used before. *)
Lemma input_new K X h s tx utxos fee tx' i : past cc K X s -> tx_checked cc h s tx utxos fee -> i ∈ tx_inputs tx -> (forall c, i <> InOrder c) -> tx' ∈ X -> i ∉ tx_inputs tx'.
Proof.
  intros HP HC Hi Hno Hx Hi'. destruct i as [k|n del a|n c|c]; [| | |destruct (Hno c eq_refl)].
  - destruct (spent_present _ _ _ _ _ _ HC k (in_spent _ _ Hi)) as [u Hu]. pose proof (proj2 (pa_spent _ _ _ _ HP _ _ Hx Hi')) as G. congruence.
  - pose proof (tc_nonces _ _ _ _ _ _ HC _ _ _ Hi eq_refl). pose proof (pa_nonces _ _ _ _ HP _ _ _ _ Hx Hi' eq_refl). lia.
  - pose proof (tc_nonces _ _ _ _ _ _ HC _ _ _ Hi eq_refl). pose proof (pa_nonces _ _ _ _ HP _ _ _ _ Hx Hi' eq_refl). lia.
Qed.

Lemma fungibles_id h tx id : id ∈ fungibles_by cc h tx -> token_id cc h (tx_inputs tx) = Some id.
Proof.
  unfold fungibles_by, token_id. intros H. apply elem_of_list_In, in_concat in H as (l & Hl & H). apply in_map_iff in Hl as (o & <- & _).
  destruct o; try destruct H. destruct (make_token_id cc h (tx_inputs tx)); try destruct H as [<-|[]]; try destruct H; reflexivity.
Qed.
Lemma no_nft outs id : count is_issuance outs = 0%nat -> id ∉ concat (map (fun o => match o with OIssueNft id _ _ => [id] | _ => [] end) outs).
Proof.
  induction outs as [|o l IH]; intros Hc H; [cbn in H; inversion H|]. rewrite count_cons in Hc. cbn [map concat] in H.
  destruct o; cbn [is_issuance] in Hc; try discriminate Hc; cbn [app] in H; revert H; apply IH; exact Hc.
Qed.
Lemma nft_issued outs id : id ∈ concat (map (fun o => match o with OIssueNft id _ _ => [id] | _ => [] end) outs) -> (count is_issuance outs <= 1)%nat -> issued_nft outs = Some id.
Proof.
  induction outs as [|o l IH]; intros H Hc; [cbn in H; inversion H|]. rewrite count_cons in Hc. cbn [map concat] in H.
  destruct o; cbn [app] in H; cbn [issued_nft]; cbn [is_issuance] in Hc; try (apply IH; [exact H|lia]).
  apply elem_of_cons in H as [->|H]; [reflexivity|]. apply no_nft in H; [destruct H|lia].
Qed.
Lemma issued_in outs id : issued_nft outs = Some id -> id ∈ concat (map (fun o => match o with OIssueNft id _ _ => [id] | _ => [] end) outs).
Proof. induction outs as [|o l IH]; [discriminate|]. cbn [issued_nft map concat]. destruct o; try exact IH. intros [= ->]. left. Qed.
Lemma new_ids h s tx utxos fee : tx_checked cc h s tx utxos fee -> forall b x s', tx_done cc h b s tx x s' ->
  NoDup (fungibles_by cc h tx ++ nfts_by tx) /\ forall id, id ∈ fungibles_by cc h tx ++ nfts_by tx -> token_id cc h (tx_inputs tx) = Some id.
Proof.
  intros HC b x s' HD. pose proof (tc_issuance _ _ _ _ _ _ HC) as Hc. split.
  - pose (f := fun o => match o, make_token_id cc h (tx_inputs tx) with OIssueFungibleToken _, Ok id => [id] | _, _ => [] end).
    pose (n := fun o => match o with OIssueNft id _ _ => [id] | _ => [] end).
    unfold fungibles_by, nfts_by. fold f. fold n. assert (forall l, count is_issuance l = 0%nat -> concat (map f l) = [] /\ concat (map n l) = []) as H0.
    { induction l as [|o l IH]; [auto|]. rewrite count_cons. cbn [map concat]. intros G. destruct IH as [-> ->]; [lia|]. destruct o; cbn in G; try lia; auto. }
    revert Hc. generalize (tx_outputs tx). induction l as [|o l IH]; intros Hc; [constructor|]. rewrite count_cons in Hc. cbn [map concat].
    destruct (is_issuance o) eqn:E.
    + destruct (H0 l) as [-> ->]; [lia|]. rewrite !app_nil_r. destruct o; try discriminate E; cbn; [destruct (make_token_id cc h (tx_inputs tx)); cbn|]; first [apply NoDup_singleton|apply NoDup_nil_2].
    + assert (f o = [] /\ n o = []) as [-> ->] by (destruct o; try discriminate E; auto). apply IH. lia.
  - intros id H. apply elem_of_app in H as [H|H]; [exact (fungibles_id _ _ _ H)|]. apply nft_issued in H; [|exact Hc].
    pose proof (td_aux _ _ _ _ _ _ _ HD) as HA. rewrite H in HA. exact (proj1 HA).
Qed.

(** Operations on tokens *)
Lemma tok_step_data T o T' id : tok_step T o = Ok T' -> (is_Some (ts_data T' id) <-> is_Some (ts_data T id) \/ exists d, o = IssueToken id d).
Proof.
  intros H.
  assert ((exists d, o = IssueToken id d /\ T' = put_token T id d) \/ ((forall d, o <> IssueToken id d) /\ (is_Some (ts_data T' id) <-> is_Some (ts_data T id)))) as [(d & -> & ->)|[G1 G2]].
  - assert (forall i t t', ts_data T i = Some t -> (is_Some (ts_data (put_token T i t') id) <-> is_Some (ts_data T id))) as G.
    { intros i t t' E. cbn. destruct (decide (i = id)) as [->|]; [rewrite E; split; eauto|reflexivity]. }
    destruct o as [i d|i a|i a|i|i u|i|i d|i uri]; cbn [tok_step] in H; destruct (ts_data T i) as [t|] eqn:E; try discriminate H.
    1: { destruct (decide _) in H; [|discriminate H]. injection H as <-. destruct (decide (i = id)) as [->|Hne]; [left; eauto|].
         right. split; [intros d' [=]; congruence|]. cbn. rewrite decide_False by exact Hne. reflexivity. }
    all: right; split; [discriminate|].
    all: repeat match type of H with context [match ?x with _ => _ end] => destruct x; try discriminate H end.
    all: injection H as <-; first [reflexivity|exact (G _ _ _ E)].
  - cbn. rewrite decide_True by reflexivity. split; [intros _; right; eauto|eauto].
  - rewrite G2. split; [auto|]. intros [G|[d ->]]; [exact G|destruct (G1 d eq_refl)].
Qed.
Lemma tok_ran_data id : forall ops T T', ran tok_step T ops T' -> (is_Some (ts_data T' id) <-> is_Some (ts_data T id) \/ exists d, IssueToken id d ∈ ops).
Proof.
  induction ops as [|o ops IH]; intros T T' H; cbn [ran] in H.
  - subst. split; [auto|]. intros [G|(d & G)]; [exact G|inversion G].
  - destruct H as (T1 & H1 & H). rewrite (IH _ _ H), (tok_step_data _ _ _ _ H1). split.
    + intros [ [G|(d & ->)] | (d & G) ]; [auto|right; exists d; left|right; exists d; right; exact G].
    + intros [G|(d & G)]; [auto|]. apply elem_of_cons in G as [<-|G]; eauto.
Qed.
Lemma tok_issues h tx id : (exists d, IssueToken id d ∈ tok_ops cc h tx) <-> id ∈ fungibles_by cc h tx.
Proof.
  unfold tok_ops, fungibles_by. split.
  - intros (d & H). apply elem_of_app in H as [H|H].
    + apply elem_of_list_In, in_concat in H as (l & Hl & H). apply in_map_iff in Hl as (i & <- & _). exfalso. destruct i as [| |n c|]; cbn [tok_ops_in] in H; try destruct H.
      destruct c; cbn in H; try destruct (0 <? _); cbn in H; repeat destruct H as [H|H]; try discriminate H; try destruct H.
    + apply elem_of_list_In, in_concat in H as (l & Hl & H). apply in_map_iff in Hl as (o & <- & Ho). apply elem_of_list_In, in_concat.
      eexists. split; [apply in_map_iff; exists o; split; [reflexivity|exact Ho]|]. destruct o; cbn [tok_ops_out] in H; try destruct H. unfold token_id in H.
      destruct (make_token_id cc h (tx_inputs tx)); [|destruct H..]. destruct H as [H|[]]. injection H as -> _. left. reflexivity.
  - intros H. apply elem_of_list_In, in_concat in H as (l & Hl & H). apply in_map_iff in Hl as (o & <- & Ho). destruct o as [| | | | | | |x| | | |]; try destruct H.
    destruct (make_token_id cc h (tx_inputs tx)) eqn:E; [|destruct H..]. destruct H as [->|[]]. exists (token_of x). apply elem_of_app. right. apply elem_of_list_In, in_concat.
    eexists. split; [apply in_map_iff; exists (OIssueFungibleToken x); split; [reflexivity|exact Ho]|]. cbn. unfold token_id. rewrite E. left. reflexivity.
Qed.

Lemma genesis_nodup : NoDup (map fst (genesis_keys g)).
Proof.
  unfold genesis_keys. rewrite map_map. cbn [fst]. rewrite <- (map_map fst (fun i => (FromReward (g_id g), i))). apply NoDup_fmap_2; [intros i j [= ->]; reflexivity|apply enumerate_nodup].
Qed.
Lemma tokens_genesis P : ran pos_step no_stakes (concat (map pool_op (g_outputs g))) P -> tokens_ok [] (genesis_books g P).
Proof.
  intros _. constructor; cbn [genesis_books k_tok no_tokens ts_data k_aux k_utxo us_map].
  - intros id H. inversion H.
  - constructor.
  - intros id. split; [intros [? [=]]|intros H; inversion H].
  - intros id. split; [intros [? [=]]|intros H; inversion H].
  - intros k u id dat d Hk Ho. right. rewrite <- Ho. destruct (decide (k ∈ map fst (genesis_keys g))) as [Hin|Hnin].
    + apply elem_of_list_fmap in Hin as ([k' o] & -> & Hin). cbn [fst] in Hk.
      rewrite (put_all_at _ _ _ _ _ (genesis_nodup) Hin) in Hk. injection Hk as <-. cbn [u_output].
      unfold genesis_keys in Hin. apply elem_of_list_fmap in Hin as ([i o'] & [= -> ->] & Hin). clear -Hin. unfold enumerate in Hin. revert Hin. generalize 0.
      induction (g_outputs g) as [|o l IH]; intros j Hin; cbn in Hin; [inversion Hin|]. apply elem_of_cons in Hin as [[= _ ->]|Hin]; [left|right; exact (IH _ Hin)].
    + rewrite put_all_other in Hk by exact Hnin. discriminate Hk.
Qed.
Lemma tokens_tx b K B L n D s tx utxos fee x s' : fine cc K B (map snd L) n D s -> ~ K (FromTx (tx_id tx)) -> tx_checked cc (b_height b) s tx utxos fee ->
  tx_done cc (b_height b) (b_id b) s tx x s' -> tokens_ok L s -> tokens_ok (L ++ [(b_height b, tx)]) s'.
Proof.
  intros HF HK HC HD [J1 J2 J3 J4 J5]. destruct (new_ids _ _ _ _ _ HC _ _ _ HD) as [N1 N2].
  assert (forall id, id ∈ fungibles_by cc (b_height b) tx ++ nfts_by tx -> id ∉ fungibles_in cc L ++ nfts_in L) as Hnew.
  { intros id H G. destruct (token_id_input _ _ _ _ _ _ HC (N2 _ H)) as (i & Hi & Hno & ->). destruct (J1 _ G) as (tx' & i' & Hx & Hi' & _ & E).
    apply (proj1 Htok) in E as <-. exact (input_new _ _ _ _ _ _ _ _ _ (fi_past _ _ _ _ _ _ _ HF) HC Hi Hno Hx Hi'). }
  constructor; rewrite ?fungibles_snoc, ?nfts_snoc.
  - intros id H. rewrite !elem_of_app in H. rewrite map_app. cbn [map snd].
    assert (id ∈ fungibles_in cc L ++ nfts_in L \/ id ∈ fungibles_by cc (b_height b) tx ++ nfts_by tx) as [G|G] by (rewrite !elem_of_app; tauto).
    + destruct (J1 _ G) as (tx' & i & Hx & A). exists tx', i. split; [apply elem_of_app; left; exact Hx|exact A].
    + destruct (token_id_input _ _ _ _ _ _ HC (N2 _ G)) as (i & A). exists tx, i. split; [apply elem_of_app; right; left|exact A].
  - apply NoDup_app in J2 as (A1 & A2 & A3), N1 as (B1 & B2 & B3).
    assert (forall id, id ∈ fungibles_by cc (b_height b) tx \/ id ∈ nfts_by tx -> id ∉ fungibles_in cc L /\ id ∉ nfts_in L) as Hn.
    { intros id G. specialize (Hnew id). rewrite !elem_of_app in Hnew. tauto. }
    apply NoDup_app. split; [|split].
    + apply NoDup_app. split; [exact A1|]. split; [|exact B1]. intros id G1 G2. exact (proj1 (Hn id (or_introl G2)) G1).
    + intros id G1 G2. apply elem_of_app in G1, G2. destruct G1 as [G1|G1], G2 as [G2|G2].
      * exact (A2 _ G1 G2).
      * exact (proj1 (Hn id (or_intror G2)) G1).
      * exact (proj2 (Hn id (or_introl G1)) G2).
      * exact (B2 _ G1 G2).
    + apply NoDup_app. split; [exact A3|]. split; [|exact B3]. intros id G1 G2. exact (proj2 (Hn id (or_intror G2)) G1).
  - intros id. rewrite (tok_ran_data id _ _ _ (td_tran _ _ _ _ _ _ _ HD)), J3, tok_issues, elem_of_app. reflexivity.
  - intros id. rewrite elem_of_app, <- J4. pose proof (td_aux _ _ _ _ _ _ _ HD) as HA. destruct (issued_nft (tx_outputs tx)) as [t|] eqn:Et.
    + destruct HA as (_ & _ & _ & HA & _). rewrite HA. unfold set_at. destruct (decide _) as [E|Hne].
      * split; [|eauto]. intros _. right. subst. apply issued_in. exact Et.
      * split; [auto|]. intros [G|G]; [exact G|]. apply nft_issued in G; [congruence|exact (tc_issuance _ _ _ _ _ _ HC)].
    + rewrite (proj1 HA). split; [auto|]. intros [G|G]; [exact G|]. apply nft_issued in G; [congruence|exact (tc_issuance _ _ _ _ _ _ HC)].
  - intros k u id dat d Hk Ho. rewrite elem_of_app. destruct (tx_utxos _ _ _ _ _ _ _ HD _ _ Hk) as [[_ G]|[_ G]].
    + left. right. rewrite Ho in G. unfold nfts_by. apply elem_of_list_In, in_concat. exists [id]. split; [|left; reflexivity].
      apply in_map_iff. exists (OIssueNft id dat d). split; [reflexivity|apply elem_of_list_In; exact G].
    + destruct (J5 _ _ _ _ _ G Ho); auto.
Qed.
Lemma tokens_reward b K B L n D s fees y s' : fine cc K B (map snd L) n D s -> ~ K (FromReward (b_id b)) -> reward_checked cc b s fees ->
  reward_done b (subsidy_of cc b + fees) s y s' -> tokens_ok L s -> tokens_ok L (with_best s' (b_id b)).
Proof.
  intros HF HK HC HD [J1 J2 J3 J4 J5]. constructor; cbn [with_best k_tok k_aux k_utxo us_map]; [exact J1|exact J2|rewrite (rd_tok _ _ _ _ _ HD); exact J3|rewrite (rd_aux _ _ _ _ _ HD); exact J4|].
  intros k u id dat d Hk Ho. destruct (reward_utxos _ _ _ _ _ HD _ _ Hk) as [[_ G]|G]; [|exact (J5 _ _ _ _ _ G Ho)]. exfalso. rewrite Ho in G. unfold reward_checked in HC.
  destruct (b_pos b) as [[ins pool]|].
  - destruct HC as (k' & u' & p & d1 & d2 & _ & _ & _ & E). rewrite E in G. apply elem_of_list_singleton in G. discriminate G.
  - destruct HC as [HC _]. rewrite forallb_forall in HC. apply elem_of_list_In, HC in G. discriminate G.
Qed.
Lemma tokens_hist bs db s : hist cc g bs db s -> tokens_ok (dated_txs bs) s.
Proof. exact (hist_inv_at cc g Hids tokens_ok bs db s tokens_genesis tokens_tx tokens_reward). Qed.
End ids.

(** ** Frozen tokens *)
Lemma ord_step_kept O o O' oid d : ord_step O o = Ok O' -> os_data O oid = Some d -> o <> ConcludeOrder oid -> (forall a v, o <> FillOrder oid a v) ->
  exists d', os_data O' oid = Some d' /\ od_ask d' = od_ask d /\ od_give d' = od_give d /\ os_ask O' oid = os_ask O oid /\ os_give O' oid = os_give O oid.
Proof.
  intros H E Hc Hf. destruct o as [i x|i|i a ver|i]; cbn [ord_step] in H.
  - destruct (os_data O i) eqn:Ei; [discriminate H|]. destruct (side_amount (od_ask x)); [|discriminate H]. destruct (side_amount (od_give x)); [|discriminate H].
    destruct (decide _); [discriminate H|]. injection H as <-. cbn. rewrite !decide_False by congruence. exists d. auto.
  - destruct (os_data O i); [|discriminate H]. injection H as <-. cbn. rewrite !decide_False by congruence. exists d. auto.
  - destruct (os_data O i) as [x|] eqn:Ei; [|discriminate H]. destruct (od_frozen x); [discriminate H|]. destruct (decide _); [discriminate H|].
    assert (exists a g, O' = put_order O i (Some x) a g) as (a' & g' & ->).
    { destruct ver; [|destruct (side_amount (od_ask x)); [|discriminate H]; destruct (side_amount (od_give x)); [|discriminate H]];
        (destruct (decide _) in H; [discriminate H|]; injection H as <-; eauto). }
    assert (i <> oid) by (intros ->; exact (Hf a ver eq_refl)). cbn. rewrite !decide_False by assumption. exists d. auto.
  - destruct (os_data O i) as [x|] eqn:Ei; [|discriminate H]. destruct (od_frozen x) eqn:Ef; [discriminate H|]. injection H as <-. cbn.
    destruct (decide (i = oid)) as [->|]; [|exists d; auto]. rewrite E in Ei. injection Ei as <-. eexists. split; [reflexivity|]. cbn. auto.
Qed.
Lemma ord_ran_kept oid : forall ops O O' d, ran ord_step O ops O' -> os_data O oid = Some d -> ConcludeOrder oid ∉ ops -> (forall a v, FillOrder oid a v ∉ ops) ->
  exists d', os_data O' oid = Some d' /\ od_ask d' = od_ask d /\ od_give d' = od_give d /\ os_ask O' oid = os_ask O oid /\ os_give O' oid = os_give O oid.
Proof.
  induction ops as [|o ops IH]; intros O O' d H E Hc Hf; cbn [ran] in H; [subst; exists d; auto|]. destruct H as (O1 & H1 & H).
  destruct (ord_step_kept _ _ _ _ _ H1 E) as (d1 & E1 & A1 & A2 & A3 & A4); [intros ->; apply Hc; left|intros a v ->; apply (Hf a v); left|].
  destruct (IH _ _ _ H E1) as (d2 & E2 & B1 & B2 & B3 & B4); [intros G; apply Hc; right; exact G|intros a v G; apply (Hf a v); right; exact G|].
  exists d2. split; [exact E2|]. repeat split; congruence.
Qed.
Lemma ord_ops_moved cc tx op oid : op ∈ ord_ops cc tx -> op = ConcludeOrder oid \/ (exists a v, op = FillOrder oid a v) -> exists i, i ∈ tx_inputs tx /\ order_moved i = Some oid.
Proof.
  intros H Ho. unfold ord_ops in H. apply elem_of_app in H as [H|H].
  - apply elem_of_list_In, in_concat in H as (l & Hl & H). apply in_map_iff in Hl as (i & <- & Hi). exists i. split; [apply elem_of_list_In; exact Hi|].
    destruct i as [| |n c|c]; try destruct H; destruct c; cbn in H; try destruct H as [H|[]]; try destruct H; cbn [order_moved]; destruct Ho as [[=]|(a' & v & [=])]; congruence.
  - destruct (ord_outs_ops _ _ _ _ H) as (d & k & _ & _ & ->). destruct Ho as [[=]|(a & v & [=])].
Qed.

Lemma units_none id v n : id ∉ value_tokens v -> value (of_currency (Token id)) (units v n) = 0.
Proof.
  intros H. destruct v as [a| |i a]; cbn [units]; [reflexivity..|]. rewrite value_one. unfold of_currency. rewrite bool_decide_eq_false_2; [reflexivity|].
  intros E. apply H. cbn. replace i with id by congruence. left.
Qed.
Lemma coins_none id n : value (of_currency (Token id)) [Portion Coin 0 n] = 0.
Proof. rewrite value_one. reflexivity. Qed.
Lemma kept_none id o : id ∉ moves o -> (forall dat d, o <> OIssueNft id dat d) -> value (of_currency (Token id)) (kept o) = 0.
Proof.
  intros H Hn. destruct o; cbn [kept moves] in *; try reflexivity; try (apply units_none; exact H). rewrite value_one. unfold of_currency.
  rewrite bool_decide_eq_false_2; [reflexivity|]. intros [= ->]. exact (Hn _ _ eq_refl).
Qed.

Section frozen.
Context (cc : chain_config) (g : genesis) (id : N).
Hypothesis Hids : ids_distinct cc g.
Hypothesis Htok : token_ids_distinct cc.
Hypothesis Hgen : created_at_genesis g (Token id) = 0.
Notation held_at s := (holding (us_map (k_utxo s)) (k_pos s) (k_ord s) (Token id)).

Lemma not_at_genesis dat d : OIssueNft id dat d ∉ g_outputs g.
Proof.
  intros H. unfold created_at_genesis in Hgen. revert Hgen. apply elem_of_list_split in H as (l1 & l2 & ->). rewrite sum_over_app, sum_over_cons.
  cbn [kept]. rewrite value_one. replace (of_currency (Token id) (Token id) 0) with true; [lia|]. symmetry. apply bool_decide_eq_true_2. reflexivity.
Qed.
Record unmoved (s0 s : books) : Prop := {
  um_held : forall x, held_at s x = held_at s0 x; um_data : ts_data (k_tok s) id = ts_data (k_tok s0) id; um_supply : ts_supply (k_tok s) id = ts_supply (k_tok s0) id }.

Lemma tok_step_other T o T' : tok_step T o = Ok T' -> is_Some (ts_data T id) ->
  match o with MintTokens i _ | UnmintTokens i _ | LockSupply i | FreezeToken i _ | UnfreezeToken i | ChangeAuthority i _ | ChangeMetadataUri i _ => i <> id | IssueToken _ _ => True end ->
  ts_data T' id = ts_data T id /\ ts_supply T' id = ts_supply T id.
Proof.
  intros H Hs Ho.
  assert (forall i t', i <> id -> ts_data (put_token T i t') id = ts_data T id /\ ts_supply (put_token T i t') id = ts_supply T id) as G1.
  { intros i t' Hi. cbn. rewrite decide_False by exact Hi. auto. }
  assert (forall i a, i <> id -> ts_data (put_supply T i a) id = ts_data T id /\ ts_supply (put_supply T i a) id = ts_supply T id) as G2.
  { intros i a Hi. cbn. rewrite decide_False by exact Hi. auto. }
  destruct o as [i d|i a|i a|i|i u|i|i d|i uri]; cbn [tok_step] in H; destruct (ts_data T i) as [t|] eqn:E; try discriminate H.
  1: { destruct (decide _) in H; [|discriminate H]. injection H as <-. apply G1. intros ->. rewrite E in Hs. destruct Hs as [? [=]]. }
  all: repeat match type of H with context [match ?x with _ => _ end] => destruct x; try discriminate H end.
  all: injection H as <-; first [apply G1; exact Ho|apply G2; exact Ho].
Qed.
Lemma tok_ran_other : forall ops T T', ran tok_step T ops T' -> is_Some (ts_data T id) ->
  (forall o, o ∈ ops -> match o with MintTokens i _ | UnmintTokens i _ | LockSupply i | FreezeToken i _ | UnfreezeToken i | ChangeAuthority i _ | ChangeMetadataUri i _ => i <> id | IssueToken _ _ => True end) ->
  ts_data T' id = ts_data T id /\ ts_supply T' id = ts_supply T id.
Proof.
  induction ops as [|o ops IH]; intros T T' H Hs Ho; cbn [ran] in H; [subst; auto|]. destruct H as (T1 & H1 & H).
  destruct (tok_step_other _ _ _ H1 Hs (Ho _ (elem_of_list_here _ _))) as [A1 A2]. rewrite <- A1, <- A2. apply IH; [exact H|rewrite A1; exact Hs|]. intros o' Ho'. apply Ho. right. exact Ho'.
Qed.

Lemma spent_in ins k : k ∈ spent_by ins -> InUtxo k ∈ ins.
Proof.
  induction ins as [|i ins IH]; intros H; [inversion H|]. destruct i; cbn [spent_by] in H; try (right; exact (IH H)). apply elem_of_cons in H as [->|H]; [left|right; exact (IH H)].
Qed.
Lemma frozen_tx b K B L n D s tx utxos fee x s' : fine cc K B (map snd L) n D s -> ~ K (FromTx (tx_id tx)) -> tx_checked cc (b_height b) s tx utxos fee ->
  tx_done cc (b_height b) (b_id b) s tx x s' -> tokens_ok cc g L s -> ru_frozen_checks (cc_rules cc (b_height b)) = true ->
  tok_frozen (k_tok s) id -> (forall n, InCommand n (CmdUnfreeze id) ∉ tx_inputs tx) -> unmoved s s'.
Proof.
  intros HF HK HC HD HT Hru Hfr Hno. destruct (tc_frozen _ _ _ _ _ _ HC _ Hfr) as [F1 F2 F3 F4]. specialize (F2 Hru).
  destruct Hfr as (t & Ht & Hfr). assert (is_Some (ts_data (k_tok s) id)) as Hs by (rewrite Ht; eauto).
  assert (forall U L', tokens_ok cc g L' U -> is_Some (ts_data (k_tok U) id) -> forall k u dat d, us_map (k_utxo U) k = Some u -> u_output u <> OIssueNft id dat d) as Hnft.
  { intros U L' HT' Hd k u dat d Hk Ho. destruct (tk_utxo _ _ _ _ HT' _ _ _ _ _ Hk Ho) as [G|G]; [|exact (not_at_genesis _ _ G)].
    apply (tk_data _ _ _ _ HT') in Hd. destruct (proj1 (NoDup_app _ _) (tk_once _ _ _ _ HT')) as (_ & G' & _). exact (G' _ Hd G). }
  destruct (tok_ran_other _ _ _ (td_tran _ _ _ _ _ _ _ HD) Hs) as [E1 E2].
  { intros o Ho. unfold tok_ops in Ho. apply elem_of_app in Ho as [Ho|Ho].
    - apply elem_of_list_In, in_concat in Ho as (l & Hl & Ho). apply in_map_iff in Hl as (i & <- & Hi). apply elem_of_list_In in Hi.
      destruct i as [| |m c|]; try destruct Ho. pose proof (F4 _ _ Hi) as G.
      destruct c; cbn in Ho; try destruct (0 <? _); cbn in Ho; try destruct Ho as [<-|[]]; try destruct Ho; intros ->; specialize (G eq_refl); try discriminate G. exact (Hno _ Hi).
    - apply elem_of_list_In, in_concat in Ho as (l & Hl & Ho). apply in_map_iff in Hl as (o' & <- & _). destruct o'; try destruct Ho. cbn in Ho.
      destruct (token_id _ _ _); [destruct Ho as [<-|[]]; exact Logic.I|destruct Ho]. }
  pose proof (tokens_tx cc g Htok _ _ _ _ _ _ _ _ _ _ _ _ HF HK HC HD HT) as HT'.
  assert (forall o, (exists d d', os_data (k_ord s) o = Some d /\ os_data (k_ord s') o = Some d' /\ od_ask d' = od_ask d /\ od_give d' = od_give d /\
    os_ask (k_ord s') o = os_ask (k_ord s) o /\ os_give (k_ord s') o = os_give (k_ord s) o) \/
    ((forall d, os_data (k_ord s) o = Some d -> id ∉ order_tokens d) /\ (forall d, os_data (k_ord s') o = Some d -> id ∉ order_tokens d))) as Hord.
  { intros o. pose proof (td_oran _ _ _ _ _ _ _ HD) as HO.
    assert ((exists d, os_data (k_ord s) o = Some d /\ id ∈ order_tokens d) \/ forall d, os_data (k_ord s) o = Some d -> id ∉ order_tokens d) as [(d & Ed & Hd)|Hn].
    { destruct (os_data (k_ord s) o) as [d|]; [|right; discriminate]. destruct (decide (id ∈ order_tokens d)); [left; eauto|right; intros ? [= <-]; assumption]. }
    - left. exists d. destruct (ord_ran_kept o _ _ _ _ HO Ed) as (d' & A).
      + intros G. destruct (ord_ops_moved _ _ _ o G (or_introl eq_refl)) as (i & Hi & Ei). exact (F3 _ _ _ Hi Ei Ed Hd).
      + intros a v G. destruct (ord_ops_moved _ _ _ o G) as (i & Hi & Ei); [right; eauto|]. exact (F3 _ _ _ Hi Ei Ed Hd).
      + exists d'. split; [exact Ed|]. exact A.
    - right. split; [exact Hn|]. intros d' Ed'. destruct (ord_ran_data _ _ _ _ _ HO Ed') as [(d & Ed & A1 & A2 & _)|(d & Hd & A1 & A2 & _)].
      + specialize (Hn _ Ed). unfold order_tokens in *. rewrite A1, A2. exact Hn.
      + unfold ord_ops in Hd. apply elem_of_app in Hd as [Hd|Hd]; [destruct (ord_ins_ops _ _ _ Hd)|]. destruct (ord_outs_ops _ _ _ _ Hd) as (d0 & k & Ho & _ & [= _ ->]).
        specialize (F1 _ Ho). cbn [moves] in F1. unfold order_tokens in *. rewrite A1, A2. exact F1. }
  constructor; [|exact E1|exact E2]. intros [k|p|d|o|o]; cbn [holding].
  - assert (forall u, us_map (k_utxo s') k = Some u -> us_map (k_utxo s) k = None -> value (of_currency (Token id)) (kept (u_output u)) = 0) as G1.
    { intros u Hu Hn. destruct (tx_utxos _ _ _ _ _ _ _ HD _ _ Hu) as [[_ G]|[_ G]]; [|congruence]. apply kept_none; [exact (F1 _ G)|]. intros dat d. refine (Hnft _ _ HT' _ _ _ dat d Hu). rewrite E1. exact Hs. }
    destruct (us_map (k_utxo s) k) as [u|] eqn:Eu.
    + destruct (us_map (k_utxo s') k) as [u'|] eqn:Eu'.
      * destruct (tx_utxos _ _ _ _ _ _ _ HD _ _ Eu') as [[G _]|[_ G]]; [|congruence]. destruct HK. rewrite <- G. exact (kn_utxo _ _ _ _ (fi_known _ _ _ _ _ _ _ HF) _ _ Eu).
      * symmetry. apply kept_none; [|intros dat d; exact (Hnft _ _ HT Hs _ _ dat d Eu)]. apply (F2 k u); [|exact Eu].
        destruct (decide (k ∈ spent_by (tx_inputs tx))) as [G|G]; [exact (spent_in _ _ G)|]. exfalso. pose proof (td_ustep _ _ _ _ _ _ _ HD) as HU. cbn [utxo_step] in HU.
        destruct (take_all (us_map (k_utxo s)) (spent_by (tx_inputs tx))) as [U1|] eqn:ET; [|discriminate HU]. injection HU as HU. rewrite <- HU in Eu'. cbn [set_map us_map] in Eu'.
        rewrite put_all_other in Eu'. { rewrite (proj2 (proj2 (take_all_spec _ _ _ ET)) _ G) in Eu'. congruence. }
        intros Hin. apply created_src in Hin. apply HK. rewrite <- Hin. exact (kn_utxo _ _ _ _ (fi_known _ _ _ _ _ _ _ HF) _ _ Eu).
    + destruct (us_map (k_utxo s') k) as [u'|]; [exact (G1 _ eq_refl eq_refl)|reflexivity].
  - destruct (ps_pool (k_pos s') p), (ps_pool (k_pos s) p); rewrite ?coins_none; reflexivity.
  - rewrite !coins_none. reflexivity.
  - destruct (Hord o) as [(d & d' & G1 & G2 & G3 & G4 & G5 & G6)|[G G']]; [rewrite G1, G2, ?G3, ?G4, ?G5, ?G6; reflexivity|].
    destruct (os_data (k_ord s) o) as [d|], (os_data (k_ord s') o) as [d'|]; try reflexivity.
    + rewrite !units_none; [reflexivity| |]; intros Hx; [apply (G _ eq_refl)|apply (G' _ eq_refl)]; apply elem_of_app; left; exact Hx.
    + rewrite units_none; [reflexivity|]. intros Hx. apply (G _ eq_refl), elem_of_app; left; exact Hx.
    + rewrite units_none; [reflexivity|]. intros Hx. apply (G' _ eq_refl), elem_of_app; left; exact Hx.
  - destruct (Hord o) as [(d & d' & G1 & G2 & G3 & G4 & G5 & G6)|[G G']]; [rewrite G1, G2, ?G3, ?G4, ?G5, ?G6; reflexivity|].
    destruct (os_data (k_ord s) o) as [d|], (os_data (k_ord s') o) as [d'|]; try reflexivity.
    + rewrite !units_none; [reflexivity| |]; intros Hx; [apply (G _ eq_refl)|apply (G' _ eq_refl)]; apply elem_of_app; right; exact Hx.
    + rewrite units_none; [reflexivity|]. intros Hx. apply (G _ eq_refl), elem_of_app; right; exact Hx.
    + rewrite units_none; [reflexivity|]. intros Hx. apply (G' _ eq_refl), elem_of_app; right; exact Hx.
Qed.

Lemma reward_holds_none cf outs : forallb is_lock outs = true -> value (of_currency (Token id)) (needed cf outs) = 0 ->
  forall o, o ∈ outs -> value (of_currency (Token id)) (kept o) = 0.
Proof.
  induction outs as [|o l IH]; intros Hl Hv x Hx; [inversion Hx|]. cbn [forallb] in Hl. apply andb_true_iff in Hl as [H1 H2]. rewrite needed_cons, value_app in Hv.
  apply elem_of_cons in Hx as [->|Hx]; [|apply IH; [exact H2|lia|exact Hx]]. destruct o as [|v d t| | | | | | | | | |]; try discriminate H1. cbn [kept output_costs] in *.
  destruct v as [a| |i a]; [exact (coins_none id a)|reflexivity|lia].
Qed.
Lemma frozen_reward b K B (L : list (N * transaction)) n D s fees y s' : fine cc K B (map snd L) n D s -> ~ K (FromReward (b_id b)) -> reward_checked cc b s fees ->
  reward_done b (subsidy_of cc b + fees) s y s' -> unmoved s (with_best s' (b_id b)).
Proof.
  intros HF HK HC HD. constructor; cbn [with_best k_tok k_utxo k_pos k_ord us_map]; rewrite ?(rd_tok _ _ _ _ _ HD); [|reflexivity|reflexivity].
  intros [k|p|d|o|o]; cbn [holding].
  - pose proof (rd_ustep _ _ _ _ _ HD) as HU. cbn [utxo_step] in HU. unfold reward_of in HU. cbn [rt_inputs rt_outputs] in HU.
    assert (forall o, o ∈ b_reward b -> value (of_currency (Token id)) (kept o) = 0) as Hnew.
    { unfold reward_checked in HC. destruct (b_pos b) as [[ins pool]|].
      - destruct HC as (k' & u & q & d & d' & _ & _ & _ & ->). intros o Ho. apply elem_of_list_singleton in Ho as ->. reflexivity.
      - destruct HC as [Hlock (r & Hr)]. exact (reward_holds_none _ _ Hlock (proj2 (reward_values_bounded _ _ _ _ _ Hr) id)). }
    destruct (us_map (k_utxo s') k) as [u'|] eqn:Eu'.
    + destruct (reward_utxos _ _ _ _ _ HD _ _ Eu') as [[G1 G2]|G]; [|rewrite G; reflexivity]. rewrite (Hnew _ G2).
      destruct (us_map (k_utxo s) k) as [u|] eqn:Eu; [|reflexivity]. destruct HK. rewrite <- G1. exact (kn_utxo _ _ _ _ (fi_known _ _ _ _ _ _ _ HF) _ _ Eu).
    + destruct (us_map (k_utxo s) k) as [u|] eqn:Eu; [|reflexivity].
      destruct (take_all (us_map (k_utxo s)) _) as [U1|] eqn:E1; [|discriminate HU]. destruct (forallb spendable _); [|discriminate HU]. injection HU as HU. rewrite <- HU in Eu'. cbn [set_map us_map] in Eu'.
      rewrite put_all_other in Eu'.
      2: { intros Hin. apply created_src in Hin. apply HK. rewrite <- Hin. exact (kn_utxo _ _ _ _ (fi_known _ _ _ _ _ _ _ HF) _ _ Eu). }
      unfold reward_checked in HC. destruct (b_pos b) as [[ins pool]|].
      * destruct HC as (k' & u' & q & d & d' & -> & Hk' & Hp & _). cbn [option_map fst option_list spent_by take_all] in E1. rewrite Hk' in E1. injection E1 as <-. unfold upd in Eu'.
        destruct (decide (k' = k)) as [->|]; [|congruence]. rewrite Hk' in Eu. injection Eu as <-. destruct (u_output u'); try discriminate Hp; reflexivity.
      * cbn in E1. congruence.
  - destruct (ps_pool (k_pos s') p), (ps_pool (k_pos s) p); rewrite ?coins_none; reflexivity.
  - rewrite !coins_none. reflexivity.
  - rewrite (rd_ord _ _ _ _ _ HD). reflexivity.
  - rewrite (rd_ord _ _ _ _ _ HD). reflexivity.
Qed.
Lemma unmoved_trans s1 s2 s3 : unmoved s1 s2 -> unmoved s2 s3 -> unmoved s1 s3.
Proof. intros [A1 A2 A3] [B1 B2 B3]. constructor; [intros x; rewrite B1; apply A1|congruence..]. Qed.

Lemma frozen_block bs db s b s' : hist cc g bs db s -> block_done cc b s s' -> no_collision g bs b -> b_id b ∉ map b_id bs -> ~ used g bs (FromReward (b_id b)) ->
  ru_frozen_checks (cc_rules cc (b_height b)) = true -> tok_frozen (k_tok s) id -> never_unfreezes b id -> unmoved s s'.
Proof.
  intros H HD Hn Hb Hk Hru Hfr Hno.
  pose (J := fun L s1 => tokens_ok cc g L s1 /\ exists l, L = dated_txs bs ++ l /\ ((forall tx n, tx ∈ map snd l -> InCommand n (CmdUnfreeze id) ∉ tx_inputs tx) -> unmoved s s1)).
  assert (forall s1, unmoved s s1 -> tok_frozen (k_tok s1) id) as Hk1.
  { intros s1 [_ E _]. destruct Hfr as (t & Ht & Ef). exists t. rewrite E. auto. }
  destruct (block_inv cc g Hids J bs db s b s') as [_ (l & E & G)]; [| |exact H|exact HD|exact Hn|exact Hb|exact Hk| |].
  - intros K B L n D s1 tx utxos fee x s2 F1 F2 F3 F4 [F5 (l & -> & F6)]. split; [exact (tokens_tx cc g Htok _ _ _ _ _ _ _ _ _ _ _ _ F1 F2 F3 F4 F5)|].
    exists (l ++ [(b_height b, tx)]). split; [apply app_assoc_reverse|]. intros Hl. rewrite map_app in Hl.
    assert (unmoved s s1) as Hu by (apply F6; intros tx' m Hx; apply Hl, elem_of_app; left; exact Hx).
    apply (unmoved_trans _ _ _ Hu). apply (frozen_tx _ _ _ _ _ _ _ _ _ _ _ _ F1 F2 F3 F4 F5 Hru (Hk1 _ Hu)). intros m. apply Hl, elem_of_app. right. left.
  - intros K B L n D s1 fees y s2 F1 F2 F3 F4 [F5 (l & -> & F6)]. split; [exact (tokens_reward cc g _ _ _ _ _ _ _ _ _ _ F1 F2 F3 F4 F5)|].
    exists l. split; [reflexivity|]. intros Hl. exact (unmoved_trans _ _ _ (F6 Hl) (frozen_reward _ _ _ _ _ _ _ _ _ _ F1 F2 F3 F4)).
  - split; [exact (tokens_hist cc g Hids Htok _ _ _ H)|]. exists []. rewrite app_nil_r. split; [reflexivity|]. intros _. constructor; reflexivity.
  - apply app_inv_head in E as <-. apply G. intros tx m Hx. unfold dated in Hx. rewrite map_map, map_id in Hx. exact (Hno tx m Hx).
Qed.
End frozen.

(** ** As read off the database *)
Lemma db_token_held db s id x : db_is db s -> db_holding db (Token id) x = holding (us_map (k_utxo s)) (k_pos s) (k_ord s) (Token id) x.
Proof. exact (db_held db s (Token id) x). Qed.
Lemma issued_once cc g bs db : ids_distinct cc g -> token_ids_distinct cc -> reached cc g bs db ->
  NoDup (fungibles_of cc bs ++ nfts_of bs) /\
  forall id, (is_Some (tdb_data (db_tok db) !! id) <-> id ∈ fungibles_of cc bs) /\ (is_Some (db_aux db !! id) <-> id ∈ nfts_of bs).
Proof.
  intros Hids Htok H. destruct (reached_hist cc g Hids _ _ H) as (s & Hs). pose proof (hist_db _ _ _ _ _ Hs) as Hdb. destruct (tokens_hist cc g Hids Htok _ _ _ Hs) as [_ J2 J3 J4 _].
  assert (forall l, fungibles_in cc (dated_txs l) = fungibles_of cc l /\ nfts_in (dated_txs l) = nfts_of l) as E.
  { unfold fungibles_in, nfts_in, fungibles_of, nfts_of, dated_txs. induction l as [|b l [IH1 IH2]]; [auto|]. cbn [map concat]. rewrite !map_app, !concat_app, IH1, IH2.
    unfold dated. rewrite !map_map. auto. }
  destruct (E bs) as [E1 E2]. rewrite E1, E2 in *. split; [exact J2|]. intros id. destruct (di_tok _ _ Hdb) as [T _]. rewrite T, (di_aux _ _ Hdb). auto.
Qed.
Lemma frozen_stays cc g bs db b db' id t : ids_distinct cc g -> token_ids_distinct cc -> created_at_genesis g (Token id) = 0 -> reached cc g bs db ->
  no_collision g bs b -> in_range cc g (bs ++ [b]) -> connect_block cc db b = Ok db' ->
  tdb_data (db_tok db) !! id = Some t -> is_frozen t = true -> ru_frozen_checks (cc_rules cc (b_height b)) = true -> never_unfreezes b id ->
  (forall x, db_holding db' (Token id) x = db_holding db (Token id) x) /\ tdb_data (db_tok db') !! id = Some t /\ tdb_supply (db_tok db') !! id = tdb_supply (db_tok db) !! id.
Proof.
  intros Hids Htok Hgen H Hn Hr Hc Ht Hf Hru Hno.
  destruct (reached_hist cc g Hids _ _ (by_connecting _ _ _ _ _ _ H Hn Hr Hc)) as (s' & Hs'). inversion Hs' as [|bs0 db0 s b0 db1 s1 Hs Hn' Hc' HD Hdb' E1 E2]; [destruct bs; discriminate|].
  apply app_inj_tail in E1 as [-> ->]. subst.
  assert (db0 = db) as ->. { pose proof (hist_replay _ _ _ _ _ Hs) as G1. pose proof (replays cc g Hids _ _ H) as G2. congruence. }
  pose proof (hist_db _ _ _ _ _ Hs) as Hdb. destruct (new_block cc g _ _ _ _ _ Hs Hn Hc) as [Hb Hk]. destruct (di_tok _ _ Hdb) as (T1 & T2 & T3 & _), (di_tok _ _ Hdb') as (T1' & T2' & T3' & _).
  destruct (frozen_block cc g id Hids Htok Hgen _ _ _ _ _ Hs HD Hn Hb Hk Hru) as [U1 U2 U3]; [exists t; rewrite <- T1; auto|exact Hno|]. split; [|split].
  - intros x. rewrite (db_token_held _ _ _ _ Hdb), (db_token_held _ _ _ _ Hdb'). apply U1.
  - rewrite T1', U2, <- T1. exact Ht.
  - rewrite <- T2, <- T2' in U3. pose proof (T3 id) as Z. pose proof (T3' id) as Z'.
    destruct (tdb_supply (db_tok db') !! id), (tdb_supply (db_tok db) !! id); cbn in U3; congruence.
Qed.
