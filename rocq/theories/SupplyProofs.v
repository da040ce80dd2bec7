(** Tokens held, genesis, and histories of blocks. *)
From Verif Require Import Base BaseProofs AmountModel DeltaModel DeltaProofs LayeredModel TokensModel OrdersModel PosModel PrimModel ChainModel
  UtxoModel ConstraintsModel RewardModel UndoCacheModel NonceModel VerifierModel.
From Verif Require Import TokensSpec TokensProofs OrdersSpec OrdersProofs PosSpec PosProofs UtxoSpec UtxoProofs ConstraintsSpec
  ConstraintsProofs RewardSpec RewardProofs UndoCacheSpec UndoCacheProofs NonceProofs VerifierRecords VerifierSteps VerifierParts VerifierTx VerifierBlock.
From Verif Require Import SupplySpec HoldingProofs VerifierChain VerifierPast VerifierHistory.
Local Open Scope N_scope.
Local Arguments value : simpl never.

(** ** Tokens *)
Definition op_mints (id : N) (o : tok_op) : N := match o with MintTokens i a => if decide (i = id) then a else 0 | _ => 0 end.
Definition op_unmints (id : N) (o : tok_op) : N := match o with UnmintTokens i a => if decide (i = id) then a else 0 | _ => 0 end.
Lemma tok_step_supply T o T' id : tok_step T o = Ok T' -> ts_supply T id + op_mints id o = ts_supply T' id + op_unmints id o.
Proof.
  intros H. destruct o as [i d|i a|i a|i|i u|i|i a|i u]; cbn in H; cbn [op_mints op_unmints]; destruct (ts_data T i) as [x|]; try discriminate H.
  - destruct (decide _); [|discriminate H]. injection H as <-. reflexivity.
  - destruct (tk_frozen x), (tk_supply x); try discriminate H.
    all: repeat match type of H with context [decide ?P] => destruct (decide P); try discriminate H end.
    all: try (destruct (tk_locked x); [discriminate H|]).
    all: injection H as <-; cbn; destruct (decide (i = id)) as [->|]; lia.
  - destruct (tk_locked x), (tk_frozen x); try discriminate H. destruct (decide _); [|discriminate H]. injection H as <-. cbn. destruct (decide (i = id)) as [->|]; lia.
  - destruct (tk_locked x), (tk_frozen x), (tk_supply x); try discriminate H; injection H as <-; cbn; reflexivity.
  - destruct (tk_frozen x) as [[]|]; try discriminate H. injection H as <-. reflexivity.
  - destruct (tk_frozen x) as [|[]]; try discriminate H. injection H as <-. reflexivity.
  - destruct (tk_frozen x) as [|]; try discriminate H. injection H as <-. reflexivity.
  - destruct (tk_frozen x) as [|]; try discriminate H. injection H as <-. reflexivity.
Qed.
Lemma tok_ran_supply id : forall ops T T', ran tok_step T ops T' ->
  ts_supply T id + sum_over (op_mints id) ops = ts_supply T' id + sum_over (op_unmints id) ops.
Proof.
  induction ops as [|o ops IH]; intros T T' H; cbn [ran] in H; [subst; cbn; lia|]. destruct H as (T1 & H1 & H). rewrite !sum_over_cons.
  pose proof (tok_step_supply _ _ _ id H1). specialize (IH _ _ H). lia.
Qed.
Lemma burned_burnt id outs : burned id outs = sum_over (burnt (Token id)) outs.
Proof.
  apply sum_over_ext. intros o _. destruct o as [| |v| | | | | | | | |]; try reflexivity. destruct v as [a| |i a]; try reflexivity.
  change (burnt (Token id) (OBurn (OvToken i a))) with (val (Token id) [Portion (Token i) 0 a]). rewrite value_one. unfold of_currency. cbn. destruct (N.eqb_spec i id) as [->|Hne].
  - rewrite bool_decide_true by reflexivity. reflexivity.
  - rewrite bool_decide_false by congruence. reflexivity.
Qed.
Lemma ins_mints id outs ins : sum_over (op_mints id) (concat (map (tok_ops_in outs) ins)) = sum_over (minted (Token id)) ins.
Proof.
  induction ins as [|i ins IH]; [reflexivity|]. cbn [map concat]. rewrite sum_over_app, IH, sum_over_cons. f_equal.
  destruct i as [| |? c|]; try reflexivity. destruct c; try reflexivity; cbn [tok_ops_in minted].
  - rewrite sum_over_cons. cbn [op_mints sum_over fold_right]. rewrite value_one. unfold of_currency. cbn. destruct (decide _) as [->|Hne].
    + rewrite bool_decide_true by reflexivity. lia.
    + rewrite bool_decide_false by congruence. lia.
  - destruct (0 <? _); reflexivity.
Qed.
Lemma ins_unmints id outs ins : (count is_command ins <= 1)%nat ->
  sum_over (op_unmints id) (concat (map (tok_ops_in outs) ins)) <= burned id outs.
Proof.
  induction ins as [|i ins IH]; intros Hc; [cbn; lia|]. cbn [map concat]. rewrite sum_over_app. rewrite count_cons in Hc.
  assert (forall l, (count is_command l <= 0)%nat -> sum_over (op_unmints id) (concat (map (tok_ops_in outs) l)) = 0) as G.
  { clear. induction l as [|j l IH]; [reflexivity|]. rewrite count_cons. intros Hc. cbn [map concat]. rewrite sum_over_app, IH by lia.
    destruct j; cbn in Hc; try lia; reflexivity. }
  destruct i as [| |? c|]; cbn [is_command] in Hc; try (cbn [tok_ops_in sum_over fold_right]; specialize (IH ltac:(lia)); lia).
  rewrite G by lia. destruct c; cbn [tok_ops_in]; try (cbn; lia).
  destruct (0 <? burned id0 outs); [|cbn; lia]. rewrite sum_over_cons. cbn. destruct (decide _) as [->|]; lia.
Qed.
Lemma outs_no_mints id cc h ins outs : sum_over (op_mints id) (concat (map (tok_ops_out cc h ins) outs)) = 0 /\
  sum_over (op_unmints id) (concat (map (tok_ops_out cc h ins) outs)) = 0.
Proof.
  induction outs as [|o outs [IH1 IH2]]; [auto|]. cbn [map concat]. rewrite !sum_over_app, IH1, IH2. destruct o; cbn; auto. destruct (token_id cc h ins); auto.
Qed.
Lemma nfts_issued id outs : (count is_issuance outs <= 1)%nat ->
  sum_over (nfts (Token id)) outs <= match issued_nft outs with Some i => if decide (i = id) then 1 else 0 | None => 0 end.
Proof.
  assert (forall l, (count is_issuance l <= 0)%nat -> sum_over (nfts (Token id)) l = 0) as G.
  { clear. induction l as [|j l IH]; [reflexivity|]. rewrite count_cons. intros Hc. rewrite sum_over_cons, IH by lia. destruct j; cbn in Hc; try lia; reflexivity. }
  induction outs as [|o outs IH]; intros Hc; [cbn; lia|]. rewrite count_cons in Hc. rewrite sum_over_cons.
  destruct o; cbn [is_issuance] in Hc; cbn [nfts issued_nft]; try (apply IH; lia).
  rewrite G by lia. rewrite value_one. unfold of_currency. cbn. destruct (decide _) as [->|Hne].
  - rewrite bool_decide_true by reflexivity. lia.
  - rewrite bool_decide_false by congruence. lia.
Qed.

(** What is on record for a token: its circulating supply, and one unit if it is an NFT. *)
Definition on_record (s : books) (id : N) : N := ts_supply (k_tok s) id + match k_aux s id with Some _ => 1 | None => 0 end.
Lemma tx_tokens cc h s tx utxos fee b x s' id k : tx_checked cc h s tx utxos fee -> tx_done cc h b s tx x s' ->
  at_most (held s (Token id)) (k + on_record s id) -> at_most (held s' (Token id)) (k + on_record s' id).
Proof.
  intros HC HD Hh. destruct (tx_gives _ _ _ _ _ _ HC _ _ _ (Token id) HD _ Hh) as (n & Hn & L).
  pose proof (tok_ran_supply id _ _ _ (td_tran _ _ _ _ _ _ _ HD)) as E. unfold tok_ops in E. rewrite !sum_over_app in E.
  destruct (outs_no_mints id cc h (tx_inputs tx) (tx_outputs tx)) as [E1 E2]. rewrite E1, E2, ins_mints in E.
  pose proof (ins_unmints id (tx_outputs tx) _ (proj1 (proj2 (purposes _ _ _ _ _ _ HC)))) as E3. rewrite burned_burnt in E3 at 1.
  pose proof (nfts_issued id _ (tc_issuance _ _ _ _ _ _ HC)) as E4. pose proof (td_aux _ _ _ _ _ _ _ HD) as HA.
  assert (sum_over (nfts (Token id)) (tx_outputs tx) + match k_aux s id with Some _ => 1 | None => 0 end <= match k_aux s' id with Some _ => 1 | None => 0 end) as E5.
  { destruct (issued_nft (tx_outputs tx)) as [i|].
    - destruct HA as (_ & HN & _ & HA & _). rewrite HA. unfold set_at. destruct (decide (i = id)) as [->|Hne].
      + rewrite decide_True by reflexivity. rewrite HN. lia.
      + rewrite decide_False by congruence. lia.
    - destruct HA as [HA _]. rewrite HA. lia. }
  unfold on_record in *. intros l Hl. specialize (Hn l Hl). lia.
Qed.
Lemma block_tokens cc b s s' id k : block_done cc b s s' -> at_most (held s (Token id)) (k + on_record s id) -> at_most (held s' (Token id)) (k + on_record s' id).
Proof.
  intros [s1 s2 acc fees y _ Ht Hf HC HD] Hh.
  assert (at_most (held s1 (Token id)) (k + on_record s1 id)) as H1.
  { clear HC HD Hf. induction Ht as [|l acc s1 tx utxos fee acc' x s2' H IH HC Hf HD]; [exact Hh|]. exact (tx_tokens _ _ _ _ _ _ _ _ _ _ _ HC HD IH). }
  destruct (reward_gives cc b s1 fees y s2 (Token id) HC HD _ H1) as (n & Hn & L). rewrite value_one in L. unfold of_currency at 1 in L.
  rewrite bool_decide_false in L by discriminate. unfold on_record in *. cbn [with_best k_utxo us_map k_pos k_ord k_tok k_aux].
  rewrite (rd_tok _ _ _ _ _ HD), (rd_aux _ _ _ _ _ HD). intros l Hl. specialize (Hn l Hl). lia.
Qed.

(** ** Genesis *)
Definition genesis_keys (g : genesis) : list (outpoint * tx_output) := map (fun io => ((FromReward (g_id g), io.1), io.2)) (enumerate (g_outputs g)).
Definition no_utxos : outpoint -> option utxo := fun _ => None.
Definition no_stakes : pos_state := PosState (fun _ => None) (fun _ => 0) (fun _ => None) (fun _ => 0) (fun _ => 0).
Definition no_tokens : tok_state := TokState (fun _ => None) (fun _ => 0).
Definition no_orders : ord_state := OrdState (fun _ => None) (fun _ => 0) (fun _ => 0).
Definition genesis_books (g : genesis) (P : pos_state) : books :=
  Books (UtxoState (put_all no_utxos (InChain 0) (genesis_keys g)) (g_id g)) P no_tokens no_orders (fun _ => 0) (fun _ => None) (fun _ => None)
        (UTable ∅ ∅) (UTable ∅ ∅) (UTable ∅ ∅) (UTable ∅ ∅).
Definition pool_op (o : tx_output) : list pos_op := match o with OCreateStakePool p x => [CreatePool p (pool_of x)] | _ => [] end.

Lemma enumerate_nodup {A} (l : list A) : forall i, NoDup (map fst (enumerate_from i l)).
Proof.
  induction l as [|x l IH]; intros i; cbn; [constructor|]. apply NoDup_cons. split; [|apply IH]. intros H. apply elem_of_list_fmap in H as ([j y] & -> & H).
  apply enumerate_keys_ne in H. cbn in H. lia.
Qed.
Lemma genesis_utxos_ok g : exists u, genesis_utxos g = Ok u /\ utxo_db_is u (UtxoState (put_all no_utxos (InChain 0) (genesis_keys g)) (g_id g)).
Proof.
  set (p := UtxoState no_utxos (g_id g)).
  assert (utxo_db_is (UtxoDb ∅ (g_id g)) p) as Hdb. { split; [|reflexivity]. intros k. cbn. apply lookup_empty. }
  destruct (fold_add p (fun c io => add_utxo c (FromReward (g_id g), io.1) (Utxo io.2 (InChain 0)) false) (fun io => (FromReward (g_id g), io.1)) snd (InChain 0)
    (enumerate (g_outputs g)) cache_new p) as (c & E & Hi).
  - intros c s x Hi _ Hk. exact (add_inv p c s _ _ false Hi (fun _ => Hk)).
  - apply uinv_empty.
  - rewrite <- (map_map fst (fun i => (FromReward (g_id g), i))). apply NoDup_fmap_2; [intros i j [= ->]; reflexivity|apply enumerate_nodup].
  - reflexivity.
  - destruct (db_merge_refines _ _ _ _ Hdb Hi) as (u & r & E2 & Hu). exists u. split; [|exact Hu].
    unfold genesis_utxos. rewrite E, E2. reflexivity.
Qed.

Lemma genesis_pools_ok PV p outs : pos_reads PV p -> forall d s d' r,
  pos_inv p d s -> (forall q, ps_deleg s q = None) -> (forall k, ps_share s k = 0) -> Forall (fun o => match o with OCreateStakePool _ x => (Z.of_N (sp_pledge x) <= I128_MAX)%Z | _ => True end) outs ->
  try_fold (genesis_pool PV) outs d = (d', Ok r) ->
  exists s', ran pos_step s (concat (map pool_op outs)) s' /\ pos_inv p d' s'.
Proof.
  intros HR. induction outs as [|o outs IH]; intros d s d' r Hi Hd Hs HF H; cbn [try_fold] in H.
  - injection H as <- _. exists s. split; [reflexivity|exact Hi].
  - apply Forall_cons in HF as [Ho HF]. destruct o as [| | |q x| | | | | | | |]; cbn [map concat pool_op app]; try exact (IH _ _ _ _ Hi Hd Hs HF H).
    cbn [genesis_pool] in H.
    assert (pos_fits s (CreatePool q (pool_of x))) as Hf. { intros _. split; [exact Ho|]. split; [reflexivity|]. intros k. apply Hs. }
    pose proof (pos_op_refines _ _ _ _ _ HR Hi Hf) as G. destruct (pos_step s (CreatePool q (pool_of x))) as [s1|e|] eqn:Es; [| |destruct G].
    + destruct G as (d1 & u & E & Hi1 & _). change (pos_run PV d (CreatePool q (pool_of x))) with (create_pool PV d q (pool_of x)) in E. rewrite E in H. cbn [rmap] in H.
      assert ((forall q, ps_deleg s1 q = None) /\ (forall k, ps_share s1 k = 0)) as [Hd1 Hs1].
      { cbn in Es. destruct (ps_pool s q); [discriminate Es|]. destruct (decide _); [discriminate Es|]. injection Es as <-. split; assumption. }
      destruct (IH _ _ _ _ Hi1 Hd1 Hs1 HF H) as (s' & R & Hi').
      exists s'. split; [|exact Hi']. exists s1. split; [exact Es|exact R].
    + destruct G as (d1 & E & _). change (pos_run PV d (CreatePool q (pool_of x))) with (create_pool PV d q (pool_of x)) in E. rewrite E in H. discriminate H.
Qed.
Lemma pools_give U O c outs : forall P P', ran pos_step P (concat (map pool_op outs)) P' ->
  gives (holding U P O c) (holding U P' O c) (sum_over (fun o => val c (pledged o)) outs) 0.
Proof.
  induction outs as [|o outs IH]; intros P P' H; [cbn in H; subst; apply gives_same; reflexivity|]. rewrite sum_over_cons.
  destruct o as [| | |q x| | | | | | | |]; cbn [map concat pool_op app] in H; try (eapply gives_weaken; [exact (IH _ _ H)|cbn [pledged]; lia|lia]).
  destruct H as (P1 & H1 & H). pose proof (create_pool_gives U P O c _ _ _ H1) as G1. cbn [pool_of pd_pledge pd_rewards] in G1. rewrite N.add_0_r in G1.
  exact (gives_trans _ _ _ _ _ _ _ G1 (IH _ _ H)).
Qed.
Lemma puts_give P O c src l : forall U, gives (holding U P O c) (holding (put_all U src l) P O c) (sum_over (fun ko => val c (kept ko.2)) l) 0.
Proof.
  induction l as [|[k o] l IH]; intros U; [apply gives_same; reflexivity|]. rewrite sum_over_cons. cbn [put_all].
  exact (gives_trans _ _ _ _ _ _ _ (put_gives U P O c k (Utxo o src)) (IH _)).
Qed.
Lemma enumerate_sum {A} (f : A -> N) l : forall i, sum_over (fun io : N * A => f io.2) (enumerate_from i l) = sum_over f l.
Proof. induction l as [|x l IH]; intros i; [reflexivity|]. cbn [enumerate_from]. rewrite !sum_over_cons, IH. reflexivity. Qed.
Lemma empty_held c : at_most (holding no_utxos no_stakes no_orders c) 0.
Proof.
  intros l _. rewrite sum_over_zero; [lia|]. intros [k|p|d|o|o] _; cbn; try reflexivity. rewrite value_one. destruct (of_currency _ _ _); reflexivity.
Qed.
Lemma genesis_held g P c : ran pos_step no_stakes (concat (map pool_op (g_outputs g))) P -> at_most (held (genesis_books g P) c) (created_at_genesis g c).
Proof.
  intros HP. cbn [genesis_books k_utxo k_pos k_ord us_map]. destruct (pools_give no_utxos no_orders c _ _ _ HP _ (empty_held c)) as (n1 & H1 & L1).
  destruct (puts_give P no_orders c (InChain 0) (genesis_keys g) _ _ H1) as (n2 & H2 & L2). unfold genesis_keys in L2. rewrite sum_map in L2. cbn [snd] in L2.
  unfold enumerate in L2. rewrite (enumerate_sum (fun o => val c (kept o))) in L2. unfold created_at_genesis. rewrite sum_plus.
  intros l Hl. specialize (H2 l Hl). lia.
Qed.
Lemma no_stakes_good : pos_good no_stakes.
Proof.
  split; [intros k; vm_compute; discriminate|]. split; [intros k; vm_compute; discriminate|]. split; [intros k; vm_compute; discriminate|].
  split; [intros p x [=]|]. split; [intros d y [=]|]. intros d _. split; reflexivity.
Qed.
Lemma no_stakes_db : pos_db_is (PosDb ∅ ∅ ∅ ∅ ∅) no_stakes.
Proof.
  destruct no_stakes_good as (B1 & B2 & B3 & B4).
  assert (forall K (H1 : EqDecision K) (H2 : Countable K) (A : Type) (k : K), (∅ : gmap K A) !! k = None) as E by (intros; apply lookup_empty).
  repeat split; try exact B1; try exact B2; try exact B3; try apply B4; intros; cbn [pdb_pool pdb_deleg pdb_pool_balance pdb_deleg_balance pdb_share] in *; rewrite ?E in *; try reflexivity; try discriminate.
Qed.
Lemma single_pledge g p x : OCreateStakePool p x ∈ g_outputs g -> sp_pledge x <= created_at_genesis g Coin.
Proof.
  unfold created_at_genesis. induction (g_outputs g) as [|o l IH]; intros H; [apply elem_of_nil in H as []|]. rewrite sum_over_cons. apply elem_of_cons in H as [<-|H].
  - cbn [pledged]. rewrite val_coin. lia.
  - specialize (IH H). lia.
Qed.
Lemma genesis_ok g db : genesis_db g = Ok db -> (Z.of_N (created_at_genesis g Coin) <= I128_MAX)%Z ->
  exists P, ran pos_step no_stakes (concat (map pool_op (g_outputs g))) P /\ db_is db (genesis_books g P).
Proof.
  intros H Hr. unfold genesis_db in H. destruct (genesis_utxos_ok g) as (u & Eu & Hu). rewrite Eu in H. cbn [rbind] in H. cbv zeta in H.
  destruct (try_fold _ _ _) as [d [[]|e|]] eqn:Ef; try discriminate H.
  destruct (genesis_pools_ok (pos_db_view (PosDb ∅ ∅ ∅ ∅ ∅)) no_stakes (g_outputs g) (pos_reads_db _ _ no_stakes_db) _ no_stakes d tt (pos_inv_empty _ no_stakes_good)
    (fun _ => eq_refl) (fun _ => eq_refl)) as (P & HP & Hi); [|exact Ef|].
  { apply Forall_forall. intros o Ho. destruct o; try exact Logic.I. pose proof (single_pledge _ _ _ Ho). lia. }
  destruct (pos_db_merge_refines _ _ _ _ no_stakes_db Hi) as (p' & r & Em & Hp). rewrite Em in H. destruct r. injection H as <-.
  exists P. split; [exact HP|].
  assert (forall K (H1 : EqDecision K) (H2 : Countable K) (A : Type) (k : K), (∅ : gmap K A) !! k = None) as E by (intros; apply lookup_empty).
  assert (forall I R s, ut_none (UTable ∅ ∅ : undo_table I R) s) as En by (intros I R s; split; [apply lookup_empty|intros x; apply lookup_empty]).
  constructor; cbn [db_utxo db_pos db_tok db_ord db_nonce db_aux db_index db_uundo db_pundo db_tundo db_oundo genesis_books k_utxo k_pos k_tok k_ord k_uses k_aux k_index k_u k_p k_t k_o].
  - exact Hu.
  - exact Hp.
  - repeat split; intros; cbn in *; rewrite ?E in *; try reflexivity; try discriminate.
  - repeat split; intros; cbn in *; rewrite ?E in *; try reflexivity; try discriminate. all: try (intros ? ?; discriminate).
  - intros a. rewrite E. reflexivity.
  - intros a. apply E.
  - intros a. apply E.
  - split; [reflexivity|]. split; [apply En|]. intros b. rewrite E. apply En.
  - split; [reflexivity|]. split; [apply En|]. intros b. rewrite E. apply En.
  - split; [reflexivity|]. split; [apply En|]. intros b. rewrite E. apply En.
  - split; [reflexivity|]. split; [apply En|]. intros b. rewrite E. apply En.
Qed.
Definition genesis_id (g : genesis) (k : source_id) : Prop := k = FromReward (g_id g).
Lemma genesis_fine cc g P : ids_distinct cc g -> ran pos_step no_stakes (concat (map pool_op (g_outputs g))) P ->
  fine cc (genesis_id g) (fun _ => False) [] (created_at_genesis g Coin) 0 (genesis_books g P).
Proof.
  intros (_ & _ & Hd) HP.
  assert (forall I R (B : N -> Prop) K, tx_recs B K (UTable ∅ ∅ : undo_table I R)) as E1. { intros I R B K s t i H. cbn in H. rewrite lookup_empty in H. discriminate. }
  assert (forall I R (B : N -> Prop), rew_recs B (UTable ∅ ∅ : undo_table I R)) as E2. { intros I R B s i H. cbn in H. rewrite lookup_empty in H. discriminate. }
  constructor.
  - constructor; cbn [genesis_books k_utxo k_pos us_map k_u k_p k_t k_o k_index]; auto.
    + intros k u H. destruct (decide (k ∈ map fst (genesis_keys g))) as [Hin|Hnin].
      * unfold genesis_keys in Hin. rewrite map_map in Hin. apply elem_of_list_fmap in Hin as ([i o] & -> & _). reflexivity.
      * rewrite put_all_other in H by exact Hnin. discriminate.
    + intros s t u ss H. cbn in H. rewrite lookup_empty in H. discriminate.
    + intros t i [=].
    + intros k Hu. exfalso. destruct (ran_uses _ _ _ _ HP Hu) as [[ [x Hx]|(d & y & Hy & _)]|(y & Hy)]; [discriminate Hx|discriminate Hy|].
      apply elem_of_list_In, in_concat in Hy as (l & Hl & Hy). apply in_map_iff in Hl as (o & <- & Ho). apply elem_of_list_In in Ho.
      destruct o; cbn in Hy; try (destruct Hy; fail). destruct Hy as [[= E _]|[]]. exact (Hd k _ _ Ho (eq_sym E)).
  - exact (genesis_held g P Coin HP).
  - cbn [genesis_books k_pos]. assert (sum_over delegating (concat (map pool_op (g_outputs g))) = 0) as E0.
    { apply sum_over_zero. intros o Ho. apply elem_of_list_In, in_concat in Ho as (l & Hl & Ho). apply in_map_iff in Hl as (x & <- & _).
      destruct x; cbn in Ho; try (destruct Ho; fail). destruct Ho as [<-|[]]. reflexivity. }
    pose proof (ran_dead _ _ _ 0 HP) as G. rewrite E0 in G. apply G. intros p _. cbn. lia.
  - constructor; cbn [genesis_books k_utxo k_uses k_ord no_orders os_data].
    + intros t [=].
    + intros tx k Hx. inversion Hx.
    + intros tx i a n Hx. inversion Hx.
    + intros id d [=].
    + intros tx id Hx. inversion Hx.
    + intros tx id d Hx. inversion Hx.
Qed.

(** ** Histories *)
Lemma txs_of_snoc bs b : txs_of (bs ++ [b]) = txs_of bs ++ b_txs b.
Proof. unfold txs_of. rewrite map_app, concat_app. cbn [map concat]. rewrite app_nil_r. reflexivity. Qed.
Section histories.
Context (cc : chain_config) (g : genesis).
Hypothesis Hids : ids_distinct cc g.

(** Blocks are chained by the ids of their predecessors. *)
Definition tip (bs : list block) : N := match rev bs with b :: _ => b_id b | [] => g_id g end.
Definition linked (bs : list block) : Prop := forall bs1 b bs2, bs = bs1 ++ b :: bs2 -> b_prev b = tip bs1.
Lemma tip_snoc bs b : tip (bs ++ [b]) = b_id b.
Proof. unfold tip. rewrite rev_app_distr. reflexivity. Qed.
Lemma tip_in bs1 b bs2 : tip (bs1 ++ b :: bs2) ∈ map b_id (b :: bs2).
Proof.
  induction bs2 as [|c bs2 _] using rev_ind; [rewrite tip_snoc; left|]. rewrite app_comm_cons, app_assoc, tip_snoc, map_app. apply elem_of_app. right. left.
Qed.
Lemma tip_known bs : tip bs ∈ g_id g :: map b_id bs.
Proof. destruct bs as [|b bs]; [left|]. right. exact (tip_in [] b bs). Qed.
Lemma not_again bs b : linked bs -> NoDup (g_id g :: map b_id bs) -> no_collision g bs b -> tip bs = b_prev b -> b_id b ∉ map b_id bs.
Proof.
  intros Hl Hn (_ & Hc & _) Ht H. apply elem_of_list_fmap in H as (b' & E & Hb). rewrite (Hc b' Hb (eq_sym E)) in Hb. apply elem_of_list_split in Hb as (bs1 & bs2 & ->).
  rewrite (Hl _ _ _ eq_refl) in Ht. pose proof (tip_in bs1 b bs2) as G1. rewrite Ht in G1. rewrite map_app in Hn. change (g_id g :: map b_id bs1 ++ ?l) with ((g_id g :: map b_id bs1) ++ l) in Hn.
  apply NoDup_app in Hn as (_ & Hn & _). exact (Hn _ (tip_known bs1) G1).
Qed.

Inductive hist : list block -> chain_db -> books -> Prop :=
| hist_none db P : genesis_db g = Ok db -> ran pos_step no_stakes (concat (map pool_op (g_outputs g))) P -> db_is db (genesis_books g P) -> hist [] db (genesis_books g P)
| hist_one bs db s b db' s' : hist bs db s -> no_collision g bs b -> connect_block cc db b = Ok db' -> block_done cc b s s' -> db_is db' s' -> hist (bs ++ [b]) db' s'.

Definition used (bs : list block) (k : source_id) : Prop := genesis_id g k \/ exists b, b ∈ bs /\ ids_in b k.
Lemma hist_db bs db s : hist bs db s -> db_is db s.
Proof. destruct 1; assumption. Qed.
Lemma hist_chain bs db s : hist bs db s -> us_best (k_utxo s) = tip bs /\ NoDup (g_id g :: map b_id bs) /\ linked bs.
Proof.
  induction 1 as [db P Hg HP Hdb|bs db s b db' s' H (IH1 & IH2 & IH3) Hn Hc HD Hdb].
  - split; [reflexivity|]. split; [apply NoDup_singleton|]. intros bs1 b bs2 E. destruct bs1; discriminate E.
  - destruct HD as [s1 s2 acc fees y Hbest _ _ _ _]. rewrite IH1 in Hbest. split; [rewrite tip_snoc; reflexivity|]. split.
    + rewrite map_app, app_comm_cons. apply NoDup_app. split; [exact IH2|]. split; [|apply NoDup_singleton].
      intros x Hx Hb. apply elem_of_list_singleton in Hb as ->. apply elem_of_cons in Hx as [Hx|Hx]; [exact (proj1 Hn Hx)|exact (not_again _ _ IH3 IH2 Hn Hbest Hx)].
    + intros bs1 c bs2 E. destruct bs2 as [|d bs2 _] using rev_ind.
      * apply app_inj_tail in E as [-> ->]. auto.
      * rewrite app_comm_cons, app_assoc in E. apply app_inj_tail in E as [-> _]. exact (IH3 _ _ _ eq_refl).
Qed.
Lemma new_block bs db s b db' : hist bs db s -> no_collision g bs b -> connect_block cc db b = Ok db' -> b_id b ∉ map b_id bs /\ ~ used bs (FromReward (b_id b)).
Proof.
  intros H Hn Hc. destruct (hist_chain _ _ _ H) as (H1 & H2 & H3). unfold connect_block in Hc. apply rbind_ok in Hc as ([] & Hb & _). apply ensure_ok, N.eqb_eq in Hb.
  pose proof (proj2 (di_utxo _ _ (hist_db _ _ _ H))) as Hu. cbn in Hu. rewrite Hu, H1 in Hb. pose proof (not_again _ _ H3 H2 Hn Hb) as G. split; [exact G|].
  intros [[= E]|(b' & Hb' & [(t' & Ht' & E)|E])]; [exact (proj1 Hn E)|discriminate E|]. injection E as E. apply G. apply elem_of_list_fmap. eauto.
Qed.
Lemma hist_inv (J : list transaction -> books -> Prop) :
  (forall P, ran pos_step no_stakes (concat (map pool_op (g_outputs g))) P -> J [] (genesis_books g P)) ->
  (forall b K B X n D s tx utxos fee x s', fine cc K B X n D s -> ~ K (FromTx (tx_id tx)) -> tx_checked cc (b_height b) s tx utxos fee ->
     tx_done cc (b_height b) (b_id b) s tx x s' -> J X s -> J (X ++ [tx]) s') ->
  (forall b K B X n D s fees y s', fine cc K B X n D s -> ~ K (FromReward (b_id b)) -> reward_checked cc b s fees -> reward_done b (subsidy_of cc b + fees) s y s' -> J X s -> J X (with_best s' (b_id b))) ->
  forall bs db s, hist bs db s ->
  (fine cc (used bs) (fun x => x ∈ map b_id bs) (txs_of bs) (created_at_genesis g Coin + subsidies cc bs) (delegations bs) s /\ NoDup (map tx_id (txs_of bs))) /\ J (txs_of bs) s.
Proof.
  intros HJg HJt HJr. induction 1 as [db P Hg HP Hdb|bs db s b db' s' H [[IH IHn] IHJ] Hn Hc HD Hdb].
  - split; [|exact (HJg _ HP)]. split; [|constructor]. destruct (genesis_fine cc g P Hids HP) as [A1 A2 A3 A4]. constructor; [|rewrite N.add_0_r; exact A2|exact A3|].
    + revert A1. apply known_mono; [intros x []|]. intros k Hk. left. exact Hk.
    + revert A4. apply past_ext. intros k. split; [left; assumption|]. intros [Hk|(b & Hb & _)]; [exact Hk|inversion Hb].
  - destruct (new_block _ _ _ _ _ H Hn Hc) as [Hb Hk]. destruct Hids as (I1 & I2 & I3).
    destruct (block_fine_inv cc I1 I2 _ _ _ _ _ _ _ _ J (HJt b) (HJr b) IH IHJ Hb Hk (proj2 (proj2 Hn)) HD) as [[[A1 A2 A3 A4] And] AJ].
    rewrite txs_of_snoc. split; [|exact AJ].
    assert (forall k, used bs k \/ ids_in b k <-> used (bs ++ [b]) k) as EK.
    { intros k. unfold used. split.
      - intros [[G|(b' & Hb' & G)]|G]; [left; exact G|right; exists b'; split; [apply elem_of_app; left; exact Hb'|exact G]|right; exists b; split; [apply elem_of_app; right; left|exact G]].
      - intros [G|(b' & Hb' & G)]; [auto|]. apply elem_of_app in Hb' as [Hb'|Hb']; [left; right; eauto|]. apply elem_of_list_singleton in Hb' as ->. auto. }
    split.
    + unfold subsidies, delegations in *. rewrite !sum_over_app, !sum_over_cons. cbn [sum_over fold_right]. rewrite !N.add_0_r, N.add_assoc. constructor; [|exact A2|exact A3|].
      * revert A1. apply known_mono; [|intros k; apply EK]. intros x [Hx| ->]; rewrite map_app; apply elem_of_app; [left; exact Hx|right; left].
      * revert A4. apply past_ext. exact EK.
    + rewrite map_app. apply NoDup_app. split; [exact IHn|]. split; [|exact And]. intros t Ht Ht2.
      destruct HD as [s1 s2 acc fees y _ Htx _ _ _].
      assert (forall l acc s1, txs_done cc (b_height b) (b_id b) s l acc s1 -> same_ids (txs_of bs) l -> forall tx, tx ∈ l -> ~ used bs (FromTx (tx_id tx))) as G.
      { clear -IH I1 I2. intros l acc s1 Htx. induction Htx as [|l acc s1 tx utxos fee acc' x s2 H IHl HC Hf HD]; intros Hs tx' Ht; [inversion Ht|].
        assert (same_ids (txs_of bs) l) as Hs1.
        { intros t t' Ht1 Ht2 E. apply Hs; [apply elem_of_app; left; exact Ht1| |exact E]. rewrite app_assoc. apply elem_of_app; left; exact Ht2. }
        apply elem_of_app in Ht as [Ht|Ht]; [exact (IHl Hs1 _ Ht)|]. apply elem_of_list_singleton in Ht as ->. intros Hu.
        pose proof (fine_more cc _ _ (fun x => x ∈ map b_id bs \/ x = b_id b) _ _ _ _ (fun _ G => or_introl G) IH) as IH0.
        destruct (txs_fine cc I1 I2 _ _ _ _ _ _ _ _ _ _ _ (or_intror eq_refl) IH0 H Hs1) as [[_ _ _ Hp1] _].
        refine (fresh_id cc _ _ _ _ _ _ _ Hp1 HC _ (or_introl Hu)). intros tx' Hx E. apply Hs; [apply elem_of_app; right; left| |exact E]. rewrite app_assoc. apply elem_of_app; left; exact Hx. }
      apply elem_of_list_fmap in Ht2 as (tx & -> & Htx'). apply (G _ _ _ Htx (proj2 (proj2 Hn)) _ Htx').
      apply elem_of_list_fmap in Ht as (tx0 & E0 & Ht0). unfold txs_of in Ht0. apply elem_of_list_In, in_concat in Ht0 as (l0 & Hl0 & Ht0).
      apply in_map_iff in Hl0 as (b0 & <- & Hb0). right. exists b0. split; [apply elem_of_list_In; exact Hb0|]. left. exists tx0. split; [apply elem_of_list_In; exact Ht0|]. rewrite E0. reflexivity.
Qed.
Lemma hist_fine bs db s : hist bs db s ->
  fine cc (used bs) (fun x => x ∈ map b_id bs) (txs_of bs) (created_at_genesis g Coin + subsidies cc bs) (delegations bs) s /\ NoDup (map tx_id (txs_of bs)).
Proof. intros H. apply (hist_inv (fun _ _ => True)) in H; auto. exact (proj1 H). Qed.
Lemma hist_tokens bs db s id : hist bs db s -> at_most (held s (Token id)) (created_at_genesis g (Token id) + on_record s id).
Proof.
  induction 1 as [db P Hg HP Hdb|bs db s b db' s' H IH Hn Hc HD Hdb].
  - unfold on_record. cbn [genesis_books k_tok k_aux no_tokens ts_supply]. rewrite !N.add_0_r. exact (genesis_held g P _ HP).
  - exact (block_tokens _ _ _ _ _ _ HD IH).
Qed.

Lemma hist_block_ids bs b db s : hist (bs ++ [b]) db s -> NoDup (map tx_id (b_txs b)).
Proof. intros H. apply hist_fine in H as [_ H]. rewrite txs_of_snoc, map_app in H. apply NoDup_app in H as (_ & _ & H). exact H. Qed.
Lemma reached_range bs db : reached cc g bs db -> in_range cc g bs.
Proof.
  induction 1 as [db Hr Hg|bs db b db' H IH Hn Hr Hc|bs db b db' H [R1 R2] Hd]; [exact Hr|exact Hr|].
  unfold in_range, subsidies, delegations in *. rewrite sum_over_app in R1, R2. split; lia.
Qed.
Lemma reached_hist bs db : reached cc g bs db -> exists s, hist bs db s.
Proof.
  induction 1 as [db Hr Hg|bs db b db' H (s & IH) Hn [R1 R2] Hc|bs db b db' H (s & IH) Hd].
  - destruct (genesis_ok g db Hg) as (P & HP & Hdb); [destruct Hr as [Hr _]; cbn in Hr; rewrite N.add_0_r in Hr; exact Hr|].
    exists (genesis_books g P). constructor; assumption.
  - destruct (new_block _ _ _ _ _ IH Hn Hc) as [Hb Hk]. pose proof Hids as (I1 & I2 & I3).
    destruct (block_connects cc I1 I2 _ _ _ _ _ _ _ _ db' (hist_db _ _ _ IH) (proj1 (hist_fine _ _ _ IH)) Hb Hk (proj2 (proj2 Hn)))
      as (s' & HD & Hdb'); [..|exact Hc|].
    + unfold subsidies in R1. rewrite sum_over_app, sum_over_cons in R1. cbn [sum_over fold_right] in R1. unfold subsidy_of, subsidies. lia.
    + unfold delegations in R2. rewrite sum_over_app, sum_over_cons in R2. cbn [sum_over fold_right] in R2. unfold delegated_in, delegated_by, delegations. lia.
    + exists s'. exact (hist_one _ _ _ _ _ _ IH Hn Hc HD Hdb').
  - inversion IH as [|bs0 db0 s0 b0 db0' s0' H0 Hn Hc HD Hdb E1 E2 E3]; [destruct bs; discriminate|].
    apply app_inj_tail in E1 as [-> ->]. subst. destruct (disconnect_block_ok cc db s0 s b Hdb (hist_block_ids _ _ _ _ IH) HD) as (db1 & E & Hdb1).
    rewrite Hd in E. injection E as <-. rewrite (db_unique _ _ _ Hdb1 (hist_db _ _ _ H0)). eauto.
Qed.
Lemma hist_replay bs db s : hist bs db s -> replay cc g bs = Ok db.
Proof.
  induction 1 as [db P Hg HP Hdb|bs db s b db' s' H IH Hn Hc HD Hdb]; unfold replay in *; [rewrite Hg; reflexivity|].
  apply rbind_ok in IH as (db0 & Hg & IH). rewrite Hg. cbn [rbind]. revert IH. generalize db0. clear -Hc. induction bs as [|b0 bs IH]; intros d H; cbn [app rfold] in *.
  - injection H as ->. rewrite Hc. reflexivity.
  - destruct (connect_block cc d b0); try discriminate H. apply IH. exact H.
Qed.

Lemma db_held db s c x : db_is db s -> db_holding db c x = held s c x.
Proof.
  intros Hdb. destruct (di_utxo _ _ Hdb) as [Hu _]. destruct (di_pos _ _ Hdb) as (P1 & _ & _ & (P4 & _) & _). destruct (di_ord _ _ Hdb) as (O1 & O2 & _ & O3 & _).
  destruct x as [k|p|d|o|o]; cbn [db_holding holding].
  - rewrite <- Hu. reflexivity.
  - rewrite P1. reflexivity.
  - rewrite P4. reflexivity.
  - rewrite O1, O2. reflexivity.
  - rewrite O1, O3. reflexivity.
Qed.

Lemma coins_bounded bs db l : reached cc g bs db -> NoDup l -> sum_over (db_holding db Coin) l <= created_at_genesis g Coin + subsidies cc bs.
Proof.
  intros H Hl. destruct (reached_hist _ _ H) as (s & Hs). rewrite (sum_over_ext _ (held s Coin)) by (intros x _; exact (db_held _ _ _ _ (hist_db _ _ _ Hs))).
  exact (fi_held _ _ _ _ _ _ _ (proj1 (hist_fine _ _ _ Hs)) l Hl).
Qed.
Lemma tokens_bounded bs db id l : reached cc g bs db -> NoDup l ->
  sum_over (db_holding db (Token id)) l <=
  created_at_genesis g (Token id) + default 0 (tdb_supply (db_tok db) !! id) + match db_aux db !! id with Some _ => 1 | None => 0 end.
Proof.
  intros H Hl. destruct (reached_hist _ _ H) as (s & Hs). pose proof (hist_db _ _ _ Hs) as Hdb.
  rewrite (sum_over_ext _ (held s (Token id))) by (intros x _; exact (db_held _ _ _ _ Hdb)).
  pose proof (hist_tokens _ _ _ id Hs l Hl) as G. unfold on_record in G. destruct (di_tok _ _ Hdb) as (_ & T & _). rewrite T, (di_aux _ _ Hdb). lia.
Qed.
Lemma replays bs db : reached cc g bs db -> replay cc g bs = Ok db.
Proof. intros H. destruct (reached_hist _ _ H) as (s & Hs). exact (hist_replay _ _ _ Hs). Qed.
Lemma nothing_twice bs db : reached cc g bs db -> NoDup (map tx_id (txs_of bs)) /\ NoDup (g_id g :: map b_id bs).
Proof. intros H. destruct (reached_hist _ _ H) as (s & Hs). split; [exact (proj2 (hist_fine _ _ _ Hs))|exact (proj1 (proj2 (hist_chain _ _ _ Hs)))]. Qed.
Lemma replayed_refused bs db b tx db' : reached cc g bs db -> no_collision g bs b -> in_range cc g (bs ++ [b]) -> tx ∈ b_txs b -> tx ∈ txs_of bs ->
  connect_block cc db b <> Ok db'.
Proof.
  intros H Hn Hr H1 H2 Hc. destruct (nothing_twice _ _ (by_connecting _ _ _ _ _ _ H Hn Hr Hc)) as [G _]. rewrite txs_of_snoc, map_app in G.
  apply NoDup_app in G as (_ & G & _). apply (G (tx_id tx)); apply elem_of_list_fmap; eauto.
Qed.
Lemma tip_disconnects bs b db : reached cc g (bs ++ [b]) db -> exists db', disconnect_block db b = Ok db' /\ replay cc g bs = Ok db'.
Proof.
  intros H. destruct (reached_hist _ _ H) as (s & Hs). inversion Hs as [|bs0 db0 s0 b0 db0' s0' H0 Hn Hc HD Hdb E1 E2 E3]; [destruct bs; discriminate|].
  apply app_inj_tail in E1 as [-> ->]. subst. destruct (disconnect_block_ok cc db s0 s b Hdb (hist_block_ids _ _ _ _ Hs) HD) as (db1 & E & Hdb1).
  exists db1. split; [exact E|]. rewrite (db_unique _ _ _ Hdb1 (hist_db _ _ _ H0)). exact (hist_replay _ _ _ H0).
Qed.
End histories.

(** Blocks that replay are reached, if their ids are new. *)
Lemma replayed cc g bs db : in_range cc g bs -> (forall bs1 b bs2, bs = bs1 ++ b :: bs2 -> no_collision g bs1 b) ->
  replay cc g bs = Ok db -> reached cc g bs db.
Proof.
  revert db. induction bs as [|b bs IH] using rev_ind; intros db Hr Hn H.
  - unfold replay in H. apply rbind_ok in H as (db0 & Hg & H). injection H as <-. constructor; assumption.
  - unfold replay in H. apply rbind_ok in H as (db0 & Hg & H).
    assert (exists db1, rfold (connect_block cc) bs db0 = Ok db1 /\ connect_block cc db1 b = Ok db) as (db1 & H1 & H2).
    { clear -H. revert db0 H. induction bs as [|b0 bs IH]; intros d H; cbn [app rfold] in *.
      - exists d. split; [reflexivity|]. destruct (connect_block cc d b); try discriminate H. exact H.
      - destruct (connect_block cc d b0); try discriminate H. apply IH. exact H. }
    apply by_connecting with (db := db1); [|apply (Hn bs b []); reflexivity|exact Hr|exact H2].
    apply IH.
    + destruct Hr as [R1 R2]. unfold in_range, subsidies, delegations in *. rewrite sum_over_app in R1, R2. split; lia.
    + intros bs1 b' bs2 ->. apply (Hn bs1 b' (bs2 ++ [b])). rewrite <- app_assoc. reflexivity.
    + unfold replay. rewrite Hg. exact H1.
Qed.
