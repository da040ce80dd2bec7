(** Following a node that changes. *)
From Coq Require Import Zify ZifyN ZifyBool.
From Verif Require Import Base ScannerModel ScannerSpec ScannerTables ScannerLedger ScannerSteps ScannerProofs ScannerChain ScannerProgress.
From Verif Require WalletSyncModel WalletSyncSpec WalletSyncProofs.
Local Open Scope N_scope.

Section Sync.
  Context (g : genesis) (P : block -> Prop) (HD : distinct g P).
  Notation node := (@WalletSyncModel.node block).
  Notation tip := (WalletSyncModel.tip block_id (genesis_id g)).
  Notation linked := (WalletSyncSpec.linked block_id prev_id (genesis_id g)).
  Notation known_chain := (WalletSyncModel.known_chain block_id (genesis_id g)).
  Notation prefix_to := (WalletSyncModel.prefix_to block_id).
  Notation common_height := (WalletSyncModel.common_height block_id (genesis_id g)).
  Notation nmain := (@WalletSyncModel.main block).

  Lemma branch_unique p q : branch g P p -> branch g P q -> tip p = tip q -> p = q.
  Proof using HD.
    destruct HD as [Hinj Hgen]. unfold branch.
    revert q; induction p as [|b p IH] using rev_ind; intros q [Hp Fp] [Hq Fq] Ht; destruct q as [|b' q _] using rev_ind.
    - done.
    - rewrite WalletSyncProofs.tip_snoc in Ht. apply Forall_app in Fq as [_ Fq%Forall_inv]. by destruct (Hgen b' Fq).
    - rewrite WalletSyncProofs.tip_snoc in Ht. apply Forall_app in Fp as [_ Fp%Forall_inv]. by destruct (Hgen b Fp).
    - rewrite !WalletSyncProofs.tip_snoc in Ht. apply Forall_app in Fp as [Fp Fb%Forall_inv]. apply Forall_app in Fq as [Fq Fb'%Forall_inv].
      apply Hinj in Ht as ->; [|done|done].
      apply WalletSyncProofs.linked_app in Hp as [Hp [Hpb _]]. apply WalletSyncProofs.linked_app in Hq as [Hq [Hqb _]].
      rewrite (IH q); [done|done|done|congruence].
  Qed.
  Lemma branch_prefix p c : p `prefix_of` c -> branch g P c -> branch g P p.
  Proof. intros Hp [Hl F]. split; [by eapply WalletSyncProofs.linked_prefix|]. destruct Hp as [q ->]. by apply Forall_app in F as [F _]. Qed.
  Lemma branch_take k c : branch g P c -> branch g P (take k c).
  Proof. apply branch_prefix. exists (drop k c). by rewrite take_drop. Qed.
  Lemma prefix_to_complete c p : branch g P c -> p `prefix_of` c -> p ≠ [] -> prefix_to (tip p) c = Some p.
  Proof using HD.
    intros Hc Hp Hne. destruct (prefix_to (tip p) c) as [p'|] eqn:E.
    - apply (WalletSyncProofs.prefix_to_spec block_id) in E as (Hp' & b & Hl & Hid). f_equal. apply branch_unique.
      + by eapply branch_prefix. + by eapply branch_prefix. + rewrite <- Hid. unfold WalletSyncModel.tip at 1. by rewrite Hl.
    - exfalso. clear Hc. destruct p as [|b p _] using rev_ind; [done|]. rewrite WalletSyncProofs.tip_snoc in E. destruct Hp as [q ->].
      rewrite <- app_assoc in E. cbn in E. clear - E. induction p as [|x p IH]; cbn in E.
      + by rewrite N.eqb_refl in E.
      + destruct (_ =? _); [done|]. destruct (prefix_to _ _); [done|]. by apply IH.
  Qed.
  Lemma known_chain_spec id n p : sound_node g P n -> known_chain id n = Some p -> branch g P p ∧ tip p = id.
  Proof.
    intros [Hm Ho]. unfold WalletSyncModel.known_chain. destruct (N.eqb_spec id (genesis_id g)) as [->|Hne].
    { intros [= <-]. split; [|done]. split; [done|constructor]. }
    assert (F : ∀ c, c ∈ nmain n :: WalletSyncModel.others n -> branch g P c).
    { intros c Hc. apply elem_of_cons in Hc as [->|Hc]; [apply Hm|by apply Ho]. }
    revert F. generalize (nmain n :: WalletSyncModel.others n). intros l F.
    induction l as [|c l IH]; cbn; [done|]. destruct (prefix_to id c) as [p'|] eqn:E.
    - intros [= ->]. apply (WalletSyncProofs.prefix_to_spec block_id) in E as (Hp' & b & Hl & Hid). split.
      + eapply branch_prefix; [done|]. apply F. left.
      + unfold WalletSyncModel.tip. by rewrite Hl.
    - intros E'. apply IH; [|done]. intros c' Hc'. apply F. by right.
  Qed.
  Lemma known_chain_main n p : sound_node g P n -> p `prefix_of` nmain n -> known_chain (tip p) n = Some p.
  Proof using HD.
    intros [Hm Ho] Hp. unfold WalletSyncModel.known_chain. destruct p as [|b p _] using rev_ind.
    { by rewrite N.eqb_refl. }
    destruct (N.eqb_spec (tip (p ++ [b])) (genesis_id g)) as [Heq|_].
    { rewrite WalletSyncProofs.tip_snoc in Heq. destruct (branch_prefix _ _ Hp (sound_branch _ _ _ Hm)) as [_ F]. apply Forall_app in F as [_ F%Forall_inv].
      by destruct (proj2 HD b F). }
    cbn [foldr]. rewrite prefix_to_complete; [done|apply Hm|done|]. by destruct p.
  Qed.
  Lemma common_height_spec p q : branch g P p -> branch g P q ->
    (common_height p q <= length p)%nat ∧ (common_height p q <= length q)%nat ∧ take (common_height p q) p = take (common_height p q) q.
  Proof using HD.
    intros Hp Hq. unfold WalletSyncModel.common_height.
    destruct (WalletSyncProofs.in_lockstep_spec block_id (genesis_id g) (Nat.min (length p) (length q)) p q) as [H1 H2].
    split; [lia|]. split; [lia|]. apply branch_unique; [by apply branch_take..|done].
  Qed.

  (** The scanner has scanned a chain *)
  Definition at_chain (c : list block) (d : db) : Prop := sound_chain g P c ∧ scan_chain g c = Ok d.
  Lemma at_best c d : at_chain c d -> get_best_block g d = (tip c, height c).
  Proof.
    intros [S E]. destruct (scan_chain_inv g c d (sound_valid _ _ _ S) E) as (w & _ & _ & _ & _ & _ & Mn). unfold get_best_block. rewrite Mn.
    destruct c as [|b c _] using rev_ind; [done|]. rewrite main_of_snoc, WalletSyncProofs.tip_snoc, height_snoc. done.
  Qed.
  Lemma sound_prefix k c : sound_chain g P c -> sound_chain g P (take k c).
  Proof.
    intros [B V [A1 A2] L T]. assert (E : c = take k c ++ drop k c) by (by rewrite take_drop). split.
    - by apply branch_take.
    - rewrite E in V. by apply valid_chain_app in V.
    - split.
      + intros c1 c2 a k' Ec. apply (A1 c1 (c2 ++ drop k c)). rewrite app_assoc, <- Ec. done.
      + intros c1 b c2 l l' a k' Ec El. eapply (A2 c1 b (c2 ++ drop k c)); [|exact El]. rewrite app_comm_cons, app_assoc, <- Ec. done.
    - intros e He. apply L. rewrite E. revert He. clear. generalize (take k c), (drop k c). intros p q. unfold made_on. rewrite imap_app, concat_app, !elem_of_app. tauto.
    - unfold tokens_unique in *. rewrite E in T. revert T. clear. generalize (take k c), (drop k c). intros p q. unfold made_on. rewrite imap_app, concat_app, app_assoc, omap_app.
      by intros (? & _)%NoDup_app.
  Qed.
  Lemma at_genesis c0 d : sound_chain g P c0 -> scan_chain g [] = Ok d -> at_chain [] d.
  Proof. intros S E. split; [|done]. exact (sound_prefix 0 c0 S). Qed.
  Lemma sound_runs c : sound_chain g P c -> ∃ d, at_chain c d.
  Proof. intros S. destruct (scan_chain_runs g c) as (d & w & E & _); try apply S. by exists d. Qed.
  (** Blocks that are put on a common part of two chains *)
  Lemma step_up c d c' k bs : at_chain c d -> sound_chain g P c' -> (k <= length c)%nat -> take k c = take k c' -> bs = take MAX_FETCH_BLOCK_COUNT (drop k c') ->
    ∃ d', scan_blocks g (N.of_nat k) bs d = Ok d' ∧ at_chain (take k c' ++ bs) d'.
  Proof.
    intros [S E] S' Hk Ek ->.
    assert (Ec : c = take k c ++ drop k c) by (by rewrite take_drop).
    assert (Ek' : N.of_nat k = height (take k c)). { unfold height. rewrite take_length. lia. }
    assert (Eb : take k c' ++ take MAX_FETCH_BLOCK_COUNT (drop k c') = take (k + MAX_FETCH_BLOCK_COUNT) c').
    { rewrite take_take_drop. done. }
    pose proof (sound_prefix (k + MAX_FETCH_BLOCK_COUNT) c' S') as S2. rewrite <- Eb in S2. destruct (sound_runs _ S2) as (d' & Hd').
    exists d'. split; [|done]. rewrite Ek'. rewrite (reorganised g (take k c) (drop k c)).
    - rewrite Ek. apply Hd'.
    - rewrite <- Ec. apply S.
    - by rewrite <- Ec.
  Qed.

  Context (seen : nat -> option node) (HW : ∀ t n, seen t = Some n -> sound_node g P n).
  Lemma fetch_spec node_best c d t bs k : at_chain c d -> fetch_new_blocks g seen node_best (tip c) t = Ok (bs, k) ->
    ∃ c', sound_chain g P c' ∧ (k <= length c)%nat ∧ take k c = take k c' ∧ bs = take MAX_FETCH_BLOCK_COUNT (drop k c') ∧ bs ≠ [].
  Proof using HD HW.
    intros [S E] H. unfold fetch_new_blocks, ask in H. destruct (seen t) as [n1|] eqn:E1; [|done]. cbn [rbind] in H.
    set (r := WalletSyncModel.last_common_ancestor_by_id block_id (genesis_id g) (tip c) node_best n1) in *.
    assert (R : match r with Some x => x.1 = tip (take x.2 c) ∧ (x.2 <= length c)%nat | None => True end).
    { subst r. unfold WalletSyncModel.last_common_ancestor_by_id. destruct (known_chain (tip c) n1) as [p|] eqn:Ep; [|done].
      destruct (known_chain node_best n1) as [q|] eqn:Eq; [|done]. destruct (known_chain_spec _ _ _ (HW t n1 E1) Ep) as [Bp Tp]. destruct (known_chain_spec _ _ _ (HW t n1 E1) Eq) as [Bq _].
      rewrite (branch_unique p c Bp (sound_branch _ _ _ S) Tp) in *. cbn [fst snd]. split; [done|].
      exact (proj1 (common_height_spec c q (sound_branch _ _ _ S) Bq)). }
    assert (R' : ∃ id k', (match r with Some c => c | None => (genesis_id g, O) end) = (id, k') ∧ id = tip (take k' c) ∧ (k' <= length c)%nat).
    { destruct r as [[id k']|]; [exists id, k'; tauto|]. exists (genesis_id g), O. split_and!; [done|by rewrite take_0|lia]. }
    destruct R' as (id & k' & Er & -> & Hk). rewrite Er in H. clear r R Er. destruct (seen (Datatypes.S t)) as [n2|] eqn:E2; [|done]. cbn [rbind WalletSyncModel.get_mainchain_blocks] in H.
    destruct (take MAX_FETCH_BLOCK_COUNT (drop k' (nmain n2))) as [|b l] eqn:Et; [done|]. destruct (N.eqb_spec (prev_id b) (tip (take k' c))) as [Hb|]; [|done].
    injection H as <- <-. destruct (HW _ _ E2) as [S2 _]. exists (nmain n2). split_and!; try done.
    apply branch_unique; [by apply branch_take, S|by apply branch_take, S2|].
    rewrite <- Hb. destruct (sound_branch _ _ _ S2) as [L2 _].
    assert (Ed : ∃ l', drop k' (nmain n2) = b :: l'). { destruct (drop k' (nmain n2)) as [|x l'] eqn:Ed; [done|]. unfold MAX_FETCH_BLOCK_COUNT in Et. cbn in Et. injection Et as <- _. eauto. }
    destruct Ed as [l' Ed]. rewrite <- (take_drop k' (nmain n2)) in L2. rewrite Ed in L2. apply WalletSyncProofs.linked_app in L2 as [_ [L2 _]]. done.
  Qed.
  Lemma fetch_no_panic node_best best t : fetch_new_blocks g seen node_best best t ≠ Panic.
  Proof.
    unfold fetch_new_blocks, ask. destruct (seen t); [|done]. cbn [rbind]. destruct (match WalletSyncModel.last_common_ancestor_by_id _ _ _ _ _ with Some c => c | None => _ end) as [id k].
    destruct (seen (S t)); [|done]. cbn. destruct (take _ _) as [|b l]; [done|]. by destruct (_ =? _).
  Qed.

  Lemma sync_spec fuel : ∀ d t c, at_chain c d -> ∃ c' d' t' r, sync_once g seen fuel d t = ((d', t'), r) ∧ at_chain c' d' ∧ r ≠ Panic ∧
    (r = Ok tt -> ∃ n, seen (pred t') = Some n ∧ c' = nmain n).
  Proof using HD HW.
    induction fuel as [|fuel IH]; intros d t c A; cbn [sync_once].
    { exists c, d, t, (Err Interrupted). done. }
    unfold ask. destruct (seen t) as [n|] eqn:En; [|by exists c, d, (S t), (Err RemoteNode)].
    unfold WalletSyncModel.chainstate_info. rewrite (at_best c d A).
    destruct (N.eqb_spec (tip (nmain n)) (tip c)) as [Et|Et].
    { exists c, d, (S t), (Ok tt). split_and!; try done. intros _. exists n. split; [done|]. symmetry. apply branch_unique; [|apply A|done]. exact (sound_branch _ _ _ (proj1 (HW _ _ En))). }
    destruct (_ <? _). { by exists c, d, (S t), (Err NotEnoughBlockHeight). }
    destruct (fetch_new_blocks _ _ _ _ _) as [[bs k]|e|] eqn:Ef.
    - destruct (fetch_spec _ _ _ _ _ _ A Ef) as (c' & S' & Hk & Ek & Eb & _). destruct (step_up c d c' k bs A S' Hk Ek Eb) as (d' & Ed & A'). rewrite Ed. by eapply IH.
    - by exists c, d, (S (S (S t))), (Err e).
    - by destruct (fetch_no_panic _ _ _ Ef).
  Qed.

  (** ** A node that does not change *)
  Lemma common_height_prefix (p q : list block) : p `prefix_of` q -> common_height p q = length p.
  Proof. apply WalletSyncProofs.common_height_prefix. Qed.
  Lemma fetch_runs_calm n c d t : at_chain c d -> seen t = Some n -> seen (S t) = Some n -> tip (nmain n) ≠ tip c -> (length c <= length (nmain n))%nat ->
    ∃ k bs, fetch_new_blocks g seen (tip (nmain n)) (tip c) t = Ok (bs, k) ∧ bs ≠ [] ∧ bs = take MAX_FETCH_BLOCK_COUNT (drop k (nmain n)) ∧ take k c = take k (nmain n) ∧ (k <= length c)%nat ∧
      (c `prefix_of` nmain n -> k = length c).
  Proof using HD HW.
    intros [S E] E1 E2 Ht Hl. pose proof (HW _ _ E1) as Sn. unfold fetch_new_blocks, ask. rewrite E1, E2. cbn [rbind].
    set (r := WalletSyncModel.last_common_ancestor_by_id block_id (genesis_id g) (tip c) (tip (nmain n)) n).
    assert (R : ∃ id k, match r with Some c => c | None => (genesis_id g, O) end = (id, k) ∧ id = tip (take k c) ∧ (k <= length c)%nat ∧ take k c = take k (nmain n) ∧ (c `prefix_of` nmain n -> k = length c)).
    { subst r. unfold WalletSyncModel.last_common_ancestor_by_id. rewrite (known_chain_main n (nmain n) Sn) by done.
      destruct (known_chain (tip c) n) as [p|] eqn:Ep.
      - destruct (known_chain_spec _ _ _ Sn Ep) as [Bp Tp]. rewrite (branch_unique p c Bp (sound_branch _ _ _ S) Tp) in *. destruct Sn as [Sn _].
        destruct (common_height_spec c (nmain n) (sound_branch _ _ _ S) (sound_branch _ _ _ Sn)) as (H1 & H2 & H3).
        eexists _, _. split_and!; try done. apply common_height_prefix.
      - exists (genesis_id g), O. split_and!; try done; try lia. intros Hp. by rewrite (known_chain_main n c Sn Hp) in Ep. }
    destruct R as (id & k & -> & -> & Hk & Ek & Hpre). cbn [WalletSyncModel.get_mainchain_blocks].
    assert (Ed : ∃ b l, drop k (nmain n) = b :: l).
    { destruct (drop k (nmain n)) as [|b l] eqn:Ed; [|eauto]. exfalso. apply Ht. assert (length (drop k (nmain n)) = O) as L by (by rewrite Ed). rewrite drop_length in L.
      assert (k = length c) as -> by lia. rewrite firstn_all in Ek. rewrite take_ge in Ek by lia. by rewrite <- Ek. }
    destruct Ed as (b & l & Ed). rewrite Ed. unfold MAX_FETCH_BLOCK_COUNT. cbn [take].
    assert (Hb : prev_id b = tip (take k c)).
    { destruct Sn as [Sn _]. destruct (sound_branch _ _ _ Sn) as [L2 _]. rewrite <- (take_drop k (nmain n)) in L2. rewrite Ed in L2. apply WalletSyncProofs.linked_app in L2 as [_ [L2 _]]. by rewrite Ek. }
    rewrite Hb, N.eqb_refl. eexists _, _. split_and!; try done. by rewrite Ed.
  Qed.
  Lemma sync_prefix n fuel : ∀ d t c, at_chain c d -> (∀ t', (t <= t')%nat -> seen t' = Some n) -> c `prefix_of` nmain n -> (length (nmain n) < length c + fuel)%nat ->
    ∃ d' t', sync_once g seen fuel d t = ((d', t'), Ok tt) ∧ at_chain (nmain n) d'.
  Proof using HD HW.
    induction fuel as [|fuel IH]; intros d t c A Hc Hp Hf.
    { apply prefix_length in Hp. lia. }
    cbn [sync_once]. unfold ask. rewrite (Hc t) by lia. unfold WalletSyncModel.chainstate_info. rewrite (at_best c d A).
    pose proof (prefix_length _ _ Hp) as Hl.
    destruct (N.eqb_spec (tip (nmain n)) (tip c)) as [Et|Et].
    { exists d, (S t). split; [done|]. rewrite <- (branch_unique c (nmain n)) ; [done|apply A| |done]. exact (sound_branch _ _ _ (proj1 (HW t n (Hc t (le_n t))))). }
    assert ((N.of_nat (length (nmain n)) <? height c) = false) as ->. { unfold height. lia. }
    destruct (fetch_runs_calm n c d (S t) A) as (k & bs & -> & Hbs & Eb & Ek & Hk & Hpre); try done; try (apply Hc; lia).
    pose proof (Hpre Hp) as ->. assert (Sn : sound_chain g P (nmain n)). { exact (proj1 (HW t n (Hc t (le_n t)))). }
    destruct (step_up c d (nmain n) (length c) bs A Sn Hk Ek Eb) as (d' & -> & A').
    apply (IH d' (S (S (S t))) _ A').
    - intros t' Ht'. apply Hc. lia.
    - rewrite Eb, take_take_drop. exists (drop (length c + MAX_FETCH_BLOCK_COUNT) (nmain n)). by rewrite take_drop.
    - rewrite app_length, take_length. assert (length bs ≠ O) by (by destruct bs). lia.
  Qed.
  Lemma sync_done n fuel d t c : at_chain c d -> (∀ t', (t <= t')%nat -> seen t' = Some n) -> (length c <= length (nmain n))%nat -> (S (length (nmain n)) < fuel)%nat ->
    ∃ d' t', sync_once g seen fuel d t = ((d', t'), Ok tt) ∧ at_chain (nmain n) d'.
  Proof using HD HW.
    intros A Hc Hl Hf. destruct fuel as [|fuel]; [lia|].
    cbn [sync_once]. unfold ask. rewrite (Hc t) by lia. unfold WalletSyncModel.chainstate_info. rewrite (at_best c d A).
    destruct (N.eqb_spec (tip (nmain n)) (tip c)) as [Et|Et].
    { exists d, (S t). split; [done|]. rewrite <- (branch_unique c (nmain n)) ; [done|apply A| |done]. exact (sound_branch _ _ _ (proj1 (HW t n (Hc t (le_n t))))). }
    assert ((N.of_nat (length (nmain n)) <? height c) = false) as ->. { unfold height. lia. }
    destruct (fetch_runs_calm n c d (S t) A) as (k & bs & -> & Hbs & Eb & Ek & Hk & Hpre); try done; try (apply Hc; lia).
    assert (Sn : sound_chain g P (nmain n)). { exact (proj1 (HW t n (Hc t (le_n t)))). }
    destruct (step_up c d (nmain n) k bs A Sn Hk Ek Eb) as (d' & -> & A').
    apply (sync_prefix n fuel d' (S (S (S t))) _ A').
    - intros t' Ht'. apply Hc. lia.
    - rewrite Eb, take_take_drop. exists (drop (k + MAX_FETCH_BLOCK_COUNT) (nmain n)). by rewrite take_drop.
    - rewrite app_length, take_length. assert (length bs ≠ O) by (by destruct bs). lia.
  Qed.
End Sync.
