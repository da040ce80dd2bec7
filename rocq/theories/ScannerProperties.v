(** C88: what the API server shows for an address is what the chain says, up to the rewards; how it follows the node, and where it fails. *)
From Coq Require Import Zify ZifyN ZifyBool.
From Verif Require Import Base ScannerModel ScannerSpec ScannerTables ScannerChain ScannerProgress ScannerSync ScannerFinal ScannerExamples.
From Verif Require BlockTreeSpec WalletSyncModel.
Local Open Scope N_scope.

(** Genesis has proper outputs *)
Notation good_genesis g := (valid_chain g []).

(** After any history of calls, reorganisations among them, the tables are those of scanning the present chain alone. *)
Theorem C88_history g c d : good_genesis g -> history g c d -> scan_chain g c = Ok d.
Proof. intros G H. destruct (history_scan g c d (valid_genesis _ _ G) (valid_places _ _ G) H) as [_ E]. exact E. Qed.

(** The balance shown is what the address may spend, plus the rewards to it that were spent or are locked. *)
Theorem C88_balance g c d a k : good_genesis g -> history g c d -> default 0 (get_address_balance a k d) = funds g c a k + excess g c a k.
Proof. intros G H. destruct (history_inv g c d (valid_genesis _ _ G) (valid_places _ _ G) H) as [w CI]. exact (shown_balance g c w d CI a k). Qed.
(** So it is exact for an address whose rewards, if any, are open and not spent. *)
Theorem C88_balance_exact g c d a k : good_genesis g -> history g c d ->
  (∀ e, e ∈ made_on g c -> is_reward e = true -> value a k (what e) ≠ 0 -> place e ∉ spent_on c ∧ is_open (height c) (median_at g c) e = true) ->
  default 0 (get_address_balance a k d) = funds g c a k.
Proof.
  intros G H HR. rewrite (C88_balance g c d a k G H). assert (excess g c a k = 0) as ->; [|lia]. unfold excess. etrans; [|apply (total_0 (made_on g c))]. apply total_ext.
  intros e He. destruct (is_reward e) eqn:Er; [|done]. destruct (N.eq_dec (value a k (what e)) 0) as [->|Hv]; [by destruct (_ && _)|].
  destruct (HR e He Er Hv) as [Hs Ho]. by rewrite bool_decide_eq_true_2, Ho.
Qed.
(** The locked balance shown is what is locked for the address, without the rewards. *)
Theorem C88_locked_balance g c d a k : good_genesis g -> history g c d -> default 0 (get_address_locked_balance a k d) + locked_rewards g c a k = locked_funds g c a k.
Proof. intros G H. destruct (history_inv g c d (valid_genesis _ _ G) (valid_places _ _ G) H) as [w CI]. exact (shown_locked g c w d CI a k). Qed.
(** Locks are judged by the median of the times of the last eleven blocks. *)
Theorem C88_median g c : BlockTreeSpec.is_median (median_at g c) (take 11 (times g c)).
Proof. apply median_at_spec. Qed.

(** The outputs listed for an address are its outputs that are not spent and not locked (those of rewards even if locked), each once. *)
Theorem C88_available_outputs g c d a : good_genesis g -> history g c d -> ∃ l, get_address_available_utxos a d = Ok l ∧ NoDup (map fst l) ∧ ∀ o out, (o, out) ∈ l ↔
  ∃ e, e ∈ made_on g c ∧ place e = o ∧ what e = out ∧ o ∉ spent_on c ∧ (is_reward e || is_open (height c) (median_at g c) e = true) ∧ a ∈ owners out.
Proof. intros G H. destruct (history_inv g c d (valid_genesis _ _ G) (valid_places _ _ G) H) as [w CI]. exact (available g c w d CI a). Qed.
(** With the locked ones: all that are not spent. *)
Theorem C88_all_outputs g c d a : good_genesis g -> history g c d -> ∃ l, get_address_all_utxos a d = Ok l ∧ NoDup (map fst l) ∧ ∀ o out, (o, out) ∈ l ↔
  ∃ e, e ∈ made_on g c ∧ place e = o ∧ what e = out ∧ o ∉ spent_on c ∧ a ∈ owners out.
Proof. intros G H. destruct (history_inv g c d (valid_genesis _ _ G) (valid_places _ _ G) H) as [w CI]. exact (all_listed g c w d CI a). Qed.

(** No call fails on valid blocks whose numbers fit, whatever chain was scanned before. *)
Theorem C88_keeps_scanning g c d k bs : good_genesis g -> history g c d -> (k <= length c)%nat ->
  let c' := take k c ++ bs in valid_chain g c' -> amounts_fit g c' -> locks_fit g c' -> tokens_unique g c' ->
  ∃ d', scan_blocks g (N.of_nat k) bs d = Ok d' ∧ history g c' d'.
Proof.
  intros G H Hk c' V A L T. destruct (history_scan g c d (valid_genesis _ _ G) (valid_places _ _ G) H) as [V0 E0].
  destruct (scan_chain_runs g c' V A L T) as (d' & _ & E & _). exists d'. assert (E' : scan_blocks g (N.of_nat k) bs d = Ok d').
  { rewrite <- E. replace (N.of_nat k) with (height (take k c)) by (unfold height; rewrite take_length; lia). apply (reorganised g (take k c) (drop k c)); by rewrite take_drop. }
  split; [done|]. by eapply history_blocks.
Qed.

(** Synchronising with a node that may change at any time, and fail to answer: the tables are always those of a chain of the node's; when the call ends well,
    of the node's main chain at that moment. *)
Theorem C88_follows_node g exists_ seen fuel d t c : distinct g exists_ -> (∀ t n, seen t = Some n -> sound_node g exists_ n) ->
  sound_chain g exists_ c -> scan_chain g c = Ok d ->
  ∃ c' d' t' r, sync_once g seen fuel d t = ((d', t'), r) ∧ sound_chain g exists_ c' ∧ scan_chain g c' = Ok d' ∧ r ≠ Panic ∧
    (r = Ok tt -> ∃ n, seen (pred t') = Some n ∧ c' = WalletSyncModel.main n).
Proof. intros HD HW S E. destruct (sync_spec g exists_ HD seen HW fuel d t c (conj S E)) as (c' & d' & t' & r & E' & [S' Ed] & Hr & Hn). exists c', d', t', r. done. Qed.
(** With a node that no longer changes the call ends well, if the node's chain is not shorter. *)
Theorem C88_catches_up g exists_ seen fuel d t c n : distinct g exists_ -> (∀ t n, seen t = Some n -> sound_node g exists_ n) ->
  sound_chain g exists_ c -> scan_chain g c = Ok d -> (∀ t', (t <= t')%nat -> seen t' = Some n) ->
  (length c <= length (WalletSyncModel.main n))%nat -> (length (WalletSyncModel.main n) + 1 < fuel)%nat ->
  ∃ d' t', sync_once g seen fuel d t = ((d', t'), Ok tt) ∧ scan_chain g (WalletSyncModel.main n) = Ok d'.
Proof.
  intros HD HW S E Hc Hl Hf. destruct (sync_done g exists_ HD seen HW n fuel d t c (conj S E) Hc Hl ltac:(lia)) as (d' & t' & E' & [_ Ed]). by exists d', t'.
Qed.

(** * Where it fails *)
(** A reward that was spent is still shown: the first address spent its 100. *)
Theorem C88_spent_reward_refuted : ¬ ∀ g c d a k, valid_chain g c -> scan_chain g c = Ok d -> default 0 (get_address_balance a k d) = funds g c a k.
Proof.
  intros H. destruct (show_ok (fun d => default 0 (get_address_balance 1 Coin d)) (scan_chain gen [b1]) 100) as (d & Ed & Eb); [vm_compute; reflexivity|].
  assert (V : valid_chain gen [b1]) by (apply (valid_chain_app gen [b1] [b2; b3]), the_chain_valid). rewrite (H gen [b1] d 1 Coin V Ed) in Eb. vm_compute in Eb. discriminate.
Qed.
(** A reward that is locked is not shown as locked, *)
Theorem C88_locked_reward_refuted : ¬ ∀ g c d a, valid_chain g c -> scan_chain g c = Ok d -> default 0 (get_address_locked_balance a Coin d) = locked_funds g c a Coin.
Proof.
  intros H. destruct (show_ok (fun d => default 0 (get_address_locked_balance 3 Coin d)) (scan_chain gen the_fork) 0) as (d & Ed & Eb); [vm_compute; reflexivity|].
  rewrite (H gen the_fork d 3 the_fork_valid Ed) in Eb. vm_compute in Eb. discriminate.
Qed.
(** and is listed among the outputs that may be spent. *)
Theorem C88_locked_reward_listed_refuted : ¬ ∀ g c d a l o out, valid_chain g c -> scan_chain g c = Ok d ->
  get_address_available_utxos a d = Ok l -> (o, out) ∈ l -> ∃ e, free_on g c e ∧ place e = o.
Proof.
  intros H. destruct (show_ok (fun d => get_address_available_utxos 3 d) (scan_chain gen the_fork)
    (Ok [((Transaction 15, 0), Transfer (Coin, 60) 3); ((BlockReward 4, 0), LockThenTransfer (Coin, 5) 3 (ForBlockCount 100))])) as (d & Ed & Eb); [vm_compute; reflexivity|].
  destruct (H gen the_fork d 3 _ (BlockReward 4, 0) (LockThenTransfer (Coin, 5) 3 (ForBlockCount 100)) the_fork_valid Ed Eb (elem_of_list_further _ _ _ (elem_of_list_here _ _))) as (e & (He & _ & Ho) & Hp).
  assert (F : forallb (fun e => negb (bool_decide (place e = (BlockReward 4, 0))) || negb (is_open (height the_fork) (median_at gen the_fork) e)) (made_on gen the_fork) = true) by (vm_compute; reflexivity).
  pose proof (forallb_elem _ _ e F He) as Q. cbv beta in Q. rewrite Ho, bool_decide_eq_true_2 in Q by done. done.
Qed.
(** The owner of a token is lost when its lock ends, *)
Theorem C88_unlocked_token_refuted : ¬ ∀ g c d t a e, valid_chain g c -> tokens_unique g c -> scan_chain g c = Ok d ->
  free_on g c e -> value a (TokenId t) (what e) = 1 -> get_nft_owner t d = Some (Some a).
Proof.
  intros H. destruct (show_ok (fun d => get_nft_owner 7 d) (scan_chain gen the_chain) (Some None)) as (d & Ed & Eb); [vm_compute; reflexivity|].
  rewrite (H gen the_chain d 7 1 (Made (Transaction 13, 0) (LockThenTransfer (TokenId 7, 1) 1 (UntilHeight 3)) 2 1020) the_chain_valid (proj2 (proj2 the_chain_fits)) Ed) in Eb; [done| |vm_compute; reflexivity].
  split_and!; [|by apply (bool_decide_eq_true (_ ∉ spent_on the_chain)); vm_compute|vm_compute; reflexivity].
  apply elem_of_list_In. vm_compute. tauto.
Qed.
(** and anyone can remove it with an output of nothing. *)
Definition b2z : block := Block 5 1 1022 [Tx 16 [] [Transfer (TokenId 7, 0) 3]] [] [].
Theorem C88_token_owner_removed_refuted : ¬ ∀ g c b d d' t, valid_chain g (c ++ [b]) -> tokens_unique g (c ++ [b]) -> scan_chain g c = Ok d -> scan_chain g (c ++ [b]) = Ok d' ->
  (∀ x, x ∈ txs b -> spends x = []) -> get_nft_owner t d' = get_nft_owner t d.
Proof.
  intros H. destruct (show_ok (fun d => get_nft_owner 7 d) (scan_chain gen [b1]) (Some (Some 2))) as (d & Ed & Eb); [vm_compute; reflexivity|].
  destruct (show_ok (fun d => get_nft_owner 7 d) (scan_chain gen ([b1] ++ [b2z])) (Some None)) as (d' & Ed' & Eb'); [vm_compute; reflexivity|].
  rewrite (H gen [b1] b2z d d' 7) in Eb'; try done.
  - congruence.
  - apply valid_chainb_ok. vm_compute. reflexivity.
  - apply (bool_decide_eq_true (NoDup _)). vm_compute. reflexivity.
  - intros x Hx. apply elem_of_list_singleton in Hx as ->. done.
Qed.
(** A lock for too many blocks, valid on the chain, stops the scanner for good. *)
Definition b2m : block := Block 6 1 1023 [Tx 17 [(Transaction 11, 0)] [LockThenTransfer (Coin, 60) 2 (ForBlockCount U64_MAX)]] [] [].
Theorem C88_keeps_scanning_refuted : ¬ ∀ g c, valid_chain g c -> amounts_fit g c -> tokens_unique g c -> ∃ d, scan_chain g c = Ok d.
Proof.
  intros H. destruct (H gen [b1; b2m]) as [d Ed].
  - apply valid_chainb_ok. vm_compute. reflexivity.
  - apply amounts_fit_all. vm_compute. discriminate.
  - apply (bool_decide_eq_true (NoDup _)). vm_compute. reflexivity.
  - assert (Q : show (fun _ => tt) (scan_chain gen [b1; b2m]) = None) by (vm_compute; reflexivity). rewrite Ed in Q. done.
Qed.
(** When the node's main chain becomes a shorter one, the scanner keeps to the old. *)
Definition old_chain : list block := [b1; b2].
Definition new_chain : list block := [Block 8 0 1011 [] [] []].
Definition all_blocks (b : block) : Prop := b ∈ old_chain ++ new_chain.
Lemma three_blocks b : all_blocks b -> b = b1 ∨ b = b2 ∨ b = Block 8 0 1011 [] [] [].
Proof. intros H. unfold all_blocks, old_chain, new_chain in H. apply elem_of_list_In in H. cbn in H. naive_solver. Qed.
Lemma genesis_locks c : made_on gen c = made_on gen [] -> locks_fit gen c.
Proof. intros E e He Hr. rewrite E in He. apply elem_of_list_In in He. cbn in He. destruct He as [<-|[<-|[]]]; done. Qed.
Lemma shorter_sound : distinct gen all_blocks ∧ sound_chain gen all_blocks old_chain ∧ sound_node gen all_blocks (WalletSyncModel.Node new_chain [old_chain]).
Proof.
  assert (B1 : branch gen all_blocks old_chain). { split; [done|]. unfold all_blocks. repeat constructor. }
  assert (B2 : branch gen all_blocks new_chain). { split; [done|]. unfold all_blocks. repeat constructor. }
  split_and!.
  - split.
    + intros a b Ha Hb. apply three_blocks in Ha, Hb. destruct Ha as [ -> |[ -> | -> ]], Hb as [ -> |[ -> | -> ]]; done.
    + intros b Hb. apply three_blocks in Hb. destruct Hb as [ -> |[ -> | -> ]]; done.
  - destruct the_chain_fits as (_ & L & _). split; [done| | | |].
    + apply (valid_chain_app gen [b1; b2] [b3]), the_chain_valid.
    + apply amounts_fit_all. vm_compute. discriminate.
    + intros e He. apply L. change the_chain with (old_chain ++ [b3]). rewrite made_on_snoc. apply elem_of_app. by left.
    + apply (bool_decide_eq_true (NoDup _)). vm_compute. reflexivity.
  - split.
    + cbn [WalletSyncModel.main]. split; [done| | | |].
      * apply valid_chainb_ok. vm_compute. reflexivity.
      * apply amounts_fit_all. vm_compute. discriminate.
      * by apply genesis_locks.
      * apply (bool_decide_eq_true (NoDup _)). vm_compute. reflexivity.
    + intros c Hc. cbn in Hc. apply elem_of_list_singleton in Hc as ->. done.
Qed.
Theorem C88_catches_up_refuted : ¬ ∀ g exists_ seen d t c n, distinct g exists_ -> (∀ t n, seen t = Some n -> sound_node g exists_ n) ->
  sound_chain g exists_ c -> scan_chain g c = Ok d -> (∀ t', (t <= t')%nat -> seen t' = Some n) ->
  ∃ fuel d' t', sync_once g seen fuel d t = ((d', t'), Ok tt).
Proof.
  intros H. destruct shorter_sound as (HD & S1 & S2). destruct (sound_runs gen all_blocks old_chain S1) as (d & A).
  set (n := WalletSyncModel.Node new_chain [old_chain]) in *.
  destruct (H gen all_blocks (fun _ => Some n) d O old_chain n HD) as (fuel & d' & t' & E); try done.
  { intros _ ? [= <-]. done. } { apply A. }
  destruct fuel as [|fuel]; [done|]. cbn [sync_once] in E. unfold ask in E. rewrite (at_best gen all_blocks old_chain d A) in E. done.
Qed.

(** * Concrete cases *)
(** The chain of [the_chain], reached over the fork: what is shown *)
Lemma gen_valid : valid_chain gen [].
Proof. exact (valid_chain_app gen [] the_chain the_chain_valid). Qed.
Example history_case : ∃ d1 d2, history gen the_fork d1 ∧ scan_blocks gen 1 [b2; b3] d1 = Ok d2 ∧ history gen the_chain d2.
Proof.
  destruct (scan_chain_runs gen []) as (d0 & _ & E0 & _).
  { apply gen_valid. } { apply amounts_fit_all. vm_compute. discriminate. } { by apply genesis_locks. } { constructor. }
  assert (H0 : ∃ d, history gen [] d).
  { unfold scan_chain in E0. destruct (scan_genesis gen) as [d|?|] eqn:E; try done. exists d. by constructor. }
  destruct H0 as [d H0].
  destruct (C88_keeps_scanning gen [] d 0 the_fork gen_valid H0 (Nat.le_0_l _) the_fork_valid) as (d1 & E1 & H1).
  { apply amounts_fit_all. vm_compute. discriminate. }
  { intros e He. assert (Forall (fun e => is_reward e = false -> lock_fits e) (made_on gen the_fork)) as F; [|rewrite Forall_forall in F; by apply F].
    cbn. repeat (apply Forall_cons; split); try (intros _; cbn; try done; vm_compute; discriminate). constructor. }
  { apply (bool_decide_eq_true (NoDup _)). vm_compute. reflexivity. }
  destruct the_chain_fits as (A & L & T).
  destruct (C88_keeps_scanning gen the_fork d1 1 [b2; b3] gen_valid H1 ltac:(cbn; lia) the_chain_valid A L T) as (d2 & E2 & H2).
  exists d1, d2. done.
Qed.
(** 2 has 40 - 40, the reward of 5; 1 has 20 and 70, and is shown the 100 of genesis besides *)
Example shown_case : show (fun d => (get_address_balance 1 Coin d, get_address_balance 2 Coin d, get_address_locked_balance 2 Coin d)) (scan_chain gen the_chain) = Some (Some 190, Some 5, Some 0)
  ∧ funds gen the_chain 1 Coin = 90 ∧ excess gen the_chain 1 Coin = 100 ∧ funds gen the_chain 2 Coin = 5 ∧ excess gen the_chain 2 Coin = 0.
Proof. split_and!; vm_compute; reflexivity. Qed.
(** Before, 30 were locked for 2 *)
Example locked_case : show (fun d => (get_address_balance 2 Coin d, get_address_locked_balance 2 Coin d)) (scan_chain gen [b1; b2]) = Some (Some 40, Some 30) ∧ locked_funds gen [b1; b2] 2 Coin = 30.
Proof. split; vm_compute; reflexivity. Qed.
Example listed_case : show (fun d => (get_address_available_utxos 2 d, get_address_all_utxos 2 d)) (scan_chain gen [b1; b2]) =
  Some (Ok [((Transaction 12, 1), Transfer (Coin, 40) 2)], Ok [((Transaction 11, 1), LockThenTransfer (Coin, 30) 2 (ForBlockCount 2)); ((Transaction 12, 1), Transfer (Coin, 40) 2)]).
Proof. vm_compute. reflexivity. Qed.
(** From the short chain to the long one, over a reorganisation *)
Definition to_old (t : nat) : option (@WalletSyncModel.node block) := Some (WalletSyncModel.Node old_chain [new_chain]).
Example follows_case : ∃ d d', scan_chain gen new_chain = Ok d ∧ scan_chain gen old_chain = Ok d' ∧ (sync_once gen to_old 5 d 0).2 = Ok tt ∧ get_best_block gen (sync_once gen to_old 5 d 0).1.1 = (2, 2).
Proof.
  destruct (show_ok (fun d => ((sync_once gen to_old 5 d 0).2, get_best_block gen (sync_once gen to_old 5 d 0).1.1)) (scan_chain gen new_chain) (Ok tt, (2, 2))) as (d & Ed & E); [vm_compute; reflexivity|].
  destruct (show_ok (fun _ => tt) (scan_chain gen old_chain) tt) as (d' & Ed' & _); [vm_compute; reflexivity|]. injection E as E1 E2. by exists d, d'.
Qed.

Print Assumptions C88_history.
Print Assumptions C88_balance.
Print Assumptions C88_balance_exact.
Print Assumptions C88_locked_balance.
Print Assumptions C88_median.
Print Assumptions C88_available_outputs.
Print Assumptions C88_all_outputs.
Print Assumptions C88_keeps_scanning.
Print Assumptions C88_follows_node.
Print Assumptions C88_catches_up.
Print Assumptions C88_spent_reward_refuted.
Print Assumptions C88_locked_reward_refuted.
Print Assumptions C88_locked_reward_listed_refuted.
Print Assumptions C88_unlocked_token_refuted.
Print Assumptions C88_token_owner_removed_refuted.
Print Assumptions C88_keeps_scanning_refuted.
Print Assumptions C88_catches_up_refuted.
