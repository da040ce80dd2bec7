(** C87: a wallet follows the chain of its node: whatever the node does meanwhile and wherever the synchronisation stops, the accounts hold what
    is on a chain, nothing else, and nothing is missing; a wallet that calls itself synchronised has what the node has. *)
From Verif Require Import Base WalletSyncModel WalletSyncSpec WalletSyncProofs WalletSyncScan WalletSyncRun WalletSyncEnd.

Section Properties.
  Context {B : Type} (bid prev : B -> N) (genesis : N) (concerns : nat -> list (nat * B) -> B -> bool) (max_index : nat).
  Notation sync_once := (sync_once bid prev genesis concerns max_index).
  Notation stands_on := (stands_on bid prev genesis).
  Notation follows := (follows bid prev genesis concerns).
  Notation sound := (sound bid prev genesis).
  Notation complete := (complete bid prev genesis concerns).
  Notation no_gaps := (no_gaps bid prev genesis concerns max_index).

  (** Nothing that is not on a chain is held: after a run of the synchronisation, however it ends and wherever it is stopped, every account still
      stands on a chain, given that all accounts were at the same block or that the chain of the node only grew *)
  Theorem C87_nothing_stale (W : @world B) fuel (w : wallet) t w' t' r :
    no_collisions bid genesis -> good_world bid prev genesis W -> level w ∨ growing_from t W ->
    sound w -> sync_once W fuel (w, t) = ((w', t'), r) -> sound w'.
  Proof. intros Hn HW Hc Hw Hr. by eapply (sync_once_sound bid prev genesis concerns max_index Hn W HW) in Hr as (? & _). Qed.

  (** Nothing is missed, unless the scan for the unused account failed *)
  Theorem C87_nothing_missed (W : @world B) fuel (w : wallet) t w' t' r :
    no_collisions bid genesis -> good_world bid prev genesis W -> level w ∨ growing_from t W -> no_gaps ->
    complete w -> sync_once W fuel (w, t) = ((w', t'), r) -> r ≠ Err (WalletError OfUnusedAccount) -> complete w'.
  Proof.
    intros Hn HW Hc Hg Hw Hr Hne.
    eapply (sync_once_sound bid prev genesis concerns max_index Hn W HW) in Hr as (_ & _ & _ & H4 & _); [by apply H4| |done].
    by eapply complete_sound.
  Qed.

  (** When the wallet is told to be synchronised, every account has on record what concerns it on the main chain of the node as it was at some
      time during the run, and nothing else; and so for the account that is not yet used *)
  Theorem C87_synced (W : @world B) fuel (w : wallet) t w' t' :
    no_collisions bid genesis -> good_world bid prev genesis W -> level w ∨ growing_from t W -> no_gaps ->
    complete w -> sync_once W fuel (w, t) = ((w', t'), Ok Synced) ->
    ∃ t1 n, (t <= t1 < t')%nat ∧ seen W t1 = Some n ∧
      (∀ i a, accounts w' !! i = Some a -> follows i a (main n)) ∧ follows (length (accounts w')) (unused w') (main n).
  Proof.
    intros Hn HW Hc Hg Hw Hr. pose proof (C87_nothing_missed W fuel w t w' t' _ Hn HW Hc Hg Hw Hr ltac:(done)) as (Hne & Hacc & cu & Hcu & _).
    eapply (sync_once_sound bid prev genesis concerns max_index Hn W HW) in Hr as (_ & _ & _ & _ & H5); [|by eapply complete_sound|done].
    destruct (H5 eq_refl) as (t1 & n & Ht & Hseen & Hb). exists t1, n. split; [done|]. split; [done|].
    assert (∀ i a c, best a ∈ best_blocks w' -> follows i a c -> follows i a (main n)) as Hmain.
    { intros i a c Hin Hf. assert (c = main n) as <-; [|done]. destruct Hf as [(Hl & Hbest & _) _].
      apply (chain_unique bid prev genesis Hn); [done|by destruct (HW t1 n Hseen)|]. rewrite <- (Hb _ Hin), Hbest. done. }
    split.
    - intros i a Ha. destruct (Hacc i a Ha) as [c Hf]. eapply Hmain; [|done]. unfold best_blocks. apply elem_of_app. left. apply elem_of_list_fmap.
      exists a. split; [done|]. by eapply elem_of_list_lookup_2.
    - eapply Hmain; [|done]. unfold best_blocks. apply elem_of_app. right. constructor.
  Qed.

  (** If all accounts are at the same block the synchronisation never panics, whatever the node does *)
  Theorem C87_no_panic (W : @world B) fuel (w : wallet) t w' t' r :
    no_collisions bid genesis -> good_world bid prev genesis W -> sound w -> level w ->
    sync_once W fuel (w, t) = ((w', t'), r) -> r ≠ Panic.
  Proof. intros Hn HW Hw Hl Hr. eapply (sync_once_sound bid prev genesis concerns max_index Hn W HW) in Hr as (_ & _ & H3 & _); auto. Qed.

  (** If the node does not change and nothing fails, the synchronisation ends, and the wallet is synchronised; the node must not be lower than the
      wallet *)
  Theorem C87_sync_ends (W : @world B) n (w : wallet) t :
    no_collisions bid genesis -> good_node bid prev genesis n -> calm_from t n W -> no_gaps -> complete w -> level w ->
    (∀ b, b ∈ best_blocks w -> (b.2 <= length (main n))%nat) ->
    ∃ fuel w' t', sync_once W fuel (w, t) = ((w', t'), Ok Synced).
  Proof. intros Hn Hnode Hcalm Hg Hw Hl Hh. by apply (calm_sync_ends bid prev genesis concerns max_index Hn W n Hnode Hg). Qed.

  (** The claim that a wallet is never stopped by a panic is false: if one account is at the best block of the node and another is not (after a
      crash between the two) then the synchronisation panics, and does so again after a restart, until the node has a new block *)
  Theorem C87_out_of_step_panics_refuted (W : @world B) n fuel (w : wallet) t a b :
    calm_from t n W -> a ∈ best_blocks w -> a.1 = tip bid genesis (main n) -> b ∈ best_blocks w -> b.1 ≠ tip bid genesis (main n) ->
    (∀ b, b ∈ best_blocks w -> (b.2 <= length (main n))%nat) ->
    ∃ t', sync_once W (S fuel) (w, t) = ((w, t'), Panic).
  Proof.
    intros Hcalm Ha Hat Hb Hbt Hh. cbn [WalletSyncModel.sync_once]. unfold call at 1. simpl fst. simpl snd.
    destruct (Hcalm t) as (-> & _ & _); [lia|]. cbn [sbind]. unfold chainstate_info. cbn [fst snd].
    assert (forallb (fun b => (b.1 =? tip bid genesis (main n))%N) (best_blocks w) = false) as ->.
    { apply not_true_iff_false. rewrite forallb_forall. intros Hf. specialize (Hf b (proj1 (elem_of_list_In _ _) Hb)). apply N.eqb_eq in Hf. done. }
    assert (existsb (fun b => (length (main n) <? b.2)%nat) (best_blocks w) = false) as ->.
    { apply not_true_iff_false. rewrite existsb_exists. intros (b' & Hb' & Hlt'). apply elem_of_list_In in Hb'. specialize (Hh b' Hb').
      apply Nat.ltb_lt in Hlt'. lia. }
    unfold group_accounts_by_mainchain_blocks. cbn [fst].
    assert (∃ l, (a, l) ∈ grouped w) as [l Hl].
    { assert (∃ x, ∃ c, get w x = Some c ∧ best c = a) as (x & c & Hx & Hc).
      { unfold best_blocks in Ha. apply elem_of_app in Ha as [Ha|Ha].
        - apply elem_of_list_fmap in Ha as (c & -> & Hc). apply elem_of_list_lookup in Hc as [i Hi]. by exists (UsedAccount i), c.
        - apply elem_of_list_singleton in Ha as ->. by exists UnusedAccount, (unused w). }
      assert (x ∈ concat (map snd (grouped w))) as Hin. { rewrite grouped_perm. apply all_types_get. by exists c. }
      apply elem_of_list_In, in_concat in Hin as (l & Hl & Hxl). apply in_map_iff in Hl as ([k l'] & Heq & Hl). simpl in Heq. subst l'.
      exists l. apply elem_of_list_In in Hl, Hxl. destruct (grouped_best w k l x Hl Hxl) as (c' & Hc' & Hk). rewrite Hx in Hc'. by simplify_eq. }
    assert (∀ k l, (k, l) ∈ grouped w -> (k.2 <= length (main n))%nat) as Hkeys. { intros k l' Hin. apply Hh. by eapply grouped_key. }
    revert Hl Hkeys. assert (t <= S t)%nat as Ht by lia. revert Ht. generalize (S t). generalize (grouped w). clear Ha Hb Hh.
    intros g. assert (∀ t0, (t <= t0)%nat -> (a, l) ∈ g -> (∀ k l, (k, l) ∈ g -> (k.2 <= length (main n))%nat) ->
      ∃ t', with_common_blocks bid genesis W (tip bid genesis (main n), length (main n)) g (w, t0) = ((w, t'), Panic)) as Hpanic.
    { induction g as [|[k l'] g IH]; intros t0 Ht0 Hin Hk; [by apply elem_of_nil in Hin|]. cbn [with_common_blocks]. unfold get_common_block_info. cbn [fst snd].
      destruct (N.eqb_spec (tip bid genesis (main n)) k.1) as [Heq|Hne]; [by exists t0|].
      rewrite (proj2 (Nat.ltb_ge _ _)) by (apply (Hk k l'); constructor). unfold call. cbn [fst snd]. destruct (Hcalm t0) as (-> & _ & _); [lia|]. cbn [sbind].
      apply elem_of_cons in Hin as [[= -> ->]|Hin]; [congruence|].
      destruct (IH (S t0)) as [t' Ht']; [lia|done| |].
      - intros k' l2 Hin2. apply (Hk k' l2). by constructor.
      - exists t'. by rewrite Ht'. }
    intros t0 Ht0 Hin Hk. destruct (Hpanic t0 Ht0 Hin Hk) as [t' Ht']. exists t'. rewrite Ht'. done.
  Qed.
End Properties.

(** Two branches: A1 A2 A3 A4 and A1 B2 B3 B4 B5. A1 concerns account 0, A2 concerns account 1, B2 both, A3 concerns accounts 0 and 2. *)
Module WalletSyncExample.
  Inductive blk := A1 | A2 | A3 | A4 | B2 | B3 | B4 | B5.
  Definition bid (b : blk) : N := match b with A1 => 11 | A2 => 12 | A3 => 13 | A4 => 14 | B2 => 22 | B3 => 23 | B4 => 24 | B5 => 25 end.
  Definition genesis : N := 1.
  Definition prev (b : blk) : N := match b with A1 => 1 | A2 => 11 | A3 => 12 | A4 => 13 | B2 => 11 | B3 => 22 | B4 => 23 | B5 => 24 end.
  Definition pays (b : blk) : list nat := match b with A1 => [0] | B2 => [0; 1] | A2 => [1] | A3 => [0; 2] | _ => [] end%nat.
  Definition concerns (i : nat) (_ : list (nat * blk)) (b : blk) : bool := existsb (Nat.eqb i) (pays b).
  Definition a_chain := [A1; A2; A3; A4].
  Definition b_chain := [A1; B2; B3; B4; B5].
  Definition a_node := Node a_chain [b_chain].
  Definition b_node := Node b_chain [a_chain].
  Definition max_index : nat := 10.

  (** The node changes its branch at time 50 *)
  Definition W : world := World (fun t => if (50 <=? t)%nat then Some b_node else Some a_node) (fun _ => true) (fun _ => true).
  Definition calm : world := World (fun _ => Some a_node) (fun _ => true) (fun _ => true).
  Definition fresh : @wallet blk := Wallet [Account (genesis, 0%nat) []] (Account (genesis, 0%nat) []).

  Lemma no_collision : no_collisions bid genesis.
  Proof. split; [by intros [] []|by intros []]. Qed.
  Lemma a_good : good_node bid prev genesis a_node.
  Proof. split; [by vm_compute|]. intros c Hc. apply elem_of_list_singleton in Hc as ->. by vm_compute. Qed.
  Lemma b_good : good_node bid prev genesis b_node.
  Proof. split; [by vm_compute|]. intros c Hc. apply elem_of_list_singleton in Hc as ->. by vm_compute. Qed.
  Lemma W_good : good_world bid prev genesis W.
  Proof. intros t n. unfold W. cbn [seen]. destruct (50 <=? t)%nat; intros [= <-]; [apply b_good|apply a_good]. Qed.
  Lemma calm_good : good_world bid prev genesis calm.
  Proof. intros t n [= <-]. apply a_good. Qed.
  Definition path (b : blk) : list blk :=
    match b with A1 => [A1] | A2 => [A1; A2] | A3 => [A1; A2; A3] | A4 => a_chain | B2 => [A1; B2] | B3 => [A1; B2; B3] | B4 => [A1; B2; B3; B4] | B5 => b_chain end.
  Lemma chains c : linked bid prev genesis c -> c = [] ∨ ∃ b, c = path b.
  Proof.
    intros Hc. destruct c as [|b c _] using rev_ind; [by left|]. right. exists b.
    apply (chain_unique bid prev genesis no_collision); [done|by destruct b; vm_compute|]. rewrite tip_snoc. by destruct b.
  Qed.
  Lemma gaps : no_gaps bid prev genesis concerns max_index.
  Proof.
    split.
    - intros i c Hc. destruct (chains c Hc) as [->|[b ->]]; [done|]. destruct i as [|[|[|i]]]; destruct b; vm_compute; done.
    - intros i c Hc Hi. destruct (chains c Hc) as [->|[b ->]]; [done|]. do 10 (destruct i as [|i]; [unfold max_index in Hi; lia|]). destruct b; vm_compute; done.
  Qed.
  Lemma fresh_complete : complete bid prev genesis concerns fresh.
  Proof.
    assert (stands_on bid prev genesis (Account (genesis, 0%nat) []) []) as Hs.
    { split; [done|]. split; [done|]. by intros h b ?%elem_of_nil. }
    split; [done|]. split.
    - intros i a Ha. simpl in Ha. apply list_lookup_singleton_Some in Ha as [-> <-]. exists []. done.
    - exists []. done.
  Qed.
  Lemma fresh_level : level fresh.
  Proof.
    assert (∀ a, a ∈ best_blocks fresh -> a = (genesis, 0%nat)) as Hall.
    { intros a Ha. repeat (apply elem_of_cons in Ha as [->|Ha]; [done|]). by apply elem_of_nil in Ha. }
    intros a b Ha Hb. by rewrite (Hall a Ha), (Hall b Hb).
  Qed.

  Notation run W := (sync_once bid prev genesis concerns max_index W).
  Definition first := Wallet [Account (14%N, 4%nat) [(1, A1); (3, A3)]%nat; Account (14%N, 4%nat) [(2, A2)]%nat; Account (14%N, 4%nat) [(3, A3)]%nat] (Account (14%N, 4%nat) []).
  Definition second := Wallet [Account (25%N, 5%nat) [(1, A1); (2, B2)]%nat; Account (25%N, 5%nat) [(2, B2)]%nat; Account (25%N, 5%nat) []] (Account (25%N, 5%nat) []).
  (** The wallet finds its accounts on the first branch, and follows the node to the second one *)
  Example C87_first_run : run W 5 (fresh, 0%nat) = ((first, 10%nat), Ok Synced).
  Proof. by vm_compute. Qed.
  Example C87_second_run : run W 5 (first, 50%nat) = ((second, 58%nat), Ok Synced).
  Proof. by vm_compute. Qed.
  (** The hypotheses of the theorems are met by both runs *)
  Example C87_first_complete : complete bid prev genesis concerns first.
  Proof.
    apply (C87_nothing_missed bid prev genesis concerns max_index W 5 fresh 0 first 10 (Ok Synced));
      [apply no_collision|apply W_good|left; apply fresh_level|apply gaps|apply fresh_complete|apply C87_first_run|done].
  Qed.
  Example C87_second_follows : ∃ t n, (50 <= t < 58)%nat ∧ seen W t = Some n ∧
    (∀ i a, accounts second !! i = Some a -> follows bid prev genesis concerns i a (main n)) ∧ follows bid prev genesis concerns 3 (unused second) (main n).
  Proof.
    apply (C87_synced bid prev genesis concerns max_index W 5 first 50 second 58);
      [apply no_collision|apply W_good| |apply gaps|apply C87_first_complete|apply C87_second_run].
    left. intros a b Ha Hb.
    assert (∀ a, a ∈ best_blocks first -> a = (14%N, 4%nat)) as Hall.
    { clear. intros a Ha. repeat (apply elem_of_cons in Ha as [->|Ha]; [done|]). by apply elem_of_nil in Ha. }
    by rewrite (Hall a Ha), (Hall b Hb).
  Qed.
  Example C87_ends_example : ∃ fuel w' t', run calm fuel (fresh, 0%nat) = ((w', t'), Ok Synced).
  Proof.
    apply (C87_sync_ends bid prev genesis concerns max_index calm a_node fresh 0);
      [apply no_collision|apply a_good|done|apply gaps|apply fresh_complete|apply fresh_level|].
    intros b Hb. repeat (apply elem_of_cons in Hb as [->|Hb]; [simpl; lia|]). by apply elem_of_nil in Hb.
  Qed.
  (** One account has been brought to the best block and the other has not *)
  Example C87_out_of_step_example : ∃ t', run calm 5 (Wallet [Account (14%N, 4%nat) [(1, A1); (3, A3)]%nat] (Account (genesis, 0%nat) []), 7%nat)
    = ((Wallet [Account (14%N, 4%nat) [(1, A1); (3, A3)]%nat] (Account (genesis, 0%nat) []), t'), Panic).
  Proof.
    eapply (C87_out_of_step_panics_refuted bid prev genesis concerns max_index calm a_node 4 _ 7 (14%N, 4%nat) (genesis, 0%nat)); try done.
    - by constructor.
    - do 2 constructor.
    - intros b Hb. repeat (apply elem_of_cons in Hb as [->|Hb]; [simpl; lia|]). by apply elem_of_nil in Hb.
  Qed.

  (** Blocks on record for accounts of the examples below *)
  Lemma follows_path i a b : best a = (bid b, length (path b)) -> records a = all_concerning concerns i (path b) -> follows bid prev genesis concerns i a (path b).
  Proof.
    intros Hb Hr. split; [|done]. split; [by destruct b; vm_compute|]. split; [rewrite Hb; by destruct b|]. intros h x. rewrite Hr. apply all_concerning_on.
  Qed.

  (** The claim that the accounts never hold blocks from different branches is false without its condition: the accounts are at different
      blocks, and the node goes to another branch and back during the run. Account 1 ends with B2 on record at the best block A4. *)
  Definition to_and_fro : world := World (fun t => if (t =? 3)%nat then Some b_node else Some a_node) (fun _ => true) (fun _ => true).
  Definition uneven := Wallet [Account (12%N, 2%nat) [(1, A1)]%nat; Account (11%N, 1%nat) []] (Account (11%N, 1%nat) []).
  Theorem C87_two_reorgs_refuted :
    complete bid prev genesis concerns uneven ∧ good_world bid prev genesis to_and_fro ∧
    ∃ w t, run to_and_fro 5 (uneven, 0%nat) = ((w, t), Ok Synced) ∧ ¬ sound bid prev genesis w.
  Proof.
    split; [|split].
    - split; [done|]. split.
      + intros i a Ha. destruct i as [|[|i]]; simpl in Ha; simplify_eq; [exists (path A2)|exists (path A1)]; by apply follows_path.
      + exists (path A1). split; [by apply follows_path|done].
    - intros t n. unfold to_and_fro. cbn [seen]. destruct (t =? 3)%nat; intros [= <-]; [apply b_good|apply a_good].
    - eexists _, _. split; [vm_compute; reflexivity|]. intros [_ Hs].
      destruct (Hs (Account (14%N, 4%nat) [(2, B2)]%nat)) as [c (Hc & Hb & Hr)]; [left; do 2 constructor|].
      assert (c = a_chain) as ->. { apply (chain_unique bid prev genesis no_collision); [done|by vm_compute|]. simpl in Hb. injection Hb as Hb _. by rewrite <- Hb. }
      destruct (Hr 2%nat B2) as (k & [= <-] & Hk); [constructor|]. done.
  Qed.

  (** The claim that the synchronisation succeeds when the node is calm is false for accounts at different blocks of an abandoned branch: it
      fails, leaves the wallet as it was, and will fail again *)
  Definition abandoned := Wallet [Account (23%N, 3%nat) [(1, A1); (2, B2)]%nat; Account (22%N, 2%nat) [(2, B2)]%nat] (Account (22%N, 2%nat) []).
  Theorem C87_abandoned_branch_stuck_refuted :
    complete bid prev genesis concerns abandoned ∧ good_node bid prev genesis a_node ∧ (∀ t, calm_from t a_node calm) ∧
    ∀ fuel t, ∃ t', run calm (S fuel) (abandoned, t) = ((abandoned, t'), Err NoNewBlocksFound).
  Proof.
    split; [|split; [apply a_good|split; [done|]]].
    - split; [done|]. split.
      + intros i a Ha. destruct i as [|[|i]]; simpl in Ha; simplify_eq; [exists (path B3)|exists (path B2)]; by apply follows_path.
      + exists (path B2). split; [by apply follows_path|done].
    - intros fuel t. exists (S (S (S (S t)))). by vm_compute.
  Qed.

  (** The claim that a synchronised wallet has all that concerns it is false after a failure of the scan for the unused account. A locked wallet
      cannot create accounts: the synchronisation fails once, then the wallet is unlocked and calls itself synchronised, but the accounts 1
      and 2, which are used on the chain, are not there. *)
  Definition locked_at_first : world := World (fun _ => Some a_node) (fun _ => true) (fun t => (20 <=? t)%nat).
  Theorem C87_locked_wallet_misses_refuted :
    complete bid prev genesis concerns fresh ∧ level fresh ∧ good_world bid prev genesis locked_at_first ∧
    ∃ w t, run locked_at_first 5 (fresh, 0%nat) = ((w, t), Err (WalletError OfUnusedAccount)) ∧
      run locked_at_first 5 (w, 20%nat) = ((w, 21%nat), Ok Synced) ∧ length (accounts w) = 1%nat ∧
      all_concerning concerns 1 (main a_node) ≠ [] ∧ all_concerning concerns 2 (main a_node) ≠ [].
  Proof.
    split; [apply fresh_complete|]. split; [apply fresh_level|]. split; [intros t n [= <-]; apply a_good|].
    eexists _, _. split; [vm_compute; reflexivity|]. by vm_compute.
  Qed.
End WalletSyncExample.

Print Assumptions C87_nothing_stale.
Print Assumptions C87_nothing_missed.
Print Assumptions C87_synced.
Print Assumptions C87_no_panic.
Print Assumptions C87_sync_ends.
Print Assumptions C87_out_of_step_panics_refuted.
Print Assumptions WalletSyncExample.C87_two_reorgs_refuted.
Print Assumptions WalletSyncExample.C87_abandoned_branch_stuck_refuted.
Print Assumptions WalletSyncExample.C87_locked_wallet_misses_refuted.
