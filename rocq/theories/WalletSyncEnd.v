(** Proofs about the synchronisation of a wallet: it comes to an end if the node does not change. *)
From Verif Require Import Base WalletSyncModel WalletSyncSpec WalletSyncProofs WalletSyncScan WalletSyncRun.

Lemma try_fold_app {S X E} (f : S -> X -> S * res E unit) l1 l2 s :
  try_fold f (l1 ++ l2) s = sbind (try_fold f l1 s) (fun s _ => try_fold f l2 s).
Proof. revert s; induction l1 as [|x l1 IH]; intros s; simpl; [done|]. destruct (f s x) as [s' [[]|e|]]; simpl; [apply IH|done|done]. Qed.

Lemma prefix_length_eq {A} (p q : list A) : p `prefix_of` q -> (length q <= length p)%nat -> p = q.
Proof. intros [r ->]. rewrite app_length. destruct r; simpl; [by rewrite app_nil_r|lia]. Qed.

Section End_.
  Context {B : Type} (bid prev : B -> N) (genesis : N) (concerns : nat -> list (nat * B) -> B -> bool) (max_index : nat).
  Notation chain := (list B).
  Notation wallet := (@wallet B).
  Notation account := (@account B).
  Notation tip := (tip bid genesis).
  Notation linked := (linked bid prev genesis).
  Notation stands_on := (stands_on bid prev genesis).
  Notation follows := (follows bid prev genesis concerns).
  Notation sound := (sound bid prev genesis).
  Notation complete := (complete bid prev genesis concerns).
  Notation through := (through bid prev genesis).
  Notation at_chain := (at_chain bid prev genesis).
  Notation no_gaps := (no_gaps bid prev genesis concerns max_index).
  Notation sync_once := (sync_once bid prev genesis concerns max_index).
  Context (Hn : no_collisions bid genesis) (W : @world B) (n : @node B) (Hnode : good_node bid prev genesis n) (Hg : no_gaps).

  Lemma scan_all_ok (p bs : chain) (w : wallet) t :
    (∀ t', (t <= t')%nat -> stored W t' = true ∧ unlocked W t' = true) -> complete w -> (∀ x, x ∈ all_types w -> through w x p) -> linked (p ++ bs) -> bs ≠ [] ->
    ∃ w' t', try_fold (scan_new_blocks bid concerns max_index W (length p) bs) (all_types w) (w, t) = ((w', t'), Ok tt).
  Proof.
    intros Hcalm Hw Hthr Hl Hne. unfold all_types. rewrite try_fold_app.
    destruct (scan_used_ok bid prev genesis concerns max_index W p bs (map UsedAccount (seq 0 (length (accounts w)))) w t) as (w1 & t1 & H1 & H2 & H3).
    - intros t' Ht'. by apply Hcalm.
    - by eapply complete_sound.
    - intros x Hx. split.
      + apply elem_of_list_fmap in Hx as (j & -> & _). done.
      + apply Hthr. unfold all_types. apply elem_of_app. by left.
    - done.
    - done.
    - assert (∀ x, x ∈ map UsedAccount (seq 0 (length (accounts w))) -> through w x p) as Hthr1.
      { intros x Hx. apply Hthr. unfold all_types. apply elem_of_app. by left. }
      rewrite H1. simpl.
      pose proof (scan_all_complete bid prev genesis concerns max_index Hn W p bs _ w t w1 t1 (Ok tt) Hg Hw Hthr1 Hl Hne H1) as Hc1.
      specialize (Hc1 ltac:(done)).
      apply (scan_all_spec bid prev genesis) in H1 as [F1 F2 F3 F4 F5 F6 F7]; [|by eapply complete_sound|done|done|done].
      destruct (scan_unused_ok bid prev genesis concerns max_index W (max_index - length (accounts w1)) p bs w1 t1) as (w2 & t2 & Hr).
      + done.
      + intros t' Ht'. apply Hcalm. lia.
      + done.
      + destruct Hw as (Hne0 & _). destruct Hc1 as (_ & Hall & _).
        destruct (length (accounts w)) as [|i] eqn:Ei; [by apply nil_length_inv in Ei|].
        destruct (lookup_lt_is_Some_2 (accounts w1) i) as [a Ha]; [lia|]. exists i, a. split; [done|]. split; [done|].
        destruct (Hall i a Ha) as [c Hc]. destruct (F6 eq_refl (UsedAccount i)) as (a' & Ha' & Hs).
        { apply elem_of_list_fmap. exists i. split; [done|]. apply elem_of_seq. lia. }
        simpl in Ha'. rewrite Ha in Ha'. simplify_eq.
        rewrite (stands_unique bid prev genesis Hn _ _ _ Hs (proj1 Hc)). done.
      + apply (complete_clean bid prev genesis concerns Hn); [done|].
        destruct (Hthr UnusedAccount) as (c & (a & Ha & Hc) & Hpc); [unfold all_types; apply elem_of_app; right; constructor|].
        exists c. split; [|done]. exists a. simpl in *. by rewrite H2.
      + done.
      + done.
      + rewrite Hr. by eauto.
  Qed.

  (** All accounts stand on the same chain *)
  Definition all_on (w : wallet) (c : chain) : Prop := ∀ x a, get w x = Some a -> stands_on a c.

  Lemma all_on_best w c : all_on w c -> ∀ b, b ∈ best_blocks w -> b = (tip c, length c).
  Proof.
    intros Hall b Hb. unfold best_blocks in Hb. apply elem_of_app in Hb as [Hb|Hb].
    - apply elem_of_list_fmap in Hb as (a & -> & Ha). apply elem_of_list_lookup in Ha as [i' Hi']. by destruct (Hall (UsedAccount i') a Hi') as (_ & ? & _).
    - apply elem_of_list_singleton in Hb as ->. by destruct (Hall UnusedAccount (unused w) eq_refl) as (_ & ? & _).
  Qed.

  Lemma calm_round (w : wallet) t c :
    calm_from t n W -> complete w -> all_on w c -> linked c -> tip c ≠ tip (main n) -> (length c <= length (main n))%nat ->
    ∃ p w' t', p `prefix_of` main n ∧ (length p < length (main n))%nat ∧ (c `prefix_of` main n -> p = c) ∧ (t <= t')%nat ∧ complete w' ∧
      all_on w' (take (length p + MAX_FETCH_BLOCK_COUNT) (main n)) ∧ ∀ fuel, sync_once W (S fuel) (w, t) = sync_once W fuel (w', t').
  Proof.
    intros Hcalm Hw Hall Hc Htip Hlen. destruct Hnode as [HM Hothers].
    pose proof (all_on_best w c Hall) as Hbest.
    set (i := match last_common_ancestor_by_id bid genesis (tip c) (tip (main n)) n with Some c => c | None => (genesis, 0%nat) end).
    destruct (Hcalm t) as (Hseen0 & _ & _); [lia|]. destruct (Hcalm (S t)) as (Hseen1 & _ & _); [lia|]. destruct (Hcalm (S (S t))) as (Hseen2 & _ & _); [lia|].
    assert (∃ p, i = (tip p, length p) ∧ linked p ∧ p `prefix_of` main n ∧ p `prefix_of` c ∧ (c `prefix_of` main n -> p = c)) as (p & Hi & Hp & HpM & Hpc & Hpeq).
    { unfold i, last_common_ancestor_by_id. rewrite (known_chain_main bid prev genesis Hn n (main n)); [|done|done].
      destruct (known_chain bid genesis (tip c) n) as [p|] eqn:Ep.
      - apply (known_chain_spec bid prev) in Ep as [Hp Htp]; [|done]. assert (p = c) as -> by (by apply (chain_unique bid prev genesis Hn)).
        destruct (common_height_spec bid prev genesis Hn c (main n)) as (H1 & H2 & H3); [done..|].
        exists (take (common_height bid genesis c (main n)) c). rewrite take_length, Nat.min_l by done. split; [done|]. split; [by apply linked_take|]. split; [|split].
        + rewrite H3. by exists (drop (common_height bid genesis c (main n)) (main n)); rewrite take_drop.
        + by exists (drop (common_height bid genesis c (main n)) c); rewrite take_drop.
        + intros Hpre. rewrite (common_height_prefix bid genesis c (main n) Hpre). by rewrite firstn_all.
      - exists []. split; [done|]. split; [done|]. split; [apply prefix_nil|]. split; [apply prefix_nil|].
        intros Hpre. rewrite (known_chain_main bid prev genesis Hn n c) in Ep; done. }
    assert (length p < length (main n))%nat as Hlt.
    { pose proof (prefix_length _ _ HpM). destruct (decide (length p = length (main n))) as [Heq|]; [|lia].
      assert (p = main n) as -> by (apply prefix_length_eq; [done|lia]).
      assert (main n = c) as Hmc by (apply prefix_length_eq; [done|lia]). congruence. }
    set (bs := take MAX_FETCH_BLOCK_COUNT (drop (length p) (main n))).
    assert (take (length p + MAX_FETCH_BLOCK_COUNT) (main n) = p ++ bs) as Hpb.
    { rewrite <- take_take_drop. fold bs. f_equal. destruct HpM as [q ->]. by rewrite take_app. }
    assert (linked (p ++ bs)) as Hl by (rewrite <- Hpb; by apply linked_take).
    assert (∃ b bs', bs = b :: bs' ∧ prev b = tip p) as (b0 & bs' & Hbs & Hprev).
    { apply linked_app in Hl as [_ Hl]. unfold bs in *. destruct (drop (length p) (main n)) as [|b l] eqn:Ed.
      - apply (f_equal length) in Ed. rewrite drop_length in Ed. simpl in Ed. lia.
      - cbn [take MAX_FETCH_BLOCK_COUNT] in *. exists b. eexists. split; [reflexivity|]. by destruct Hl. }
    assert (bs ≠ []) as Hbne by (by rewrite Hbs).
    assert (∀ x, x ∈ all_types w -> through w x p) as Hthr.
    { intros x Hx. apply all_types_get in Hx as [a Ha]. exists c. split; [|done]. exists a. split; [done|]. by apply (Hall x). }
    destruct (scan_all_ok p bs w (S (S (S t)))) as (w' & t' & Hscan); [|done..|].
    { intros t' Ht'. destruct (Hcalm t') as (_ & ? & ?); [lia|]. done. }
    exists p, w', t'. split; [done|]. split; [done|]. split; [done|].
    pose proof Hscan as Hscan'. apply (scan_all_spec bid prev genesis) in Hscan' as [F1 F2 F3 F4 F5 F6 F7]; [|by eapply complete_sound|done|done|done].
    split; [lia|]. split; [by eapply (scan_all_complete bid prev genesis concerns max_index Hn)|]. split.
    { rewrite Hpb. intros x a Ha. destruct (decide (x ∈ all_types w)) as [Hx|Hx].
      - destruct (F6 eq_refl x Hx) as (a' & Ha' & Hs). rewrite Ha in Ha'. by simplify_eq.
      - destruct x as [i'|]; [|destruct Hx; apply all_types_get; by eexists].
        apply (F7 eq_refl i'); [|done]. destruct (decide (length (accounts w) <= i')%nat); [done|]. destruct Hx. apply all_types_get. simpl. apply lookup_lt_is_Some. lia. }
    intros fuel. cbn [WalletSyncModel.sync_once]. unfold call at 1. simpl fst. simpl snd. rewrite Hseen0. cbn [sbind chainstate_info fst snd].
    assert (forallb (fun b => (b.1 =? tip (main n))%N) (best_blocks w) = false) as ->.
    { apply not_true_iff_false. rewrite forallb_forall. intros Hf. specialize (Hf (best (unused w))).
      assert (best (unused w) ∈ best_blocks w) as Hin by (unfold best_blocks; apply elem_of_app; right; constructor).
      specialize (Hf (proj1 (elem_of_list_In _ _) Hin)). rewrite (Hbest _ Hin) in Hf. simpl in Hf. apply N.eqb_eq in Hf. done. }
    assert (existsb (fun b => (length (main n) <? b.2)%nat) (best_blocks w) = false) as ->.
    { apply not_true_iff_false. rewrite existsb_exists. intros (b & Hb & Hlt'). apply elem_of_list_In in Hb. rewrite (Hbest _ Hb) in Hlt'.
      simpl in Hlt'. apply Nat.ltb_lt in Hlt'. lia. }
    unfold group_accounts_by_mainchain_blocks. cbn [fst]. rewrite (grouped_level w (tip c, length c)); [|done|by destruct Hw].
    cbn [with_common_blocks]. unfold get_common_block_info at 1. unfold chainstate_info. cbn [fst snd].
    rewrite (proj2 (N.eqb_neq (tip (main n)) (tip c))) by congruence. rewrite (proj2 (Nat.ltb_ge (length (main n)) (length c))) by done.
    unfold call at 1. simpl fst. simpl snd. rewrite Hseen1. cbn [sbind]. fold i. rewrite Hi.
    change (sort_by_height [(tip p, length p, all_types w)]) with [(tip p, length p, all_types w)]. cbn [rev app sync_groups].
    unfold fetch_and_sync at 1, fetch_next_blocks, call. cbn [fst snd]. rewrite Hseen2. cbn [get_mainchain_blocks rbind]. fold bs.
    destruct bs as [|b1 bs1] eqn:Eb; [done|]. simplify_eq. rewrite (proj2 (N.eqb_eq (prev b0) (tip p))) by done. cbn [sbind]. rewrite Hscan. cbn [sbind]. done.
  Qed.

  Lemma calm_ends m (w : wallet) t c :
    calm_from t n W -> complete w -> all_on w c -> c `prefix_of` main n -> (length (main n) - length c <= m)%nat ->
    ∃ fuel w' t', sync_once W fuel (w, t) = ((w', t'), Ok Synced).
  Proof.
    revert w t c. induction m as [m IH] using lt_wf_ind. intros w t c Hcalm Hw Hall Hpre Hm.
    destruct (decide (tip c = tip (main n))) as [Heq|Hne].
    { exists 1%nat, w, (S t). cbn [WalletSyncModel.sync_once]. unfold call. simpl fst. simpl snd. destruct (Hcalm t) as (-> & _ & _); [lia|].
      cbn [sbind chainstate_info fst snd].
      rewrite (proj2 (forallb_forall _ _)); [done|]. intros b Hb. apply elem_of_list_In in Hb. rewrite (all_on_best w c Hall b Hb). by apply N.eqb_eq. }
    assert (linked c) as Hc by (eapply linked_prefix; [exact Hpre|exact (proj1 Hnode)]).
    destruct (calm_round w t c) as (p & w' & t' & Hp & Hlt & Hpc & Ht & Hw' & Hall' & Hstep); [done..|by apply prefix_length|].
    rewrite (Hpc Hpre) in *.
    destruct (IH (length (main n) - length (take (length c + MAX_FETCH_BLOCK_COUNT) (main n)))%nat) with (w := w') (t := t') (c := take (length c + MAX_FETCH_BLOCK_COUNT) (main n)) as (fuel & w2 & t2 & Hr).
    - rewrite take_length. unfold MAX_FETCH_BLOCK_COUNT. lia.
    - intros t2 Ht2. apply Hcalm. lia.
    - done.
    - done.
    - exists (drop (length c + MAX_FETCH_BLOCK_COUNT) (main n)). by rewrite take_drop.
    - done.
    - exists (S fuel), w2, t2. by rewrite Hstep.
  Qed.

  Lemma calm_sync_ends (w : wallet) t :
    calm_from t n W -> complete w -> level w -> (∀ b, b ∈ best_blocks w -> (b.2 <= length (main n))%nat) ->
    ∃ fuel w' t', sync_once W fuel (w, t) = ((w', t'), Ok Synced).
  Proof.
    intros Hcalm Hw Hlev Hh.
    assert (∃ c, linked c ∧ all_on w c) as (c & Hc & Hall).
    { pose proof (complete_sound bid prev genesis concerns w Hw) as Hs. apply sound_get in Hs as [_ Hs].
      destruct (Hs UnusedAccount (unused w) eq_refl) as [c Hc]. exists c. split; [by destruct Hc|]. intros x a Ha.
      destruct (Hs x a Ha) as [c' Hc']. assert (c' = c) as ->; [|done]. apply (chain_unique bid prev genesis Hn); [by destruct Hc'|by destruct Hc|].
      assert (best a = best (unused w)) as Hb.
      { apply Hlev; unfold best_blocks; apply elem_of_app; [|right; constructor].
        destruct x as [i|]; simpl in Ha; [left|right; simplify_eq; constructor]. apply elem_of_list_fmap. exists a. split; [done|]. by eapply elem_of_list_lookup_2. }
      destruct Hc as (_ & Hb1 & _), Hc' as (_ & Hb2 & _). congruence. }
    destruct (decide (tip c = tip (main n))) as [Heq|Hne].
    { apply (calm_ends (length (main n)) w t c); [done..| |lia]. assert (c = main n) as -> by (apply (chain_unique bid prev genesis Hn); [done|exact (proj1 Hnode)|done]). done. }
    destruct (calm_round w t c) as (p & w' & t' & Hp & Hlt & Hpc & Ht & Hw' & Hall' & Hstep); [done..| |].
    { assert (best (unused w) ∈ best_blocks w) as Hin by (unfold best_blocks; apply elem_of_app; right; constructor).
      pose proof (Hh _ Hin) as Hle. rewrite (all_on_best w c Hall _ Hin) in Hle. done. }
    destruct (calm_ends (length (main n)) w' t' (take (length p + MAX_FETCH_BLOCK_COUNT) (main n))) as (fuel & w2 & t2 & Hr).
    - intros t2 Ht2. apply Hcalm. lia.
    - done.
    - done.
    - exists (drop (length p + MAX_FETCH_BLOCK_COUNT) (main n)). by rewrite take_drop.
    - lia.
    - exists (S fuel), w2, t2. by rewrite Hstep.
  Qed.
End End_.
