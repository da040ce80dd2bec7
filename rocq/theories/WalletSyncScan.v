(** Proofs about the synchronisation of a wallet: the scanning of blocks by the accounts. *)
From Verif Require Import Base WalletSyncModel WalletSyncSpec WalletSyncProofs.

Global Instance account_type_eq_dec : EqDecision account_type.
Proof. solve_decision. Defined.

Section Scan.
  Context {B : Type} (bid prev : B -> N) (genesis : N) (concerns : nat -> list (nat * B) -> B -> bool) (max_index : nat).
  Notation chain := (list B).
  Notation wallet := (@wallet B).
  Notation account := (@account B).
  Notation tip := (tip bid genesis).
  Notation linked := (linked bid prev genesis).
  Notation stands_on := (stands_on bid prev genesis).
  Notation follows := (follows bid prev genesis concerns).
  Notation sound := (sound bid prev genesis).
  Notation complete := (complete bid prev genesis concerns).
  Context (Hn : no_collisions bid genesis) (W : @world B).

  Definition get (w : wallet) (x : account_type) : option account :=
    match x with UsedAccount i => accounts w !! i | UnusedAccount => Some (unused w) end.
  (** The account stands on a chain *)
  Definition at_chain (w : wallet) (x : account_type) (c : chain) : Prop := ∃ a, get w x = Some a ∧ stands_on a c.
  (** It stands on a chain through [p] *)
  Definition through (w : wallet) (x : account_type) (p : chain) : Prop := ∃ c, at_chain w x c ∧ p `prefix_of` c.

  Lemma sound_get w : sound w ↔ accounts w ≠ [] ∧ ∀ x a, get w x = Some a -> ∃ c, stands_on a c.
  Proof.
    unfold WalletSyncSpec.sound. split; intros [H1 H2]; (split; [done|]).
    - intros [i|] a Ha; simpl in Ha.
      + apply H2. left. by eapply elem_of_list_lookup_2.
      + simplify_eq. apply H2. by right.
    - intros a [Ha| ->].
      + apply elem_of_list_lookup in Ha as [i Hi]. by apply (H2 (UsedAccount i)).
      + by apply (H2 UnusedAccount).
  Qed.

  (** What a scan of blocks [bs] above [p] by accounts [l] does; [l] may grow by new accounts *)
  Record scanned (p bs : chain) (w : wallet) (t : nat) (l : list account_type) (w' : wallet) (t' : nat) (r : res sync_err unit) : Prop := {
    scanned_no_panic : r ≠ Panic;
    scanned_sound : sound w';
    scanned_time : (t <= t')%nat;
    scanned_more : (length (accounts w) <= length (accounts w'))%nat;
    scanned_same x : x ∉ l -> (∃ a, get w x = Some a) -> get w' x = get w x;
    scanned_done : r = Ok tt -> ∀ x, x ∈ l -> at_chain w' x (p ++ bs);
    scanned_new : r = Ok tt -> ∀ i a, (length (accounts w) <= i)%nat -> accounts w' !! i = Some a -> stands_on a (p ++ bs)
  }.

  Lemma scan_blocks_spec i (p bs : chain) w t w' t' r :
    sound w -> through w (UsedAccount i) p -> linked (p ++ bs) -> bs ≠ [] ->
    scan_blocks bid concerns W i (length p) bs (w, t) = ((w', t'), r) -> scanned p bs w t [UsedAccount i] w' t' r.
  Proof.
    intros Hw (c & (a & Ha & Hc) & Hp) Hl Hne. unfold scan_blocks. simpl in Ha. rewrite Ha.
    destruct (account_scan_spec bid prev genesis concerns i p bs a c) as (a' & added & -> & Hs & _); [done..|].
    destruct (stored W t); intros Heq; simplify_eq.
    - apply sound_get in Hw as [Hw1 Hw2]. split; simpl; try done.
      + apply sound_get. simpl. split.
        { intros Hnil. apply Hw1, nil_length_inv. by rewrite <- (insert_length (accounts w) i a'), Hnil. }
        intros [j|] b Hb; simpl in Hb; [|by apply (Hw2 UnusedAccount)].
        apply list_lookup_insert_Some in Hb as [(-> & -> & _)|[_ Hb]]; [by exists (p ++ bs)|]. by apply (Hw2 (UsedAccount j)).
      + lia.
      + by rewrite insert_length.
      + intros [j|] Hx _; simpl; [|done]. apply list_lookup_insert_ne. intros ->. apply Hx. constructor.
      + intros _ x Hx. apply elem_of_list_singleton in Hx as ->. exists a'. split; [|done]. simpl.
        apply list_lookup_insert. by eapply lookup_lt_Some.
      + intros _ j b Hj Hb. apply lookup_lt_Some in Hb. rewrite insert_length in Hb. lia.
    - split; simpl; try done; lia.
  Qed.

  Lemma create_spec w t w' t' r :
    create_next_account max_index W (w, t) = ((w', t'), r) -> accounts w ≠ [] ->
    (t <= t')%nat ∧
    ((r = Ok tt ∧ w' = Wallet (accounts w ++ [unused w]) (Account (best (unused w)) [])) ∨ (r = Err (WalletError OfUnusedAccount) ∧ w' = w)).
  Proof.
    unfold create_next_account. intros Heq Hne. destruct (last (accounts w)) as [a|] eqn:El; [|by apply last_None in El].
    destruct (bool_decide _); [simplify_eq; auto|]. destruct (_ && _); simplify_eq; auto with lia.
  Qed.

  Lemma scan_unused_spec room (p bs : chain) w t w' t' r :
    sound w -> through w UnusedAccount p -> linked (p ++ bs) -> bs ≠ [] ->
    scan_blocks_for_unused_account bid concerns max_index W room (length p) bs (w, t) = ((w', t'), r) -> scanned p bs w t [UnusedAccount] w' t' r.
  Proof.
    revert w t. induction room as [|room IH]; intros w t Hw (c & (a & Ha & Hc) & Hp) Hl Hne; cbn [scan_blocks_for_unused_account];
      simpl in Ha; simplify_eq; rename a into a0 || idtac;
      (destruct (stored W t); [|intros Heq; simplify_eq; split; simpl; try done; lia]);
      (destruct (account_scan_spec bid prev genesis concerns (length (accounts w)) p bs (unused w) c) as (a' & added & -> & Hs & _); [done..|]);
      pose proof Hw as [Hw1 Hw2]%sound_get;
      assert (sound (Wallet (accounts w) a')) as Hw' by
        (apply sound_get; split; [done|]; intros [j|] b Hb; simpl in Hb; [by apply (Hw2 (UsedAccount j))|simplify_eq; by exists (p ++ bs)]);
      (destruct added;
       [|intros Heq; simplify_eq; split; simpl; try done; [lia| | |];
         [intros [j|] Hx _; [done|]; destruct Hx; constructor
         |intros _ x Hx; apply elem_of_list_singleton in Hx as ->; by exists a'
         |intros _ j b Hj Hb; apply lookup_lt_Some in Hb; lia]]);
      (destruct (create_next_account _ _ _) as [[w1 t1] r1] eqn:Ec);
      (apply create_spec in Ec as [Ht [[-> ->]|[-> ->]]]; [| |done]);
      simpl; intros Heq.
    - simplify_eq. split; simpl; try done.
      + apply sound_get. simpl. split; [by destruct (accounts w)|]. intros [j|] b Hb; simpl in Hb.
        * apply lookup_app_Some in Hb as [Hb|[_ Hb]]; [by apply (Hw2 (UsedAccount j))|].
          apply list_lookup_singleton_Some in Hb as [_ <-]. by exists (p ++ bs).
        * simplify_eq. destruct Hs as (H1 & H2 & _). exists (p ++ bs). split; [done|]. split; [done|]. simpl. intros h x Hx. by apply elem_of_nil in Hx.
      + lia.
      + rewrite app_length. lia.
      + intros [j|] Hx [b Hb]; simpl in *; [rewrite lookup_app_l; [done|by eapply lookup_lt_Some]|]. destruct Hx. constructor.
    - simplify_eq. split; simpl; try done; [lia|]. intros [j|] Hx _; [done|]. destruct Hx. constructor.
    - assert (stands_on (Account (best a') []) (p ++ bs)) as Hs0.
      { destruct Hs as (H1 & H2 & _). split; [done|]. split; [done|]. simpl. intros h x Hx. by apply elem_of_nil in Hx. }
      apply IH in Heq; [| | |done|done].
      + destruct Heq as [F1 F2 F3 F4 F5 F6 F7]. simpl in *. rewrite app_length in F4. simpl in F4. split; try done.
        * lia.
        * lia.
        * intros [j|] Hx [b Hb]; simpl in *; [|destruct Hx; constructor].
          pose proof (F5 (UsedAccount j)) as Hsame. simpl in Hsame. rewrite Hsame.
          -- rewrite lookup_app_l; [done|by eapply lookup_lt_Some].
          -- intros Hx'. by apply elem_of_list_singleton in Hx'.
          -- exists b. rewrite lookup_app_l; [done|by eapply lookup_lt_Some].
        * intros Hok j b Hj Hb. destruct (decide (j = length (accounts w))) as [->|Hne'].
          -- pose proof (F5 (UsedAccount (length (accounts w)))) as Hsame. simpl in Hsame.
             rewrite list_lookup_middle in Hsame by done. rewrite Hb in Hsame.
             assert (Some b = Some a') as [= ->]; [|done]. apply Hsame; [|by eexists]. intros Hx'. by apply elem_of_list_singleton in Hx'.
          -- apply (F7 Hok j b); [|done]. rewrite app_length. simpl. lia.
      + apply sound_get. simpl. split; [by destruct (accounts w)|]. intros [j|] b Hb; simpl in Hb.
        * apply lookup_app_Some in Hb as [Hb|[_ Hb]]; [by apply (Hw2 (UsedAccount j))|].
          apply list_lookup_singleton_Some in Hb as [_ <-]. by exists (p ++ bs).
        * simplify_eq. by exists (p ++ bs).
      + exists (p ++ bs). split; [|by exists bs]. by exists (Account (best a') []).
    - simplify_eq. split; simpl; try done; [lia|]. intros [j|] Hx _; [done|]. destruct Hx. constructor.
  Qed.

  Lemma scan_one_spec (p bs : chain) x w t w' t' r :
    sound w -> through w x p -> linked (p ++ bs) -> bs ≠ [] ->
    scan_new_blocks bid concerns max_index W (length p) bs (w, t) x = ((w', t'), r) -> scanned p bs w t [x] w' t' r.
  Proof. intros Hw Ht Hl Hne. destruct x; [by apply scan_blocks_spec|by apply scan_unused_spec]. Qed.

  Lemma scan_all_spec (p bs : chain) l w t w' t' r :
    sound w -> (∀ x, x ∈ l -> through w x p) -> linked (p ++ bs) -> bs ≠ [] ->
    try_fold (scan_new_blocks bid concerns max_index W (length p) bs) l (w, t) = ((w', t'), r) -> scanned p bs w t l w' t' r.
  Proof.
    revert w t; induction l as [|x l IH]; intros w t Hw Hthr Hl Hne; cbn [try_fold].
    { intros Heq; simplify_eq. split; try done.
      - intros _ x Hx. by apply elem_of_nil in Hx.
      - intros _ i a Hi Ha. apply lookup_lt_Some in Ha. lia. }
    destruct (scan_new_blocks _ _ _ _ _ _ _ _) as [[w1 t1] r1] eqn:E1.
    apply scan_one_spec in E1; [|done|by apply Hthr; constructor|done|done]. destruct E1 as [F1 F2 F3 F4 F5 F6 F7].
    destruct r1 as [[]|e|]; intros Heq.
    - apply IH in Heq; [|done| |done|done].
      + destruct Heq as [G1 G2 G3 G4 G5 G6 G7]. split; try done; [lia|lia| | |].
        * intros y Hy [b Hb]. apply not_elem_of_cons in Hy as [Hy1 Hy2].
          assert (get w1 y = get w y) as Heq by (apply F5; [by intros Hx%elem_of_list_singleton|by eexists]).
          rewrite G5; [done|done|]. rewrite Heq. by eexists.
        * intros Hok y Hy. destruct (decide (y ∈ l)) as [Hin|Hout]; [by apply G6|].
          apply elem_of_cons in Hy as [->|Hy]; [|done].
          destruct (F6 eq_refl x) as (a & Ha & Hs); [constructor|]. exists a. split; [|done]. rewrite G5; [done|done|by eexists].
        * intros Hok i a Hi Ha. destruct (decide (length (accounts w1) <= i)%nat) as [Hle|Hlt]; [by apply (G7 Hok i)|].
          destruct (decide (UsedAccount i ∈ l)) as [Hin|Hout].
          { destruct (G6 Hok _ Hin) as (b & Hb & Hs). simpl in Hb. rewrite Ha in Hb. by simplify_eq. }
          destruct (lookup_lt_is_Some_2 (accounts w1) i) as [b Hb]; [lia|].
          assert (get w' (UsedAccount i) = get w1 (UsedAccount i)) as Hsame by (apply G5; [done|by exists b]).
          simpl in Hsame. rewrite Ha, Hb in Hsame. simplify_eq. by apply (F7 eq_refl i).
      + intros y Hy. destruct (decide (y = x)) as [->|Hyx].
        { exists (p ++ bs). split; [|by exists bs]. apply F6; [done|constructor]. }
        destruct (Hthr y) as (c & (a & Ha & Hc) & Hp); [by constructor|]. exists c. split; [|done]. exists a. split; [|done].
        rewrite F5; [done|by intros Hx%elem_of_list_singleton|by eexists].
    - simplify_eq. split; try done. intros y Hy Hex. apply not_elem_of_cons in Hy as [Hy1 Hy2]. apply F5; [by intros Hx%elem_of_list_singleton|done].
    - done.
  Qed.

  (** ** Nothing is missed *)
  Lemma follows_stands i a c : follows i a c -> stands_on a c.
  Proof. by intros [Hs _]. Qed.
  Lemma complete_sound w : complete w -> sound w.
  Proof.
    intros (Hne & Hacc & c & Hc & _). apply sound_get. split; [done|]. intros [i|] a Ha; simpl in Ha.
    - destruct (Hacc i a Ha) as [c' Hc']. exists c'. by eapply follows_stands.
    - simplify_eq. exists c. by eapply follows_stands.
  Qed.
  Lemma kept_nil p (a : account) : records a = [] -> kept p a = [].
  Proof. unfold kept. intros ->. by destruct (_ <? _)%nat. Qed.

  Definition used_follow (w : wallet) : Prop := accounts w ≠ [] ∧ ∀ i a, accounts w !! i = Some a -> ∃ c, follows i a c.
  (** The unused account, gone back to [p], has nothing on record and nothing has been missed *)
  Definition clean (p : chain) (w : wallet) : Prop :=
    through w UnusedAccount p ∧ kept p (unused w) = [] ∧ all_concerning concerns (length (accounts w)) p = [].
  Lemma complete_clean p w : complete w -> through w UnusedAccount p -> clean p w.
  Proof.
    intros (_ & _ & c & [Hs Hr] & Hnil) Hthr. split; [done|]. split; [by apply kept_nil|].
    destruct Hthr as (c' & (a & Ha & Hc') & Hp). simpl in Ha. simplify_eq.
    rewrite (stands_unique bid prev genesis Hn _ _ _ Hc' Hs) in Hp. apply (concerning_prefix_nil concerns _ p c Hp). by rewrite <- Hr.
  Qed.

  Lemma clean_scan p bs w :
    clean p w -> linked (p ++ bs) -> bs ≠ [] ->
    ∃ a added, account_scan bid concerns (length (accounts w)) (length p) bs (unused w) = Ok (a, added) ∧ follows (length (accounts w)) a (p ++ bs) ∧
      (added = false -> records a = []) ∧ (added = true -> records a ≠ []).
  Proof.
    intros ((c & (a & Ha & Hc) & Hp) & Hk & Hnil) Hl Hne. simpl in Ha. simplify_eq.
    destruct (account_scan_spec bid prev genesis concerns (length (accounts w)) p bs (unused w) c) as (a & added & Hsc & Hs & Hr & Hf & Ht); [done..|].
    exists a, added. split; [done|]. split.
    - split; [done|]. rewrite Hr, Hk. unfold all_concerning. rewrite concerning_app. unfold all_concerning in Hnil. by rewrite Hnil.
    - split; [|done]. intros Hfalse. rewrite Hf by done. done.
  Qed.
  Lemma clean_next p bs w a :
    no_gaps bid prev genesis concerns max_index -> clean p w -> linked (p ++ bs) -> follows (length (accounts w)) a (p ++ bs) ->
    clean p (Wallet (accounts w ++ [a]) (Account (best a) [])).
  Proof.
    intros [Hg _] (_ & _ & Hnil) Hl [(H1 & H2 & _) _]. split.
    - exists (p ++ bs). split; [|by exists bs]. exists (Account (best a) []). split; [done|]. split; [done|]. split; [done|].
      simpl. intros h x Hx. by apply elem_of_nil in Hx.
    - split; [by apply kept_nil|]. simpl. rewrite app_length. simpl. rewrite Nat.add_1_r. apply Hg; [|done].
      eapply linked_prefix; [|exact Hl]. by exists bs.
  Qed.
  Lemma used_follow_snoc w a c : used_follow w -> follows (length (accounts w)) a c -> used_follow (Wallet (accounts w ++ [a]) (Account (best a) [])).
  Proof.
    intros [Hne Hall] Ha. split; [by destruct (accounts w)|]. simpl. intros i b Hb. apply lookup_app_Some in Hb as [Hb|[Hi Hb]]; [by apply Hall|].
    apply list_lookup_singleton_Some in Hb as [H0 <-]. exists c. by replace i with (length (accounts w)) by lia.
  Qed.

  Lemma scan_unused_complete room (p bs : chain) w t w' t' r :
    no_gaps bid prev genesis concerns max_index ->
    used_follow w -> clean p w -> linked (p ++ bs) -> bs ≠ [] -> 
    scan_blocks_for_unused_account bid concerns max_index W room (length p) bs (w, t) = ((w', t'), r) ->
    r ≠ Err (WalletError OfUnusedAccount) -> complete w'.
  Proof.
    intros Hg. revert w t. induction room as [|room IH]; intros w t Hu Hcl Hl Hne; cbn [scan_blocks_for_unused_account];
      (destruct (stored W t); [|intros Heq; simplify_eq; done]);
      (destruct (clean_scan p bs w) as (a & added & -> & Hf & H1 & H2); [done..|]);
      (destruct added;
       [|intros Heq _; simplify_eq; destruct Hu as [Hu1 Hu2]; split; [done|]; split; [done|]; exists (p ++ bs); by split; [|apply H1]]);
      (destruct (create_next_account _ _ _) as [[w1 t1] r1] eqn:Ec);
      (apply create_spec in Ec as [Ht [[-> ->]|[-> ->]]]; [| |by destruct Hu]); simpl; intros Heq Hr; try by simplify_eq.
    eapply IH; [| |done|done|exact Heq|done]; [by eapply used_follow_snoc|by eapply clean_next].
  Qed.

  Lemma scan_one_complete (p bs : chain) x w t w' t' r :
    no_gaps bid prev genesis concerns max_index ->
    complete w -> through w x p -> linked (p ++ bs) -> bs ≠ [] ->
    scan_new_blocks bid concerns max_index W (length p) bs (w, t) x = ((w', t'), r) -> r ≠ Err (WalletError OfUnusedAccount) -> complete w'.
  Proof.
    intros Hg Hw Hthr Hl Hne. destruct x as [i|]; simpl.
    - destruct Hthr as (c & (a & Ha & Hc) & Hp). simpl in Ha. unfold scan_blocks. rewrite Ha.
      destruct Hw as (Hw1 & Hw2 & Hw3). destruct (Hw2 i a Ha) as [c' Hf].
      pose proof (stands_unique bid prev genesis Hn _ _ _ Hc (follows_stands _ _ _ Hf)) as ->.
      destruct (account_scan_spec bid prev genesis concerns i p bs a c') as (a' & added & Hsc & Hs & _); [done..|]. rewrite Hsc.
      destruct (stored W t); intros Heq _; simplify_eq; [|done]. split.
      { simpl. intros Hnil. apply Hw1, nil_length_inv. by rewrite <- (insert_length (accounts w) i a'), Hnil. }
      simpl. rewrite insert_length. split; [|done]. intros j b Hb.
      apply list_lookup_insert_Some in Hb as [(-> & -> & _)|[_ Hb]]; [|by apply Hw2]. exists (p ++ bs).
      by eapply account_scan_follows.
    - intros Heq Hr. pose proof (complete_clean p w Hw Hthr). destruct Hw as (Hw1 & Hw2 & _).
      by eapply scan_unused_complete.
  Qed.

  Lemma scan_all_complete (p bs : chain) l w t w' t' r :
    no_gaps bid prev genesis concerns max_index ->
    complete w -> (∀ x, x ∈ l -> through w x p) -> linked (p ++ bs) -> bs ≠ [] ->
    try_fold (scan_new_blocks bid concerns max_index W (length p) bs) l (w, t) = ((w', t'), r) -> r ≠ Err (WalletError OfUnusedAccount) -> complete w'.
  Proof.
    intros Hg. revert w t; induction l as [|x l IH]; intros w t Hw Hthr Hl Hne; cbn [try_fold].
    { intros Heq; by simplify_eq. }
    destruct (scan_new_blocks _ _ _ _ _ _ _ _) as [[w1 t1] r1] eqn:E1.
    assert (through w x p) as Hx by (apply Hthr; constructor).
    pose proof (scan_one_complete p bs x w t w1 t1 r1 Hg Hw Hx Hl Hne E1) as Hc.
    apply scan_one_spec in E1; [|by apply complete_sound|done|done|done]. destruct E1 as [F1 F2 F3 F4 F5 F6 F7].
    destruct r1 as [[]|e|]; intros Heq Hr.
    - eapply IH; [by apply Hc| |done|done|exact Heq|done].
      intros y Hy. destruct (decide (y = x)) as [->|Hyx].
      { exists (p ++ bs). split; [|by exists bs]. apply F6; [done|constructor]. }
      destruct (Hthr y) as (c & (a & Ha & Hca) & Hp); [by constructor|]. exists c. split; [|done]. exists a. split; [|done].
      rewrite F5; [done|by intros Hz%elem_of_list_singleton|by eexists].
    - simplify_eq. apply Hc. congruence.
    - done.
  Qed.

  (** ** A calm wallet scans successfully *)
  Lemma scan_unused_ok room (p bs : chain) w t :
    no_gaps bid prev genesis concerns max_index -> (∀ t', (t <= t')%nat -> stored W t' = true ∧ unlocked W t' = true) ->
    room = (max_index - length (accounts w))%nat ->
    (∃ i a, length (accounts w) = S i ∧ accounts w !! i = Some a ∧ follows i a (p ++ bs)) -> clean p w -> linked (p ++ bs) -> bs ≠ [] ->
    ∃ w' t', scan_blocks_for_unused_account bid concerns max_index W room (length p) bs (w, t) = ((w', t'), Ok tt).
  Proof.
    intros Hg. revert w t. induction room as [|room IH]; intros w t Hcalm Hroom (i & b & Hi & Hb & Hf) Hcl Hl Hne; cbn [scan_blocks_for_unused_account];
      (destruct (Hcalm t) as [-> _]; [lia|]);
      (destruct (clean_scan p bs w) as (a & added & -> & Hfa & H1 & H2); [done..|]);
      (destruct added; [|by eauto]);
      specialize (H2 eq_refl); destruct Hfa as [Hsa Hra];
      (assert (all_concerning concerns (length (accounts w)) (p ++ bs) ≠ []) as Hused by congruence);
      (assert (length (accounts w) < max_index)%nat as Hlt by
        (destruct (decide (length (accounts w) < max_index)%nat); [done|]; destruct Hused; apply (proj2 Hg); [done|lia]));
      [lia|].
    destruct (create_next_account _ _ _) as [[w1 t1] r1] eqn:Ec. unfold create_next_account in Ec. simpl in Ec.
    assert (last (accounts w) = Some b) as Hlast. { rewrite last_lookup, Hi. done. }
    rewrite Hlast in Ec. rewrite bool_decide_false in Ec.
    2: { destruct Hf as [_ ->]. intros Hnil. apply Hused. rewrite Hi. by apply (proj1 Hg). }
    apply Nat.ltb_lt in Hlt as Hlt'. rewrite Hlt' in Ec. destruct (Hcalm (S t)) as [_ Hul]; [lia|]. rewrite Hul in Ec. simpl in Ec. simplify_eq.
    simpl. apply IH.
    - intros t' Ht'. apply Hcalm. lia.
    - simpl. rewrite app_length. simpl. lia.
    - exists (length (accounts w)), a. simpl. rewrite app_length, list_lookup_middle by done. simpl. split; [lia|]. done.
    - by eapply clean_next.
    - done.
    - done.
  Qed.

  Lemma scan_used_ok (p bs : chain) l w t :
    (∀ t', (t <= t')%nat -> stored W t' = true) -> sound w ->
    (∀ x, x ∈ l -> x ≠ UnusedAccount ∧ through w x p) -> linked (p ++ bs) -> bs ≠ [] ->
    ∃ w' t', try_fold (scan_new_blocks bid concerns max_index W (length p) bs) l (w, t) = ((w', t'), Ok tt) ∧ unused w' = unused w ∧
      length (accounts w') = length (accounts w).
  Proof.
    revert w t; induction l as [|x l IH]; intros w t Hcalm Hw Hthr Hl Hne; cbn [try_fold]; [by eauto|].
    destruct (Hthr x) as [Hx Hxt]; [constructor|]. destruct x as [i|]; [|done].
    destruct (scan_new_blocks _ _ _ _ _ _ _ _) as [[w1 t1] r1] eqn:E1.
    pose proof E1 as E2. apply scan_one_spec in E2; [|done..]. destruct E2 as [F1 F2 F3 F4 F5 F6 F7].
    destruct Hxt as (c & (a & Ha & Hc) & Hp). simpl in Ha. simpl in E1. unfold scan_blocks in E1. rewrite Hcalm, Ha in E1 by lia.
    destruct (account_scan_spec bid prev genesis concerns i p bs a c) as (a' & added & Hsc & _); [done..|]. rewrite Hsc in E1. simplify_eq.
    destruct (IH (Wallet (<[i:=a']> (accounts w)) (unused w)) (S t)) as (w' & t' & Hr & Hu & Hlen).
    - intros t' Ht'. apply Hcalm. lia.
    - done.
    - intros y Hy. destruct (Hthr y) as [Hy1 Hy2]; [by constructor|]. split; [done|].
      destruct (decide (y = UsedAccount i)) as [->|Hyx].
      { exists (p ++ bs). split; [|by exists bs]. apply F6; [done|constructor]. }
      destruct Hy2 as (c2 & (a2 & Ha2 & Hc2) & Hp2). exists c2. split; [|done]. exists a2. split; [|done].
      rewrite F5; [done|by intros Hz%elem_of_list_singleton|by eexists].
    - done.
    - done.
    - exists w', t'. simpl in *. rewrite insert_length in Hlen. done.
  Qed.
End Scan.
