(** Proofs about the synchronisation of a wallet: the groups of accounts and the rounds. *)
From Verif Require Import Base WalletSyncModel WalletSyncSpec WalletSyncProofs WalletSyncScan.

(** ** The groups *)
Section Groups.
  Context {B : Type}.
  Notation wallet := (@wallet B).
  Notation groups := (list ((N * nat) * list account_type)).

  Lemma key_eqb_spec (a b : N * nat) : key_eqb a b = true ↔ a = b.
  Proof.
    unfold key_eqb. rewrite andb_true_iff, N.eqb_eq, Nat.eqb_eq. destruct a, b; simpl. split; [intros [-> ->]; done|by intros [= -> ->]].
  Qed.
  Lemma group_push_perm k x (g : groups) : concat (map snd (group_push k x g)) ≡ₚ x :: concat (map snd g).
  Proof.
    induction g as [|[k' l] g IH]; cbn [group_push]; [done|]. destruct (key_eqb k k'); simpl.
    { rewrite <- app_assoc. simpl. by rewrite Permutation_middle. }
    destruct (key_ltb k k'); simpl; [done|]. rewrite IH. by rewrite Permutation_middle.
  Qed.
  Lemma group_push_inv (P : N * nat -> account_type -> Prop) k x (g : groups) :
    P k x -> (∀ k' l y, (k', l) ∈ g -> y ∈ l -> P k' y) -> ∀ k' l y, (k', l) ∈ group_push k x g -> y ∈ l -> P k' y.
  Proof.
    intros Hx. induction g as [|[k0 l0] g IH]; cbn [group_push]; intros Hg k' l y Hin Hy.
    { apply elem_of_list_singleton in Hin as [= -> ->]. by apply elem_of_list_singleton in Hy as ->. }
    destruct (key_eqb k k0) eqn:E.
    - apply key_eqb_spec in E as ->. apply elem_of_cons in Hin as [[= -> ->]|Hin].
      + apply elem_of_app in Hy as [Hy|Hy]; [eapply Hg; [constructor|done]|]. by apply elem_of_list_singleton in Hy as ->.
      + eapply Hg; [by constructor|done].
    - destruct (key_ltb k k0).
      + apply elem_of_cons in Hin as [[= -> ->]|Hin]; [by apply elem_of_list_singleton in Hy as ->|]. by eapply Hg.
      + apply elem_of_cons in Hin as [[= -> ->]|Hin]; [eapply Hg; [constructor|done]|].
        eapply IH; [|done|done]. intros ? ? ? Hin'. apply Hg. by constructor.
  Qed.

  Definition all_types (w : wallet) : list account_type := map UsedAccount (seq 0 (length (accounts w))) ++ [UnusedAccount].
  Lemma all_types_get (w : wallet) x : x ∈ all_types w ↔ ∃ a, get w x = Some a.
  Proof.
    unfold all_types. rewrite elem_of_app, elem_of_list_singleton. destruct x as [i|]; simpl.
    - split.
      + intros [Hi|Hi]; [|done]. apply elem_of_list_fmap in Hi as (j & [= <-] & Hj). apply elem_of_seq in Hj.
        apply lookup_lt_is_Some. lia.
      + intros [a Ha]. left. apply elem_of_list_fmap. exists i. split; [done|]. apply elem_of_seq. apply lookup_lt_Some in Ha. lia.
    - split; [by eauto|by right].
  Qed.
  Lemma all_types_NoDup (w : wallet) : NoDup (all_types w).
  Proof.
    unfold all_types. apply NoDup_app. split; [|split; [|apply NoDup_singleton]].
    - apply NoDup_fmap_2; [by intros ? ? [=]|apply NoDup_seq].
    - intros x Hx Hx'. apply elem_of_list_singleton in Hx' as ->. by apply elem_of_list_fmap in Hx as (j & ? & _).
  Qed.

  Notation used_groups := (foldl (fun g (x : nat * @account B) => group_push (best x.2) (UsedAccount x.1) g)).
  Lemma used_groups_perm (L : list (nat * @account B)) g : concat (map snd (used_groups g L)) ≡ₚ concat (map snd g) ++ map (fun x => UsedAccount x.1) L.
  Proof.
    revert g; induction L as [|x L IH]; intros g; simpl; [by rewrite app_nil_r|]. rewrite IH, group_push_perm. simpl.
    by rewrite Permutation_middle.
  Qed.
  Lemma used_groups_inv (P : N * nat -> account_type -> Prop) (L : list (nat * @account B)) g :
    (∀ x, x ∈ L -> P (best x.2) (UsedAccount x.1)) -> (∀ k' l y, (k', l) ∈ g -> y ∈ l -> P k' y) ->
    ∀ k' l y, (k', l) ∈ used_groups g L -> y ∈ l -> P k' y.
  Proof.
    revert g; induction L as [|x L IH]; intros g HL Hg; simpl; [done|]. apply IH.
    - intros y Hy. apply HL. by constructor.
    - apply group_push_inv; [|done]. apply HL. constructor.
  Qed.
  Lemma indexed_used (l : list (@account B)) : map (fun x => UsedAccount x.1) (imap (fun i a => (i, a)) l) = map UsedAccount (seq 0 (length l)).
  Proof.
    assert (∀ n, map (fun x => UsedAccount x.1) (imap (fun i a => ((n + i)%nat, a)) l) = map UsedAccount (seq n (length l))) as Hg.
    { induction l as [|a l IH]; intros n; [done|]. rewrite imap_cons. cbn [map length seq]. f_equal; [cbn; by rewrite Nat.add_0_r|].
      rewrite <- IH. f_equal. apply imap_ext. intros i x _. simpl. f_equal. lia. }
    apply (Hg 0%nat).
  Qed.
  Lemma grouped_perm (w : wallet) : concat (map snd (grouped w)) ≡ₚ all_types w.
  Proof.
    unfold grouped, all_types. rewrite group_push_perm, used_groups_perm, indexed_used. simpl. by rewrite Permutation_cons_append.
  Qed.
  Lemma grouped_best (w : wallet) k l x : (k, l) ∈ grouped w -> x ∈ l -> ∃ a, get w x = Some a ∧ best a = k.
  Proof.
    unfold grouped. revert k l x. apply (group_push_inv (fun k x => ∃ a, get w x = Some a ∧ best a = k)); [by exists (unused w)|].
    apply used_groups_inv; [|by intros ? ? ? ?%elem_of_nil]. intros [i a] Hx. apply elem_of_lookup_imap in Hx as (j & b & [= -> ->] & Hj). by exists b.
  Qed.
  Lemma group_push_keys k x (g : groups) k' l : (k', l) ∈ group_push k x g -> k' = k ∨ ∃ l', (k', l') ∈ g.
  Proof.
    induction g as [|[k0 l0] g IH]; cbn [group_push].
    { intros Hin%elem_of_list_singleton. simplify_eq. by left. }
    destruct (key_eqb k k0).
    - intros [?|Hin]%elem_of_cons; simplify_eq; right; [exists l0; constructor|exists l; by constructor].
    - destruct (key_ltb k k0); intros [?|Hin]%elem_of_cons; simplify_eq.
      + by left.
      + right. by exists l.
      + right. exists l0. constructor.
      + destruct (IH Hin) as [->|[l' Hl']]; [by left|]. right. exists l'. by constructor.
  Qed.
  Lemma grouped_key (w : wallet) k l : (k, l) ∈ grouped w -> k ∈ best_blocks w.
  Proof.
    unfold grouped, best_blocks. intros Hin. apply group_push_keys in Hin as [->|[l' Hin]]; [apply elem_of_app; right; constructor|].
    apply elem_of_app. left.
    assert (∀ L g, (∀ x, x ∈ L -> best x.2 ∈ map best (accounts w)) -> (∀ k' l', (k', l') ∈ g -> k' ∈ map best (accounts w)) ->
      ∀ k' l', (k', l') ∈ used_groups g L -> k' ∈ map best (accounts w)) as Hall.
    { induction L as [|x L IH]; intros g HL Hg; simpl; [done|]. apply IH.
      - intros y Hy. apply HL. by constructor.
      - intros k1 l1 H1. apply group_push_keys in H1 as [->|[l2 H2]]; [apply HL; constructor|by eapply Hg]. }
    eapply Hall; [| |exact Hin]; [|by intros ? ? ?%elem_of_nil].
    intros [i a] Hx. apply elem_of_lookup_imap in Hx as (j & b & [= -> ->] & Hj). simpl.
    apply elem_of_list_fmap. exists b. split; [done|]. by eapply elem_of_list_lookup_2.
  Qed.
  Lemma grouped_level (w : wallet) k : (∀ b, b ∈ best_blocks w -> b = k) -> accounts w ≠ [] -> grouped w = [(k, all_types w)].
  Proof.
    intros Hk Hne. unfold grouped, all_types. unfold best_blocks in Hk.
    assert (∀ L l0, (∀ x, x ∈ L -> best x.2 = k) -> used_groups [(k, l0)] L = [(k, l0 ++ map (fun x => UsedAccount x.1) L)]) as Hg.
    { induction L as [|x L IH]; intros l0 HL; simpl; [by rewrite app_nil_r|].
      assert (best x.2 = k) as -> by (apply HL; constructor). rewrite (proj2 (key_eqb_spec k k)) by done.
      rewrite IH; [by rewrite <- app_assoc|]. intros y Hy. apply HL. by constructor. }
    assert (best (unused w) = k) as -> by (apply Hk, elem_of_app; right; constructor).
    destruct (accounts w) as [|a as'] eqn:E; [done|].
    assert (∀ x, x ∈ imap (fun i a => (i, a)) (a :: as') -> best x.2 = k) as Hall.
    { intros [i b] Hx. apply elem_of_lookup_imap in Hx as (j & b' & [= -> ->] & Hj). simpl. apply Hk, elem_of_app. left.
      apply elem_of_list_fmap. exists b'. split; [done|]. by eapply elem_of_list_lookup_2. }
    rewrite <- indexed_used. rewrite imap_cons in *. cbn [foldl map]. cbn [group_push fst snd].
    assert (best a = k) as -> by (apply (Hall (0%nat, a)); constructor).
    rewrite Hg; [|intros y Hy; apply Hall; by constructor]. cbn [group_push]. by rewrite (proj2 (key_eqb_spec k k)).
  Qed.

  Lemma sorted_insert_perm (x : (N * nat) * list account_type) l : sorted_insert x l ≡ₚ x :: l.
  Proof.
    induction l as [|y l IH]; cbn [sorted_insert]; [done|]. destruct (_ <=? _)%nat; [done|]. rewrite IH. constructor.
  Qed.
  Lemma sort_perm (l : groups) : sort_by_height l ≡ₚ l.
  Proof. induction l as [|x l IH]; simpl; [done|]. rewrite sorted_insert_perm. by rewrite IH. Qed.
  Lemma concat_perm {A} (l l' : list (list A)) : l ≡ₚ l' -> concat l ≡ₚ concat l'.
  Proof.
    induction 1; simpl; [done|by f_equiv| |by etrans]. rewrite !app_assoc. f_equiv. apply Permutation_app_comm.
  Qed.
End Groups.

Section Run.
  Context {B : Type} (bid prev : B -> N) (genesis : N) (concerns : nat -> list (nat * B) -> B -> bool) (max_index : nat).
  Notation chain := (list B).
  Notation wallet := (@wallet B).
  Notation account := (@account B).
  Notation tip := (tip bid genesis).
  Notation linked := (linked bid prev genesis).
  Notation stands_on := (stands_on bid prev genesis).
  Notation follows := (follows bid prev genesis concerns).
  Notation sound := (sound bid prev genesis).
  Notation complete := (complete bid prev genesis concerns).
  Notation through := (through bid prev genesis).
  Notation at_chain := (at_chain bid prev genesis).
  Notation no_gaps := (no_gaps bid prev genesis concerns max_index).
  Context (Hn : no_collisions bid genesis) (W : @world B) (HW : good_world bid prev genesis W).
  Notation call := (call W).

  (** ** What is fetched *)
  Lemma fetch_spec (p : chain) count (w : wallet) t w' t' r :
    linked p -> fetch_next_blocks prev W (tip p, length p) count (w, t) = ((w', t'), r) ->
    w' = w ∧ t' = S t ∧ r ≠ Panic ∧
    ∀ bs, r = Ok bs -> ∃ n, seen W t = Some n ∧ bs = take count (drop (length p) (main n)) ∧ bs ≠ [] ∧ p `prefix_of` main n ∧ linked (p ++ bs).
  Proof.
    intros Hp. unfold fetch_next_blocks, WalletSyncModel.call. simpl. intros Heq. simplify_eq. split; [done|]. split; [done|].
    destruct (seen W t) as [n|] eqn:En; [|by split; [|done]]. destruct (HW t n En) as [Hm _].
    destruct (take count (drop (length p) (main n))) as [|b bs] eqn:Eb; [by split; [|done]|].
    destruct (N.eqb_spec (prev b) (tip p)) as [Hprev|_]; [|by split; [|done]]. split; [done|]. intros ? [= <-].
    exists n. split; [done|]. split; [done|]. split; [done|].
    assert (take (length p) (main n) = p) as Htake.
    { apply (chain_unique bid prev genesis Hn); [by apply linked_take|done|].
      rewrite <- (take_drop (length p) (main n)) in Hm. apply linked_app in Hm as [_ Hm].
      destruct count as [|count]; [done|]. destruct (drop (length p) (main n)) as [|b' bs']; [done|]. simpl in Eb. simplify_eq.
      destruct Hm as [Hm _]. congruence. }
    split; [exists (drop (length p) (main n)); rewrite <- Htake at 1; by rewrite take_drop|].
    rewrite <- Eb. rewrite <- Htake at 1. apply (linked_take _ _ _ (length p + count)%nat) in Hm. by rewrite <- take_take_drop in Hm.
  Qed.

  (** The accounts of a group stand on chains through the common block *)
  Definition group_ok (w : wallet) (M : chain) (g : (N * nat) * list account_type) : Prop :=
    ∃ p, g.1 = (tip p, length p) ∧ linked p ∧ p `prefix_of` M ∧ ∀ x, x ∈ g.2 -> through w x p.

  Lemma fetch_and_sync_spec (p : chain) l count (w : wallet) t w' t' r :
    sound w -> linked p -> (∀ x, x ∈ l -> through w x p) ->
    fetch_and_sync bid prev concerns max_index W ((tip p, length p), l) count (w, t) = ((w', t'), r) ->
    r ≠ Panic ∧ sound w' ∧ (t <= t')%nat ∧ (no_gaps -> complete w -> r ≠ Err (WalletError OfUnusedAccount) -> complete w') ∧
    (r = Ok tt -> ∃ n bs, seen W t = Some n ∧ bs = take count (drop (length p) (main n)) ∧ bs ≠ [] ∧ p `prefix_of` main n ∧
       scanned bid prev genesis p bs w (S t) l w' t' r).
  Proof.
    intros Hw Hp Hthr. unfold fetch_and_sync. intros Heq. apply sbind_inv in Heq as [([w1 t1] & bs & Hf & Hs)|[(e & Hf & ->)|[Hf ->]]].
    - apply fetch_spec in Hf as (-> & -> & _ & Hbs); [|done]. destruct (Hbs bs eq_refl) as (n & Hs1 & Hs2 & Hs3 & Hs4 & Hs5).
      cbn [fst snd] in Hs. pose proof Hs as Hs'. apply (scan_all_spec bid prev genesis) in Hs' as [F1 F2 F3 F4 F5 F6 F7]; [|done..].
      split; [done|]. split; [done|]. split; [lia|]. split.
      + intros Hg Hc Hr. eapply (scan_all_complete bid prev genesis); done.
      + intros ->. exists n, bs. done.
    - apply fetch_spec in Hf as (-> & -> & _ & _); [|done]. split; [done|]. split; [done|]. split; [lia|]. done.
    - by apply fetch_spec in Hf as (_ & _ & ? & _).
  Qed.

  Lemma sync_groups_sound (M : chain) cur rest (w : wallet) t w' t' r :
    sound w -> group_ok w M cur -> (∀ g, g ∈ rest -> group_ok w M g) -> NoDup (cur.2 ++ concat (map snd rest)) ->
    (rest = [] ∨ ∀ t1 n, (t <= t1)%nat -> seen W t1 = Some n -> M `prefix_of` main n) ->
    sync_groups bid prev concerns max_index W cur rest (w, t) = ((w', t'), r) ->
    sound w' ∧ (t <= t')%nat ∧ (no_gaps -> complete w -> r ≠ Err (WalletError OfUnusedAccount) -> complete w').
  Proof.
    revert cur w t. induction rest as [|next rest IH]; intros cur w t Hw Hcur Hrest Hnd Hgrow; cbn [sync_groups]; intros Heq.
    { destruct cur as [i l]. destruct Hcur as (p & Hi & Hp & HpM & Hthr). simpl in *. subst i.
      apply fetch_and_sync_spec in Heq as (H1 & H2 & H3 & H4 & _); [done..|]. done. }
    destruct Hgrow as [?|Hgrow]; [done|].
    apply sbind_inv in Heq as [([w1 t1] & g & Hf & Hs)|Hstop].
    - unfold fetch_and_sync_to_next_group in Hf. destruct (Nat.ltb_spec next.1.2 cur.1.2) as [_|Hle]; [done|].
      apply sbind_inv in Hf as [([w2 t2] & [] & Hf & Hk)|[(e & _ & ?)|[_ ?]]]; [|done|done]. simplify_eq.
      destruct cur as [i l]. destruct Hcur as (p & Hi & Hp & HpM & Hthr). simpl in Hi, Hthr, Hle, Hnd, Hs |- *. subst i.
      apply fetch_and_sync_spec in Hf as (H1 & H2 & H3 & H4 & H5); [|done..].
      destruct (H5 eq_refl) as (n & bs & Hn1 & Hbs & Hbne & Hpn & [F1 F2 F3 F4 F5 F6 F7]). simpl in Hbs, Hle.
      destruct next as [i2 l2]. destruct (Hrest (i2, l2)) as (p2 & Hi2 & Hp2 & Hp2M & Hthr2); [constructor|]. simpl in *. subst i2. simpl in *.
      assert (p ++ bs = p2) as Hpp.
      { assert (p2 `prefix_of` main n) as [q2 Hq2] by (etrans; [done|]; by apply (Hgrow t)).
        destruct Hpn as [q Hq]. rewrite Hbs, Hq, drop_app. 
        assert (take (length p2) (main n) = p2) as Ht2 by (by rewrite Hq2, take_app).
        rewrite Hq in Ht2. rewrite take_app_ge in Ht2 by lia. done. }
      apply NoDup_app in Hnd as (Hnd1 & Hnd2 & Hnd3).
      assert (∀ x p', x ∉ l -> through w x p' -> through w1 x p') as Hsame.
      { intros x p' Hx (c & (a & Ha & Hc) & Hpc). exists c. split; [|done]. exists a. split; [|done]. rewrite F5; [done|done|by eexists]. }
      apply IH in Hs as (G1 & G2 & G3).
      + split; [done|]. split; [lia|]. intros Hg Hc Hr. apply G3; [done| |done]. by apply H4.
      + done.
      + exists p2. split; [done|]. split; [done|]. split; [done|]. simpl. intros x Hx. apply elem_of_app in Hx as [Hx|Hx].
        * apply Hsame; [|by apply Hthr2]. intros Hxl. apply (Hnd2 x Hxl), elem_of_app. by left.
        * exists p2. split; [|done]. rewrite <- Hpp. by apply F6.
      + intros g Hg. destruct (Hrest g) as (p3 & Hi3 & Hp3 & Hp3M & Hthr3); [by constructor|]. exists p3. split; [done|]. split; [done|]. split; [done|].
        intros x Hx. apply Hsame; [|by apply Hthr3]. intros Hxl. apply (Hnd2 x Hxl), elem_of_app. right.
        apply elem_of_list_In, in_concat. exists g.2. split; [by apply in_map, elem_of_list_In|by apply elem_of_list_In].
      + simpl. rewrite (Permutation_app_comm l2 l), <- app_assoc. by apply NoDup_app.
      + right. intros t3 n3 Ht3. apply Hgrow. lia.
    - assert (∃ r1, fetch_and_sync bid prev concerns max_index W cur (next.1.2 - cur.1.2) (w, t) = ((w', t'), r1) ∧
        (r1 = Err (WalletError OfUnusedAccount) -> r = Err (WalletError OfUnusedAccount)) ∨ (w', t') = (w, t)) as (r1 & [[Hf Hr1]|[= -> ->]]); [|clear Hstop|].
      { unfold fetch_and_sync_to_next_group in Hstop. destruct (next.1.2 <? cur.1.2)%nat.
        { exists (Ok tt). right. destruct Hstop as [(e & ? & _)|[? _]]; by simplify_eq. }
        destruct (fetch_and_sync _ _ _ _ _ _ _ _) as [[w1 t1] r1]. exists r1. left.
        destruct r1 as [[]|e|]; simpl in Hstop; destruct Hstop as [(e' & ? & ->)|[? ->]]; by simplify_eq. }
      + destruct cur as [i l]. destruct Hcur as (p & Hi & Hp & HpM & Hthr). simpl in *. subst i.
        apply fetch_and_sync_spec in Hf as (H1 & H2 & H3 & H4 & _); [|done..]. split; [done|]. split; [lia|]. intros Hg Hc Hr. apply H4; auto.
      + split; [done|]. split; [lia|]. done.
  Qed.

  (** ** The common blocks *)
  Lemma common_info_spec (M : chain) h k (w : wallet) t s' r :
    linked M -> get_common_block_info bid genesis W (tip M, h) k (w, t) = (s', r) ->
    s'.1 = w ∧ (t <= s'.2)%nat ∧ (tip M ≠ k.1 -> (k.2 <= h)%nat -> r ≠ Panic) ∧
    ∀ i, r = Ok i -> ∃ p, i = (tip p, length p) ∧ linked p ∧ p `prefix_of` M ∧ (∀ c, linked c -> tip c = k.1 -> p `prefix_of` c).
  Proof.
    intros HM. unfold get_common_block_info. simpl. destruct (N.eqb_spec (tip M) k.1) as [Heq|Hne].
    { intros Hr. simplify_eq. done. }
    destruct (Nat.ltb_spec h k.2) as [Hlt|Hge].
    { intros Hr. simplify_eq. simpl. repeat split; try done. intros ? ?. lia. }
    unfold WalletSyncModel.call. simpl. intros Hr. simplify_eq. simpl. split; [done|]. split; [lia|].
    destruct (seen W t) as [n|] eqn:En; [|done]. split; [done|]. intros i [= <-]. pose proof (HW t n En) as Hgn.
    unfold last_common_ancestor_by_id. destruct (known_chain bid genesis k.1 n) as [p|] eqn:Ep; [destruct (known_chain bid genesis (tip M) n) as [q|] eqn:Eq|].
    - apply (known_chain_spec bid prev) in Ep as [Hp Htp]; [|done]. apply (known_chain_spec bid prev) in Eq as [Hq Htq]; [|done].
      assert (q = M) as -> by (by apply (chain_unique bid prev genesis Hn)).
      destruct (common_height_spec bid prev genesis Hn p M) as (H1 & H2 & H3); [done..|].
      exists (take (common_height bid genesis p M) p). rewrite take_length, Nat.min_l by done. split; [done|]. split; [by apply linked_take|]. split.
      + rewrite H3. by exists (drop (common_height bid genesis p M) M); rewrite take_drop.
      + intros c Hc Htc. assert (c = p) as -> by (apply (chain_unique bid prev genesis Hn); [done|done|congruence]).
        by exists (drop (common_height bid genesis p M) p); rewrite take_drop.
    - exists []. split; [done|]. split; [done|]. split; [apply prefix_nil|]. intros c _ _. apply prefix_nil.
    - exists []. split; [done|]. split; [done|]. split; [apply prefix_nil|]. intros c _ _. apply prefix_nil.
  Qed.

  Lemma with_common_spec (M : chain) h g (w : wallet) t s' r :
    sound w -> linked M -> (∀ k l x, (k, l) ∈ g -> x ∈ l -> ∃ a, get w x = Some a ∧ best a = k) ->
    with_common_blocks bid genesis W (tip M, h) g (w, t) = (s', r) ->
    s'.1 = w ∧ (t <= s'.2)%nat ∧ ((∀ k l, (k, l) ∈ g -> tip M ≠ k.1 ∧ (k.2 <= h)%nat) -> r ≠ Panic) ∧
    ∀ gs, r = Ok gs -> map snd gs = map snd g ∧ ∀ x, x ∈ gs -> group_ok w M x.
  Proof.
    intros Hw HM. revert t s' r. induction g as [|[k l] g IH]; intros t s' r Hg; cbn [with_common_blocks]; intros Heq.
    { simplify_eq. simpl. split; [done|]. split; [lia|]. split; [done|]. intros gs [= <-]. split; [done|]. by intros x ?%elem_of_nil. }
    assert (∀ k' l' x, (k', l') ∈ g -> x ∈ l' -> ∃ a, get w x = Some a ∧ best a = k') as Hg'.
    { intros k' l' x Hin. apply (Hg k' l' x). by constructor. }
    apply sbind_inv in Heq as [([w1 t1] & i & Hi & Hs)|[(e & Hi & ->)|[Hi ->]]].
    - apply common_info_spec in Hi as (H1 & H2 & _ & H3); [|done]. simpl in *. subst w1.
      destruct (H3 i eq_refl) as (p & -> & Hp & HpM & Hpc).
      apply sbind_inv in Hs as [([w2 t2] & gs & Hgs & Hk)|[(e & Hgs & ->)|[Hgs ->]]].
      + simplify_eq. apply IH in Hgs as (G1 & G2 & _ & G3); [|done]. simpl in *. subst w2. split; [done|]. split; [lia|]. split; [done|].
        intros ? [= <-]. destruct (G3 gs eq_refl) as [G4 G5]. simpl. split; [by f_equal|]. intros x Hx. apply elem_of_cons in Hx as [->|Hx]; [|by apply G5].
        exists p. split; [done|]. split; [done|]. split; [done|]. simpl. intros x Hx.
        destruct (Hg k l x) as (a & Ha & Hb); [constructor|done|]. apply sound_get in Hw as [_ Hw]. destruct (Hw x a Ha) as [c Hc].
        exists c. split; [by exists a|]. destruct Hc as (Hc1 & Hc2 & _). apply Hpc; [done|]. rewrite <- Hb, Hc2. done.
      + apply IH in Hgs as (G1 & G2 & _ & _); [|done]. split; [done|]. split; [lia|]. done.
      + apply IH in Hgs as (G1 & G2 & G3 & _); [|done]. split; [done|]. split; [lia|]. split; [|done].
        intros Hall. apply G3. intros k' l' Hin. apply (Hall k' l'). by constructor.
    - apply common_info_spec in Hi as (H1 & H2 & _ & _); [|done]. split; [done|]. split; [lia|]. done.
    - apply common_info_spec in Hi as (H1 & H2 & H3 & _); [|done]. split; [done|]. split; [lia|]. split; [|done].
      intros Hall. destruct (Hall k l) as [Ha Hb]; [constructor|]. by destruct (H3 Ha Hb).
  Qed.

  Lemma grouping_spec (M : chain) h (w : wallet) t s' r :
    sound w -> linked M -> group_accounts_by_mainchain_blocks bid genesis W (tip M, h) (w, t) = (s', r) ->
    s'.1 = w ∧ (t <= s'.2)%nat ∧ ((∀ b, b ∈ best_blocks w -> tip M ≠ b.1 ∧ (b.2 <= h)%nat) -> r ≠ Panic) ∧
    ∀ gs, r = Ok gs -> concat (map snd gs) ≡ₚ all_types w ∧ (∀ x, x ∈ gs -> group_ok w M x) ∧ ((∃ k, grouped w = [(k, all_types w)]) -> ∃ i, gs = [(i, all_types w)]).
  Proof.
    intros Hw HM. unfold group_accounts_by_mainchain_blocks. intros Heq.
    assert (∀ k l x, (k, l) ∈ grouped w -> x ∈ l -> ∃ a, get w x = Some a ∧ best a = k) as Hg by apply grouped_best.
    apply sbind_inv in Heq as [([w1 t1] & i & Hi & Hs)|[(e & Hi & ->)|[Hi ->]]]; simpl in Hi.
    - apply with_common_spec in Hi as (H1 & H2 & _ & H3); [|done..]. simpl in *. simplify_eq. split; [done|]. split; [done|]. split; [done|].
      intros gs [= <-]. destruct (H3 i eq_refl) as [H4 H5]. split; [|split].
      + rewrite <- grouped_perm. rewrite <- H4. apply concat_perm. apply Permutation_map. apply sort_perm.
      + intros x Hx. apply H5. by rewrite <- (sort_perm i).
      + intros [k Hk]. rewrite Hk in H4. simpl in H4. destruct i as [|[i l] [|]]; simplify_eq/=. by eexists.
    - apply with_common_spec in Hi as (H1 & H2 & _ & _); [|done..]. done.
    - apply with_common_spec in Hi as (H1 & H2 & H3 & _); [|done..]. split; [done|]. split; [done|]. split; [|done]. intros Hall. apply H3.
      intros k l Hin. apply Hall. by eapply grouped_key.
  Qed.

  (** ** Rounds *)
  Lemma sync_once_sound fuel (w : wallet) t w' t' r :
    sound w -> level w ∨ growing_from t W ->
    sync_once bid prev genesis concerns max_index W fuel (w, t) = ((w', t'), r) ->
    sound w' ∧ (t <= t')%nat ∧ (level w -> r ≠ Panic) ∧ (no_gaps -> complete w -> r ≠ Err (WalletError OfUnusedAccount) -> complete w') ∧
    (r = Ok Synced -> ∃ t1 n, (t <= t1 < t')%nat ∧ seen W t1 = Some n ∧ ∀ b, b ∈ best_blocks w' -> b.1 = tip (main n)).
  Proof.
    revert w t. induction fuel as [|fuel IH]; intros w t Hw Hcond; cbn [sync_once]; intros Heq.
    { simplify_eq. done. }
    apply sbind_inv in Heq as [([w1 t1] & i & Hi & Hs)|[(e & Hi & ->)|[Hi ->]]]; unfold WalletSyncModel.call in Hi; simpl in Hi; simplify_eq.
    - destruct (seen W t) as [n|] eqn:En; [|done]. simplify_eq. cbn [fst snd chainstate_info] in Hs.
      destruct (forallb _ (best_blocks w1)) eqn:Eall.
      { simplify_eq. split; [done|]. split; [lia|]. split; [done|]. split; [done|]. intros _. exists t, n. split; [lia|]. split; [done|].
        intros b Hb. rewrite forallb_forall in Eall. apply N.eqb_eq, Eall. by apply elem_of_list_In. }
      destruct (existsb _ (best_blocks w1)) eqn:Eex.
      { simplify_eq. split; [done|]. split; [lia|]. done. }
      destruct (HW t n En) as [HM _].
      assert (level w1 -> ∀ b, b ∈ best_blocks w1 -> tip (main n) ≠ b.1 ∧ (b.2 <= length (main n))%nat) as Hapart.
      { intros Hlev b Hb. split.
        - intros Heq. assert (forallb (fun b => (b.1 =? tip (main n))%N) (best_blocks w1) = true) as Hcontra; [|congruence].
          apply forallb_forall. intros b' Hb'. apply N.eqb_eq. rewrite (Hlev b' b); [done|by apply elem_of_list_In|done].
        - destruct (decide (b.2 <= length (main n))%nat) as [|Hlt]; [done|].
          assert (existsb (fun b => (length (main n) <? b.2)%nat) (best_blocks w1) = true) as Hcontra; [|congruence].
          apply existsb_exists. exists b. split; [by apply elem_of_list_In|]. apply Nat.ltb_lt. lia. }
      apply sbind_inv in Hs as [([w2 t2] & gs & Hgs & Hk)|[(e & Hgs & ->)|[Hgs ->]]].
      + apply grouping_spec in Hgs as (G1 & G2 & _ & G3); [|done..]. simpl in G1, G2. subst w2. destruct (G3 gs eq_refl) as (G4 & G5 & G6).
        destruct (rev gs) as [|cur rest] eqn:Erev.
        { apply (f_equal (@rev _)) in Erev. rewrite rev_involutive in Erev. subst gs. simpl in G4. apply Permutation_nil_l in G4.
          unfold all_types in G4. by destruct (map _ _). }
        assert (cur :: rest ≡ₚ gs) as Hperm. { rewrite <- Erev. symmetry. apply Permutation_rev. }
        assert (group_ok w1 (main n) cur ∧ ∀ g, g ∈ rest -> group_ok w1 (main n) g) as [Hcur Hrest].
        { split; [apply G5; rewrite <- Hperm; constructor|]. intros g Hg. apply G5. rewrite <- Hperm. by constructor. }
        assert (NoDup (cur.2 ++ concat (map snd rest))) as Hnd.
        { change (NoDup (concat (map snd (cur :: rest)))). rewrite (concat_perm _ (map snd gs)) by (by apply Permutation_map). rewrite G4. apply all_types_NoDup. }
        assert (level w1 -> rest = [] ∧ ∃ i, cur = (i, all_types w1)) as Hlevel.
        { intros Hlev. destruct G6 as [j ->].
          - exists (best (unused w1)). apply grouped_level; [|by destruct Hw]. intros b Hb. apply Hlev; [done|]. unfold best_blocks. apply elem_of_app. right. constructor.
          - simpl in Erev. simplify_eq. eauto. }
        assert (rest = [] ∨ ∀ t3 n3, (t2 <= t3)%nat -> seen W t3 = Some n3 -> main n `prefix_of` main n3) as Hgr.
        { destruct Hcond as [Hlev|Hgrow]; [left; by apply Hlevel|]. right. intros t3 n3 Ht3 Hn3. apply (Hgrow t t3 n n3); [lia|done|done]. }
        apply sbind_inv in Hk as [([w3 t3] & [] & Hsg & Hk)|Hstop].
        * pose proof Hsg as Hsg'. apply (sync_groups_sound (main n)) in Hsg' as (S1 & S2 & S3); [|done..].
          assert (level w1 -> level w3) as Hlev3.
          { intros Hlev. destruct (Hlevel Hlev) as [-> [j ->]]. cbn [sync_groups] in Hsg. destruct Hcur as (p & Hj & Hp & HpM & Hthr). simpl in Hj, Hthr. subst j.
            apply fetch_and_sync_spec in Hsg as (_ & _ & _ & _ & Hd); [|done..]. destruct (Hd eq_refl) as (n4 & bs & _ & _ & _ & _ & [F1 F2 F3 F4 F5 F6 F7]).
            assert (∀ b, b ∈ best_blocks w3 -> b = (tip (p ++ bs), length (p ++ bs))) as Hall.
            { assert (∀ x a, get w3 x = Some a -> best a = (tip (p ++ bs), length (p ++ bs))) as Hget.
              { intros x a Ha. destruct (decide (x ∈ all_types w1)) as [Hx|Hx].
                - destruct (F6 eq_refl x Hx) as (a' & Ha' & (_ & Hb & _)). rewrite Ha in Ha'. by simplify_eq.
                - destruct x as [i'|]; [|destruct Hx; apply all_types_get; by eexists].
                  destruct (F7 eq_refl i' a) as (_ & Hb & _); [|done|done].
                  destruct (decide (length (accounts w1) <= i')%nat); [done|]. destruct Hx. apply all_types_get. simpl. apply lookup_lt_is_Some. lia. }
              intros b Hb. unfold best_blocks in Hb. apply elem_of_app in Hb as [Hb|Hb].
              - apply elem_of_list_fmap in Hb as (a & -> & Ha). apply elem_of_list_lookup in Ha as [i' Hi']. by apply (Hget (UsedAccount i')).
              - apply elem_of_list_singleton in Hb as ->. by apply (Hget UnusedAccount). }
            intros a b Ha Hb. rewrite (Hall a Ha), (Hall b Hb). done. }
          apply IH in Hk as (R1 & R2 & R3 & R4 & R5); [|done|].
          -- split; [done|]. split; [lia|]. split; [auto|]. split; [auto|]. intros Hr. destruct (R5 Hr) as (t4 & n4 & Ht4 & Hn4 & Hb4). exists t4, n4. split; [lia|]. done.
          -- destruct Hcond as [Hlev|Hgrow]; [left; auto|]. right. intros ? ? ? ? ?. apply Hgrow. lia.
        * assert (∃ r1, sync_groups bid prev concerns max_index W cur rest (w1, t2) = ((w', t'), r1) ∧ r ≠ Ok Synced ∧ (r1 = Err (WalletError OfUnusedAccount) -> r = Err (WalletError OfUnusedAccount)) ∧
            (r = Panic -> r1 = Panic)) as (r1 & Hsg & Hr0 & Hr1 & Hr2).
          { destruct Hstop as [(e & Hsg & ->)|[Hsg ->]]; eexists; (split; [exact Hsg|]); repeat split; by intros; simplify_eq. }
          pose proof Hsg as Hsg'. apply (sync_groups_sound (main n)) in Hsg' as (S1 & S2 & S3); [|done..].
          split; [done|]. split; [lia|]. split; [|split; [auto|done]].
          intros Hlev Hp. destruct (Hlevel Hlev) as [-> [j ->]]. cbn [sync_groups] in Hsg. destruct Hcur as (p & Hj & Hp' & HpM & Hthr). simpl in Hj, Hthr. subst j.
          apply fetch_and_sync_spec in Hsg as (Hd & _); [|done..]. auto.
      + apply grouping_spec in Hgs as (G1 & G2 & _ & _); [|done..]. simpl in G1, G2. subst w'. split; [done|]. split; [lia|]. done.
      + apply grouping_spec in Hgs as (G1 & G2 & G3 & _); [|done..]. simpl in G1, G2. subst w'. split; [done|]. split; [lia|]. split; [|done].
        intros Hlev. by destruct (G3 (Hapart Hlev)).
    - split; [done|]. split; [lia|]. done.
    - by destruct (seen W t).
  Qed.
End Run.
