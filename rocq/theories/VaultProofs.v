(** Proofs about the secrets of a wallet: what is stored is what was put there, under the key of the passphrase. *)
From Verif Require Import Base TxOrphanProofs VaultModel VaultSpec.
Local Open Scope N_scope.

Lemma overwrite {B V} `{Countable B} (Q : B * V -> B * V -> Prop) (l l' : list (B * V)) (m : gmap B V) : (∀ x y, Q x y -> y.1 = x.1) -> NoDup l.*1 -> Forall2 Q l l' ->
  (∀ a, a ∉ l.*1 -> foldl (fun m x => <[x.1 := x.2]> m) m l' !! a = m !! a) ∧
  (∀ x, x ∈ l -> ∃ y, Q x y ∧ foldl (fun m x => <[x.1 := x.2]> m) m l' !! x.1 = Some y.2).
Proof.
  intros Qk. intros Nd F. revert m. induction F as [|x y l l' Q1 F IH]; intros m; [split; [done|]; intros x I; by apply elem_of_nil in I|].
  cbn in Nd. apply NoDup_cons in Nd as [Nx Nd]. specialize (IH Nd (<[y.1 := y.2]> m)) as [I1 I2]. pose proof (Qk _ _ Q1) as Ey. cbn. split.
  - intros a Na. apply not_elem_of_cons in Na as [N1 N2]. rewrite I1 by done. rewrite lookup_insert_ne by congruence. done.
  - intros x' I. apply elem_of_cons in I as [->|I]; [|by apply I2]. exists y. split; [done|]. rewrite I1 by done. rewrite Ey. apply lookup_insert.
Qed.

Section Proofs.
  Context {Key Salt A R Ph K : Type} `{Countable A}.
  Context (derive : Salt -> list N -> option Key) (seal : Key -> list N -> list N -> list N) (open : Key -> list N -> list N -> option (list N)).
  Context (root_coding : coding R) (phrase_coding : coding Ph) (key_coding : coding K) (zero_phrase : Ph).
  Notation event := (@event Salt A R Ph K).
  Notation value := (@value R Ph K).
  Notation store := (@store Key Salt A _ _).
  Notation chance := (@chance Salt A).
  Notation contents := (@contents A R Ph K _ _).
  Notation tables := (@tables Salt A _ _).
  Notation step := (step derive seal open root_coding phrase_coding key_coding zero_phrase).
  Notation history := (history derive seal open root_coding phrase_coding key_coding zero_phrase).
  Notation stored := (stored seal).
  Context (Op : opens_sealed seal open) (Dr : decodes root_coding) (Dp : decodes phrase_coding) (Dk : decodes key_coding).

  Lemma decrypt_encrypt k n m : length n = 24%nat -> decrypt open k (n ++ seal k n m) = Some m.
  Proof.
    intros L. unfold decrypt, NONCE_LEN. rewrite app_length, L. rewrite (proj2 (Nat.ltb_ge _ _)) by lia. rewrite take_app_alt, drop_app_alt by done. apply Op.
  Qed.
  Lemma stored_take {T} (cd : coding T) k v c : decodes cd -> stored cd k v c -> take_checked open cd c k = Ok v.
  Proof.
    intros D. destruct k as [k|]; cbn.
    - intros (n & L & ->). unfold take_checked, try_take, try_decrypt_then_take. rewrite decrypt_encrypt by done. cbn. by rewrite D.
    - intros ->. unfold take_checked, try_take. by rewrite D.
  Qed.
  Lemma maybe_encrypt_stored {T} (cd : coding T) v k n : length n = 24%nat -> stored cd k v (maybe_encrypt seal cd v k n).
  Proof. intros L. destruct k as [k|]; cbn; [|done]. by exists n. Qed.

  Definition one_stored {T} (cd : coding T) (k : option Key) (v : option T) (c : option (list N)) : Prop :=
    match v, c with None, None => True | Some v, Some c => stored cd k v c | _, _ => False end.
  Definition key_stored (k : option Key) (v : option (option (list N) * K)) (c : option (option (list N) * list N)) : Prop :=
    match v, c with None, None => True | Some v, Some c => c.1 = v.1 ∧ stored key_coding k v.2 c.2 | _, _ => False end.
  Record all_stored (k : option Key) (c : contents) (d : tables) : Prop := {
    st_root : one_stored root_coding k (the_root c) (root d);
    st_phrase : one_stored phrase_coding k (the_phrase c) (phrase d);
    st_keys : ∀ a, key_stored k (the_keys c !! a) (keys d !! a) }.
  Definition pass_ok (k : option Key) (p : option (list N)) (ch : option Salt) : Prop :=
    match k, p, ch with None, None, None => True | Some k, Some p, Some salt => p ≠ [] ∧ derive salt p = Some k | _, _, _ => False end.
  Definition inv (c : contents) (s : store) : Prop :=
    ∃ k, pass_ok k (the_passphrase c) (challenge (saved s)) ∧ all_stored k c (saved s) ∧ (state s = Unlocked k ∨ (state s = Locked ∧ k ≠ None)).

  Lemma get_stored {T} (cd : coding T) k v c : decodes cd -> one_stored cd k v c -> get_secret open cd c k = Ok v.
  Proof. intros D. destruct v as [v|], c as [c|]; cbn; try done. intros S1. by rewrite (stored_take cd k v c D S1). Qed.
  Lemma get_key k (c : contents) (d : tables) a : all_stored k c d -> get_private_key open key_coding a d k = Ok (snd <$> the_keys c !! a) ∧ get_label a d = fst <$> the_keys c !! a.
  Proof.
    intros S1. pose proof (st_keys _ _ _ S1 a) as Q. unfold key_stored in Q. unfold get_private_key, get_label.
    destruct (the_keys c !! a) as [[l v]|], (keys d !! a) as [[l' x]|]; cbn in *; try done. destruct Q as [-> Q]. by rewrite (stored_take _ _ _ _ Dk Q).
  Qed.

  Lemma reencrypt_stored {T} (cd : coding T) k k' n v c : decodes cd -> length n = 24%nat -> one_stored cd k v c ->
    ∃ c', reencrypt seal open cd k k' n c = Ok c' ∧ one_stored cd k' v c'.
  Proof.
    intros D L. destruct v as [v|], c as [c|]; cbn; try done.
    - intros S1. rewrite (stored_take _ _ _ _ D S1). cbn. exists (Some (maybe_encrypt seal cd v k' n)). split; [done|]. by apply maybe_encrypt_stored.
    - intros _. by exists None.
  Qed.
  Lemma reencrypt_keys_stored k k' (n : A -> list N) (vs : gmap A (option (list N) * K)) (m : gmap A (option (list N) * list N)) : (∀ a, length (n a) = 24%nat) ->
    (∀ a, key_stored k (vs !! a) (m !! a)) -> ∃ m', reencrypt_keys seal open key_coding k k' n m = Ok m' ∧ ∀ a, key_stored k' (vs !! a) (m' !! a).
  Proof.
    intros L S1. unfold reencrypt_keys.
    destruct (rmapM_all (fun x : A * (option (list N) * list N) => let? v := take_checked open key_coding x.2.2 k in Ok (x.1, (x.2.1, maybe_encrypt seal key_coding v k' (n x.1))))
      (fun x y => y.1 = x.1 ∧ key_stored k' (vs !! x.1) (Some y.2)) (map_to_list m)) as (l' & -> & F).
    { intros [a [l c]] I. apply elem_of_map_to_list in I. specialize (S1 a). rewrite I in S1. destruct (vs !! a) as [[l1 v]|] eqn:E; [|done]. destruct S1 as [E1 S1]. cbn in E1, S1. subst l1.
      cbn [fst snd]. rewrite (stored_take _ _ _ _ Dk S1). cbn. eexists. split; [done|]. cbn. split; [done|]. rewrite E. cbn. split; [done|]. by apply maybe_encrypt_stored. }
    eexists. split; [done|]. intros a.
    destruct (overwrite (fun x y => y.1 = x.1 ∧ key_stored k' (vs !! x.1) (Some y.2)) (map_to_list m) l' m) as [O1 O2]; [by intros x y [? _]|apply NoDup_fst_map_to_list|done|].
    destruct (m !! a) as [x|] eqn:E.
    - destruct (O2 (a, x)) as (y & [_ Q] & Ey); [by apply elem_of_map_to_list|]. cbn [fst] in *. by rewrite Ey.
    - rewrite O1; [|intros I; apply elem_of_list_fmap in I as ([a' x] & -> & I); apply elem_of_map_to_list in I; cbn in E; by rewrite E in I].
      rewrite E. specialize (S1 a). rewrite E in S1. by destruct (vs !! a).
  Qed.

  Lemma access_cases (r : chance) i : access r i = Ok tt ∨ access r i = Err StorageFailed.
  Proof. unfold access. destruct (decide _); [by right|by left]. Qed.

  (** Setting, changing or removing the passphrase *)
  Lemma encrypt_inv (r : chance) (p : option (list N)) (c : contents) (s : store) : good_nonces r -> inv c s -> let x := encrypt_private_keys derive seal open root_coding phrase_coding key_coding r p s in
    (x.2 = Ok tt ∧ is_locked s = false ∧ (∀ i, fault r = Some i -> (5 < i)%nat) ∧ inv (Contents (the_root c) (the_phrase c) (the_keys c) p) x.1 ∧ is_locked x.1 = false ∧ challenge (saved x.1) = (fun _ => new_salt r) <$> p) ∨
    (∃ e, x.2 = Err e ∧ x.1 = s ∧ (is_locked s = true -> e = WalletLocked) ∧ (is_locked s = false -> fault r = None -> p = Some [] ∨ ∃ p', p = Some p' ∧ derive (new_salt r) p' = None)).
  Proof.
    intros (Nr & Np & Nk) (k & Pk & S1 & St). cbn zeta. unfold encrypt_private_keys, key_of, is_locked. destruct St as [St|[St _]]; rewrite St; [|right; exists WalletLocked; cbn; by repeat split].
    cbn [rbind].
    assert (∀ i, (access r i = Ok tt ∧ fault r ≠ Some i) ∨ (access r i = Err StorageFailed ∧ fault r ≠ None)) as Ac.
    { intros i. unfold access. destruct (decide (fault r = Some i)) as [E|N1]; [right; split; [done|by rewrite E]|by left]. }
    destruct (Ac 0%nat) as [[-> F0]|[-> F0]]; cbn [rbind]; [|right; exists StorageFailed; by repeat split].
    assert ((∃ k' ch, (match p with None => access r 1 ;? Ok (None, None) | Some p => let? (k, salt) := password_to_sym_key derive p (new_salt r) in access r 1 ;? Ok (Some k, Some salt) end) = Ok (k', ch)
      ∧ pass_ok k' p ch ∧ ch = (fun _ => new_salt r) <$> p ∧ fault r ≠ Some 1%nat)
      ∨ ∃ e, (match p with None => access r 1 ;? Ok (None, None) | Some p => let? (k, salt) := password_to_sym_key derive p (new_salt r) in access r 1 ;? Ok (Some k, Some salt) end) = Err e
        ∧ (fault r = None -> p = Some [] ∨ ∃ p', p = Some p' ∧ derive (new_salt r) p' = None)) as [(k' & ch & -> & Pk' & Ech & F1)|(e & -> & Fe)].
    { destruct p as [p|].
      - unfold password_to_sym_key. destruct p as [|b p]; [right; exists WalletEmptyPassword; split; [done|]; by left|]. destruct (derive (new_salt r) (b :: p)) as [k'|] eqn:Ed; cbn [ok_or rbind].
        + destruct (Ac 1%nat) as [[-> F1]|[-> F1]]; cbn [rbind]; [left; by exists (Some k'), (Some (new_salt r))|right; by exists StorageFailed].
        + right. exists WalletInvalidPassword. split; [done|]. right. by exists (b :: p).
      - destruct (Ac 1%nat) as [[-> F1]|[-> F1]]; cbn [rbind]; [left; by exists None, None|right; by exists StorageFailed]. }
    2:{ cbn [rbind]. right. exists e. cbn. split; [done|]. split; [done|]. split; [done|]. intros _. exact Fe. }
    cbn [rbind]. destruct (Ac 2%nat) as [[-> F2]|[-> F2]]; cbn [rbind]; [|right; exists StorageFailed; by repeat split].
    destruct (reencrypt_stored root_coding k k' (root_nonce r) _ _ Dr Nr (st_root _ _ _ S1)) as (rt & -> & Srt). cbn [rbind].
    destruct (Ac 3%nat) as [[-> F3]|[-> F3]]; cbn [rbind]; [|right; exists StorageFailed; by repeat split].
    destruct (reencrypt_stored phrase_coding k k' (phrase_nonce r) _ _ Dp Np (st_phrase _ _ _ S1)) as (ph & -> & Sph). cbn [rbind].
    destruct (Ac 4%nat) as [[-> F4]|[-> F4]]; cbn [rbind]; [|right; exists StorageFailed; by repeat split].
    destruct (reencrypt_keys_stored k k' (key_nonce r) _ _ Nk (st_keys _ _ _ S1)) as (ks & -> & Sks). cbn [rbind].
    destruct (Ac 5%nat) as [[-> F5]|[-> F5]]; cbn [rbind]; [|right; exists StorageFailed; by repeat split].
    left. cbn. split; [done|]. split; [done|]. split.
    { intros i Ei. destruct (decide (5 < i)%nat) as [|Ni]; [done|]. exfalso.
      do 6 (destruct i as [|i]; [by apply F0 || by apply F1 || by apply F2 || by apply F3 || by apply F4 || by apply F5|]). lia. }
    split; [|split; done]. exists k'. cbn. split; [done|]. split; [by constructor|by left].
  Qed.

  Lemma check_root k' (d : tables) k v : root d = Some v -> (∃ x, stored root_coding (Some k) x v) ->
    (∀ n m, v = n ++ seal k n m -> length n = 24%nat -> open k' n (seal k n m) ≠ None -> k' = k) ->
    check_can_decrypt_all_root_keys open root_coding d k' = Ok tt ∧ k' = k ∨ check_can_decrypt_all_root_keys open root_coding d k' = Err WalletInvalidPassword ∧ k' ≠ k.
  Proof.
    intros E (x & n & L & ->) F. unfold check_can_decrypt_all_root_keys. rewrite E. unfold try_decrypt_then_take, decrypt, NONCE_LEN. rewrite app_length, L, (proj2 (Nat.ltb_ge _ _)) by lia.
    rewrite take_app_alt, drop_app_alt by done. destruct (open k' n (seal k n (enc root_coding x))) as [m|] eqn:Eo.
    - assert (k' = k) as -> by (apply (F n (enc root_coding x)); [done|done|by rewrite Eo]). rewrite Op in Eo. injection Eo as <-. cbn. rewrite Dr. by left.
    - cbn. right. split; [done|]. intros ->. by rewrite Op in Eo.
  Qed.

  (** Trying a passphrase *)
  Lemma unlock_inv (p : list N) (c : contents) (s : store) : fair_try derive seal open s p -> inv c s -> let x := unlock_private_keys derive open root_coding p s in
    inv c x.1 ∧ saved x.1 = saved s ∧
    ((is_locked s = false ∧ x.1 = s ∧ x.2 = Err WalletAlreadyUnlocked) ∨
     (is_locked s = true ∧ ∃ p0 k, the_passphrase c = Some p0 ∧ key_for derive s p0 = Some k ∧
       ((x.2 = Ok tt ∧ key_for derive s p = Some k ∧ is_locked x.1 = false) ∨ (x.2 = Err WalletInvalidPassword ∧ key_for derive s p ≠ Some k ∧ x.1 = s)))).
  Proof.
    intros [Fr Ff] (k & Pk & S1 & St). cbn zeta. unfold unlock_private_keys, is_locked. destruct St as [St|[St Nk]]; rewrite St.
    { cbn. split; [|split; [done|by left]]. exists k. split; [done|]. split; [done|by left]. }
    destruct k as [k|]; [|done]. unfold pass_ok in Pk. destruct (the_passphrase c) as [p0|] eqn:Ep; [|done]. destruct (challenge (saved s)) as [salt|] eqn:Ec; [|done]. destruct Pk as [Np Ed].
    assert (∀ st, (st = Unlocked (Some k) ∨ st = Locked) -> inv c (Store (saved s) st)) as Inv.
    { intros st [ -> | -> ]; exists (Some k); cbn; rewrite Ep, Ec; (split; [done|split; [done|]]); [by left|by right]. }
    assert (s = Store (saved s) Locked) as Es by (destruct s; cbn in St; by subst).
    assert (key_for derive s p0 = Some k) as K0 by (unfold key_for; rewrite Ec; done). assert (key_for derive s p = derive salt p) as K1 by (unfold key_for; by rewrite Ec).
    unfold challenge_to_sym_key. destruct (derive salt p) as [k'|] eqn:Ed'; cbn [ok_or rbind].
    2:{ cbn. split; [rewrite Es; by apply Inv; right|]. split; [done|]. right. split; [done|]. exists p0, k. split; [done|]. split; [done|]. right. split; [done|]. by rewrite K1. }
    pose proof (st_root _ _ _ S1) as Sr. destruct (root (saved s)) as [v|] eqn:Er; [|done]. destruct (the_root c) as [x|]; [|done].
    destruct (check_root k' (saved s) k v Er) as [[-> ->]|[-> Nk']].
    { by exists x. }
    { intros n m -> L Ho. by apply (Ff salt k k' n m). }
    - cbn. split; [by apply Inv; left|]. split; [done|]. right. split; [done|]. exists p0, k. split; [done|]. split; [done|]. left. split; [done|]. by rewrite K1.
    - cbn. split; [rewrite Es; by apply Inv; right|]. split; [done|]. right. split; [done|]. exists p0, k. split; [done|]. split; [done|]. right. split; [done|]. split; [|done]. rewrite K1. congruence.
  Qed.

  Lemma write_one_stored (r : chance) k (c : contents) (d : tables) w : good_nonces r -> all_stored k c d ->
    ∃ d', write_one seal open root_coding phrase_coding key_coding zero_phrase r k d w = Ok d' ∧ all_stored k (put c w) d' ∧ challenge d' = challenge d ∧ the_passphrase (put c w) = the_passphrase c.
  Proof.
    intros (Nr & Np & Nk) [S1 S2 S3]. destruct w as [v|v| |a l v]; cbn.
    - eexists. split; [done|]. split; [|done]. constructor; cbn; try done. by apply maybe_encrypt_stored.
    - eexists. split; [done|]. split; [|done]. constructor; cbn; try done. by apply maybe_encrypt_stored.
    - unfold get_seed_phrase. rewrite (get_stored _ _ _ _ Dp S2). cbn. eexists. split; [done|]. split; [|done]. by constructor.
    - eexists. split; [done|]. split; [|done]. constructor; cbn; try done. intros a'. destruct (decide (a' = a)) as [->|Na].
      + rewrite !lookup_insert. cbn. split; [done|]. by apply maybe_encrypt_stored.
      + by rewrite !lookup_insert_ne by done.
  Qed.
  Lemma write_all_stored (r : chance) k ws (c : contents) (d : tables) i : good_nonces r -> all_stored k c d ->
    (∃ d', write_all seal open root_coding phrase_coding key_coding zero_phrase r k i ws d = Ok d' ∧ all_stored k (foldl put c ws) d' ∧ challenge d' = challenge d ∧ the_passphrase (foldl put c ws) = the_passphrase c) ∨
    (write_all seal open root_coding phrase_coding key_coding zero_phrase r k i ws d = Err StorageFailed ∧ fault r ≠ None).
  Proof.
    intros Nn. revert c d i. induction ws as [|w ws IH]; intros c d i S1; cbn.
    - unfold access. destruct (decide _) as [E|_]; cbn; [right; split; [done|by rewrite E]|left; by exists d].
    - unfold access. destruct (decide _) as [E|_]; cbn; [right; split; [done|by rewrite E]|].
      destruct (write_one_stored r k c d w Nn S1) as (d' & -> & S2 & Ec & Ep). cbn. destruct (IH _ _ (S i) S2) as [(d2 & E & S3 & Ec2 & Ep2)|X]; [|by right].
      left. exists d2. split; [done|]. split; [done|]. by rewrite Ec2, Ep2.
  Qed.
  Lemma write_inv (r : chance) ws (c : contents) (s : store) : good_nonces r -> inv c s -> let x := write_private seal open root_coding phrase_coding key_coding zero_phrase r ws s in
    (x.2 = Ok tt ∧ is_locked s = false ∧ inv (foldl put c ws) x.1 ∧ state x.1 = state s ∧ challenge (saved x.1) = challenge (saved s) ∧ the_passphrase (foldl put c ws) = the_passphrase c) ∨
    (∃ e, x.2 = Err e ∧ x.1 = s ∧ (is_locked s = true -> e = WalletLocked) ∧ (is_locked s = false -> fault r ≠ None)).
  Proof.
    intros Nn (k & Pk & S1 & St). cbn zeta. unfold write_private, key_of, is_locked. destruct St as [St|[St _]]; rewrite St; [|right; exists WalletLocked; cbn; by repeat split].
    assert ((access r 0 = Ok tt) ∨ (access r 0 = Err StorageFailed ∧ fault r ≠ None)) as [ -> |[-> F0]]
      by (unfold access; destruct (decide (fault r = Some 0%nat)) as [E|_]; [right; split; [done|by rewrite E]|by left]); cbn [rbind]; [|right; exists StorageFailed; by repeat split].
    destruct (write_all_stored r k ws c (saved s) 1 Nn S1) as [(d & -> & S2 & Ec & Ep)|[-> Fr]]; [|right; exists StorageFailed; cbn; by repeat split].
    left. cbn. split; [done|]. split; [done|]. split; [|by rewrite Ec, Ep]. exists k. cbn. rewrite Ec, Ep. split; [done|]. split; [done|by left].
  Qed.

  Lemma lock_inv (c : contents) (s : store) : inv c s -> let x := lock_private_keys s in
    inv c x.1 ∧ saved x.1 = saved s ∧ ((x.2 = Ok tt ∧ is_locked x.1 = true ∧ the_passphrase c ≠ None) ∨ (x.2 = Err WalletLockedWithoutAPassword ∧ x.1 = s ∧ the_passphrase c = None)).
  Proof.
    intros (k & Pk & S1 & St). cbn zeta. unfold lock_private_keys, is_locked.
    assert (k ≠ None <-> the_passphrase c ≠ None) as Eq by (unfold pass_ok in Pk; destruct k, (the_passphrase c), (challenge (saved s)); naive_solver).
    destruct St as [St|[St Nk]]; rewrite St.
    - destruct k as [k|]; cbn.
      + split; [exists (Some k); cbn; split; [done|split; [done|by right]]|]. split; [done|]. left. split; [done|]. split; [done|]. by apply Eq.
      + split; [exists None; split; [done|split; [done|by left]]|]. split; [done|]. right. split; [done|]. split; [done|]. destruct (the_passphrase c) eqn:E; [|done]. exfalso. apply (proj2 Eq); [|done]. done.
    - cbn. split; [exists k; split; [done|split; [done|by right]]|]. split; [done|]. left. rewrite St. split; [done|]. split; [done|]. by apply Eq.
  Qed.

  Lemma inv_read (c : contents) (s : store) : inv c s ->
    (∀ a, get_label a (saved s) = fst <$> the_keys c !! a) ∧
    ((is_locked s = true ∧ key_of s = Err WalletLocked) ∨
     (∃ k, is_locked s = false ∧ key_of s = Ok k ∧ get_root_key open root_coding (saved s) k = Ok (the_root c) ∧ get_seed_phrase open phrase_coding (saved s) k = Ok (the_phrase c) ∧
       ∀ a, get_private_key open key_coding a (saved s) k = Ok (snd <$> the_keys c !! a))).
  Proof.
    intros (k & Pk & S1 & St). split; [intros a; by apply (get_key k c (saved s) a)|]. unfold is_locked, key_of. destruct St as [St|[St _]]; rewrite St; [right|by left].
    exists k. split; [done|]. split; [done|]. split; [apply get_stored; [done|apply S1]|]. split; [apply get_stored; [done|apply S1]|]. intros a. by apply get_key.
  Qed.

  Lemma reopen_inv (c : contents) (s : store) : inv c s -> inv c (open_file (saved s)) ∧ (is_locked (open_file (saved s) : store) = true <-> the_passphrase c ≠ None).
  Proof.
    intros (k & Pk & S1 & St). unfold open_file, is_locked. unfold pass_ok in Pk. destruct (challenge (saved s)) as [salt|] eqn:Ec, k as [k|], (the_passphrase c) as [p|] eqn:Ep; try done; cbn.
    - split; [|by split]. exists (Some k). cbn. rewrite Ec, Ep. split; [done|]. split; [done|by right].
    - split; [|by split]. exists None. cbn. rewrite Ec, Ep. split; [done|]. split; [done|by left].
  Qed.

  Lemma history_inv tr (s : store) : history tr s -> inv (meant tr) s.
  Proof.
    induction 1 as [|tr s ev Hs IH Pr].
    - exists None. split; [done|]. split; [|by left]. by constructor.
    - unfold meant. rewrite foldl_app. change (foldl told _ tr) with (meant tr). cbn [foldl]. destruct ev as [r p|p| | |r ws| | |a|a]; cbn [told]; cbn in Pr.
      + destruct (encrypt_inv r p _ s Pr IH) as [(E & _ & _ & I & _)|(e & E & Es & _)]; cbn; rewrite E; cbn; [done|by rewrite Es].
      + cbn. by apply (unlock_inv p _ s).
      + cbn. by apply lock_inv.
      + cbn. by apply reopen_inv.
      + destruct (write_inv r ws _ s Pr IH) as [(E & _ & I & _)|(e & E & Es & _)]; cbn; rewrite E; cbn; [done|by rewrite Es].
      + done.
      + done.
      + done.
      + done.
  Qed.
End Proofs.
