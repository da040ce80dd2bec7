(** C86: the secrets of a wallet and its passphrase. *)
From Verif Require Import Base VaultModel VaultSpec VaultProofs.
Local Open Scope N_scope.

Section Properties.
  Context {Key Salt A R Ph K : Type} `{Countable A}.
  Context (derive : Salt -> list N -> option Key) (seal : Key -> list N -> list N -> list N) (open : Key -> list N -> list N -> option (list N)).
  Context (root_coding : coding R) (phrase_coding : coding Ph) (key_coding : coding K) (zero_phrase : Ph).
  Notation event := (@event Salt A R Ph K).
  Notation store := (@store Key Salt A _ _).
  Notation chance := (@chance Salt A).
  Notation step := (step derive seal open root_coding phrase_coding key_coding zero_phrase).
  Notation history := (history derive seal open root_coding phrase_coding key_coding zero_phrase).
  Notation proper := (@proper Key Salt A R Ph K _ _ derive seal open).
  Notation key_for := (key_for derive).
  Notation stored := (stored seal).
  Context (Op : opens_sealed seal open) (Dr : decodes root_coding) (Dp : decodes phrase_coding) (Dk : decodes key_coding).

  Local Lemma inv_of tr (s : store) : history tr s -> inv derive seal root_coding phrase_coding key_coding (meant tr) s.
  Proof. apply history_inv; done. Qed.

  (** Whatever was done before, nothing panics. *)
  Theorem C86_never_panics tr (s : store) ev : history tr s -> proper s ev -> (step ev s).2 ≠ Panic.
  Proof.
    intros Hs Pr. apply inv_of in Hs. destruct (inv_read derive seal open root_coding phrase_coding key_coding Op Dr Dp Dk (meant tr) s Hs) as [_ Rd].
    destruct ev as [r p|p| | |r ws| | |a|a]; cbn in Pr |- *.
    - destruct (encrypt_inv derive seal open root_coding phrase_coding key_coding Op Dr Dp Dk r p _ s Pr Hs) as [(E & _)|(e & E & _)]; by rewrite E.
    - destruct (unlock_inv derive seal open root_coding phrase_coding key_coding Op Dr p _ s Pr Hs) as (_ & _ & [(_ & _ & E)|(_ & p0 & k & _ & _ & [(E & _)|(E & _)])]); by rewrite E.
    - destruct (lock_inv derive seal root_coding phrase_coding key_coding _ s Hs) as (_ & _ & [(E & _)|(E & _)]); by rewrite E.
    - done.
    - destruct (write_inv derive seal open root_coding phrase_coding key_coding zero_phrase Op Dp r ws _ s Pr Hs) as [(E & _)|(e & E & _)]; by rewrite E.
    - destruct Rd as [[_ ->]|(k & _ & -> & E1 & E2 & E3)]; cbn; [done|by rewrite E1].
    - destruct Rd as [[_ ->]|(k & _ & -> & E1 & E2 & E3)]; cbn; [done|by rewrite E2].
    - destruct Rd as [[_ ->]|(k & _ & -> & E1 & E2 & E3)]; cbn; [done|by rewrite E3].
    - done.
  Qed.

  (** An unlocked wallet gives every secret back as it was put, whatever was done in between: passphrases set, changed and removed, attempts that
      failed, errors of the database, restarts. The labels of the keys can be read always. *)
  Theorem C86_reads tr (s : store) : history tr s ->
    (is_locked s = false ->
      step ReadRoot s = (s, Ok (IsRoot (the_root (meant tr)))) ∧ step ReadPhrase s = (s, Ok (IsPhrase (the_phrase (meant tr)))) ∧
      ∀ a, step (ReadKey a) s = (s, Ok (IsKey (snd <$> the_keys (meant tr) !! a)))) ∧
    ∀ a, step (ReadLabel a) s = (s, Ok (IsLabel (fst <$> the_keys (meant tr) !! a))).
  Proof.
    intros Hs. apply inv_of in Hs. destruct (inv_read derive seal open root_coding phrase_coding key_coding Op Dr Dp Dk (meant tr) s Hs) as [Lb Rd].
    split; [|intros a; cbn; by rewrite Lb]. intros Lk. destruct Rd as [[L2 _]|(k & _ & Ek & E1 & E2 & E3)]; [congruence|]. cbn. rewrite Ek. cbn. rewrite E1, E2.
    split; [done|]. split; [done|]. intros a. by rewrite E3.
  Qed.

  (** A locked wallet gives no secret, takes none and cannot be given another passphrase. *)
  Theorem C86_locked (s : store) ev : is_locked s = true ->
    match ev with ReadRoot | ReadPhrase | ReadKey _ | Write _ _ | Encrypt _ _ => True | _ => False end -> step ev s = (s, Err WalletLocked).
  Proof.
    intros Lk Ev. assert (state s = Locked) as St by (unfold is_locked in Lk; by destruct (state s)).
    destruct ev; try done; cbn; unfold encrypt_private_keys, write_private, key_of; rewrite St; done.
  Qed.

  (** The wallet is encrypted exactly if a passphrase is set; it is locked after a restart exactly if it is encrypted, and only then it can be locked. *)
  Theorem C86_encrypted tr (s : store) : history tr s ->
    (is_encrypted s = true <-> the_passphrase (meant tr) ≠ None) ∧
    (is_locked (step Reopen s).1 = true <-> the_passphrase (meant tr) ≠ None) ∧
    (is_locked s = true -> the_passphrase (meant tr) ≠ None) ∧
    (the_passphrase (meant tr) ≠ None -> (step Lock s).2 = Ok Done ∧ is_locked (step Lock s).1 = true) ∧
    (the_passphrase (meant tr) = None -> step Lock s = (s, Err WalletLockedWithoutAPassword)).
  Proof.
    intros Hs. apply inv_of in Hs. destruct (lock_inv derive seal root_coding phrase_coding key_coding _ s Hs) as (_ & _ & Lk).
    pose proof (reopen_inv derive seal root_coding phrase_coding key_coding _ s Hs) as [_ Ro]. destruct Hs as (k & Pk & S1 & St).
    assert (k ≠ None <-> the_passphrase (meant tr) ≠ None) as Eq by (unfold pass_ok in Pk; destruct k, (the_passphrase (meant tr)), (challenge (saved s)); naive_solver).
    split; [|split; [exact Ro|split; [|split]]].
    - rewrite <- Eq. unfold is_encrypted. destruct St as [ -> |[-> Nk]]; [by destruct k|done].
    - intros L. apply Eq. unfold is_locked in L. destruct St as [E|[E Nk]]; [by rewrite E in L|done].
    - intros Np. destruct Lk as [(E & L & _)|(_ & _ & E)]; [|congruence]. cbn. by rewrite E.
    - intros Np. destruct Lk as [(_ & _ & E)|(E & Es & _)]; [congruence|]. cbn. unfold done. by rewrite E, Es.
  Qed.

  (** A locked wallet is opened by the passphrase that was set, and by another one only if the same key is derived from it. A refused passphrase
      changes nothing; an opened wallet stores what it stored. *)
  Theorem C86_unlock tr (s : store) p : history tr s -> proper s (Unlock p) ->
    (is_locked s = false -> step (Unlock p) s = (s, Err WalletAlreadyUnlocked)) ∧
    (is_locked s = true -> ∃ p0 k, the_passphrase (meant tr) = Some p0 ∧ key_for s p0 = Some k ∧
       ((step (Unlock p) s).2 = Ok Done <-> key_for s p = Some k) ∧
       ((step (Unlock p) s).2 = Ok Done -> is_locked (step (Unlock p) s).1 = false ∧ saved (step (Unlock p) s).1 = saved s) ∧
       ((step (Unlock p) s).2 ≠ Ok Done -> step (Unlock p) s = (s, Err WalletInvalidPassword))).
  Proof.
    intros Hs Pr. apply inv_of in Hs. destruct (unlock_inv derive seal open root_coding phrase_coding key_coding Op Dr p _ s Pr Hs) as (_ & Sv & X).
    split; intros Lk.
    - destruct X as [(_ & Es & E)|(L2 & _)]; [|congruence]. cbn. unfold done. by rewrite Es, E.
    - destruct X as [(L2 & _)|(_ & p0 & k & E0 & Ek & X)]; [congruence|]. exists p0, k. split; [done|]. split; [done|].
      cbn. unfold done. destruct X as [(E & Q & L2)|(E & NE & Es)]; rewrite E; [by repeat split|]. rewrite Es. by repeat split.
  Qed.

  (** Setting, changing or removing the passphrase of an unlocked wallet: it is done, or nothing is changed. It is done unless the passphrase is
      empty, no key can be derived from it or the database fails. *)
  Theorem C86_set_passphrase tr (s : store) (r : chance) p : history tr s -> proper s (Encrypt r p) -> is_locked s = false ->
    (((step (Encrypt r p) s).2 = Ok Done ∧ is_locked (step (Encrypt r p) s).1 = false ∧ p ≠ Some []) ∨ (∃ e, step (Encrypt r p) s = (s, Err e))) ∧
    (fault r = None -> p ≠ Some [] -> (∀ p', p = Some p' -> derive (new_salt r) p' ≠ None) -> (step (Encrypt r p) s).2 = Ok Done).
  Proof.
    intros Hs Pr Lk. apply inv_of in Hs. destruct (encrypt_inv derive seal open root_coding phrase_coding key_coding Op Dr Dp Dk r p _ s Pr Hs) as [(E & _ & _ & (k & Pk & _) & L2 & Ec)|(e & E & Es & _ & Fe)].
    - split; [|intros _ _ _; cbn; by rewrite E]. left. cbn. rewrite E. split; [done|]. split; [done|]. intros ->. cbn in Pk. destruct k, (challenge _); naive_solver.
    - split; [right; exists e; cbn; unfold done; by rewrite E, Es|]. intros Fr Ne De. exfalso. destruct (Fe Lk Fr) as [?|(p' & E1 & E2)]; [done|]. by apply (De p').
  Qed.

  (** What is in the file: if a passphrase is set, nothing but encryptions of the secrets with the key of that passphrase. *)
  Theorem C86_at_rest tr (s : store) : history tr s -> ∃ k,
    match the_passphrase (meant tr) with Some p => k ≠ None ∧ key_for s p = k | None => k = None ∧ challenge (saved s) = None end ∧
    (∀ c, root (saved s) = Some c -> ∃ v, the_root (meant tr) = Some v ∧ stored root_coding k v c) ∧
    (∀ c, phrase (saved s) = Some c -> ∃ v, the_phrase (meant tr) = Some v ∧ stored phrase_coding k v c) ∧
    (∀ a l c, keys (saved s) !! a = Some (l, c) -> ∃ v, the_keys (meant tr) !! a = Some (l, v) ∧ stored key_coding k v c).
  Proof.
    intros Hs. apply inv_of in Hs as (k & Pk & [S1 S2 S3] & _). exists k. split; [|split; [|split]].
    - unfold pass_ok in Pk. unfold VaultSpec.key_for. destruct k as [k|], (the_passphrase (meant tr)) as [p|], (challenge (saved s)) as [salt|]; try done. split; [done|]. apply Pk.
    - intros c E. rewrite E in S1. destruct (the_root (meant tr)) as [v|]; [|done]. by exists v.
    - intros c E. rewrite E in S2. destruct (the_phrase (meant tr)) as [v|]; [|done]. by exists v.
    - intros a l c E. specialize (S3 a). rewrite E in S3. destruct (the_keys (meant tr) !! a) as [[l' v]|]; [|done]. destruct S3 as [E1 S3]. cbn in E1, S3. subst l'. by exists v.
  Qed.

  (** Writing secrets into an unlocked wallet: all of them or none. *)
  Theorem C86_write tr (s : store) (r : chance) ws : history tr s -> proper s (Write r ws) -> is_locked s = false ->
    ((step (Write r ws) s).2 = Ok Done ∧ state (step (Write r ws) s).1 = state s) ∨ (∃ e, step (Write r ws) s = (s, Err e) ∧ fault r ≠ None).
  Proof.
    intros Hs Pr Lk. apply inv_of in Hs. destruct (write_inv derive seal open root_coding phrase_coding key_coding zero_phrase Op Dp r ws _ s Pr Hs) as [(E & _ & _ & St & _)|(e & E & Es & _ & Fe)].
    - left. cbn. by rewrite E.
    - right. exists e. split; [cbn; unfold done; by rewrite E, Es|]. by apply Fe.
  Qed.

  (** The passphrase is changed and the wallet is opened again later: the new one opens it, any other one only if it gives the same key, and the
      secrets are the same as before. *)
  Theorem C86_change tr (s : store) (r : chance) p p' : history tr s -> proper s (Encrypt r (Some p)) -> (step (Encrypt r (Some p)) s).2 = Ok Done ->
    let s1 := (step Reopen (step (Encrypt r (Some p)) s).1).1 in proper s1 (Unlock p') ->
    is_locked s1 = true ∧ ((step (Unlock p') s1).2 = Ok Done <-> derive (new_salt r) p' = derive (new_salt r) p) ∧
    ((step (Unlock p') s1).2 = Ok Done -> let s2 := (step (Unlock p') s1).1 in
      step ReadRoot s2 = (s2, (step ReadRoot s).2) ∧ step ReadPhrase s2 = (s2, (step ReadPhrase s).2) ∧ ∀ a, step (ReadKey a) s2 = (s2, (step (ReadKey a) s).2)).
  Proof.
    intros Hs Pr E s1 Pu. assert (history (tr ++ [(Encrypt r (Some p), (step (Encrypt r (Some p)) s).2)] ++ [(Reopen, Ok Done)]) s1) as H1.
    { rewrite app_assoc. exact (history_step _ _ _ _ _ _ _ _ (step (Encrypt r (Some p)) s).1 Reopen (history_step _ _ _ _ _ _ _ _ _ _ Hs Pr) I). }
    set (tr1 := tr ++ _) in H1. assert (meant tr1 = Contents (the_root (meant tr)) (the_phrase (meant tr)) (the_keys (meant tr)) (Some p)) as Em.
    { unfold tr1, meant. rewrite !foldl_app, E. done. }
    assert (is_locked s = false) as L0.
    { destruct (is_locked s) eqn:L0; [|done]. rewrite (C86_locked s (Encrypt r (Some p)) L0 I) in E. done. }
    assert (is_locked s1 = true) as L1.
    { assert (history (tr ++ [(Encrypt r (Some p), (step (Encrypt r (Some p)) s).2)]) (step (Encrypt r (Some p)) s).1) as H0 by (by apply history_step).
      apply (C86_encrypted _ _ H0). unfold meant. rewrite foldl_app, E. done. }
    assert (challenge (saved s1) = Some (new_salt r)) as Ec.
    { destruct (encrypt_inv derive seal open root_coding phrase_coding key_coding Op Dr Dp Dk r (Some p) _ s Pr (inv_of _ _ Hs)) as [(_ & _ & _ & _ & _ & Ec)|(e & E2 & _)]; [done|].
      exfalso. cbn in E. rewrite E2 in E. done. }
    destruct (C86_unlock tr1 s1 p' H1 Pu) as [_ U]. destruct (U L1) as (p0 & k & E0 & Ek & Ui & U1 & U2). rewrite Em in E0. injection E0 as <-. unfold VaultSpec.key_for in Ek, Ui. rewrite Ec in Ek, Ui. change (derive (new_salt r) p = Some k) in Ek. change ((step (Unlock p') s1).2 = Ok Done <-> derive (new_salt r) p' = Some k) in Ui.
    split; [done|]. split; [by rewrite Ek|]. intros Q s2. destruct (U1 Q) as [L2 _].
    assert (history (tr1 ++ [(Unlock p', (step (Unlock p') s1).2)]) s2) as H2 by (by apply history_step).
    assert (meant (tr1 ++ [(Unlock p', (step (Unlock p') s1).2)]) = meant tr1) as Em2 by (unfold meant; by rewrite foldl_app).
    destruct (C86_reads _ _ H2) as [R2 _]. destruct (R2 L2) as (-> & -> & K2). destruct (C86_reads _ _ Hs) as [R0 _]. destruct (R0 L0) as (-> & -> & K0). rewrite Em2, Em. cbn [the_root the_phrase snd].
    split; [done|]. split; [done|]. intros a. rewrite K2, K0, Em2, Em. done.
  Qed.

  (** Refuted: only the passphrase opens the wallet. The wallet of a hardware device has no root key in its file, and then any passphrase opens it;
      reading a key the user has added panics unless the key derived from the wrong passphrase happens to open it, and a key added now is stored
      under the wrong passphrase: reading it panics after the wallet was opened with the right one. *)
  Theorem C86_any_passphrase_without_root_key_refuted (r : chance) p p' k k' a a' l v v' : good_nonces r -> fault r = None -> p ≠ [] -> a ≠ a' ->
    derive (new_salt r) p = Some k -> derive (new_salt r) p' = Some k' ->
    open k' (key_nonce r a) (seal k (key_nonce r a) (enc key_coding v)) = None -> open k (key_nonce r a') (seal k' (key_nonce r a') (enc key_coding v')) = None ->
    let after := foldl (fun s ev => (step ev s).1) in
    let s := after empty_store [Write r [SetKey a l v]; Encrypt r (Some p); Reopen] in
    is_locked s = true ∧ (step (Unlock p') s).2 = Ok Done ∧ (step (ReadKey a) (after s [Unlock p'])).2 = Panic ∧
    (step (Write r [SetKey a' l v']) (after s [Unlock p'])).2 = Ok Done ∧
    let s' := after s [Unlock p'; Write r [SetKey a' l v']; Lock] in (step (Unlock p) s').2 = Ok Done ∧ (step (ReadKey a') (after s' [Unlock p])).2 = Panic.
  Proof.
    intros (_ & _ & Nk) Fr Np Na Ed Ed' Ho Ho' after s. pose proof (Nk a) as Na1. pose proof (Nk a') as Na2.
    assert (∀ i, access r i = Ok tt) as Ac by (intros i; unfold access; by rewrite Fr).
    assert (∀ (cd : coding K) c k n m, length n = 24%nat -> c = n ++ m -> open k n m = None -> take_checked open cd c (Some k) = Panic) as Pn.
    { intros cd c k1 n m L -> E. unfold take_checked, try_take, try_decrypt_then_take, decrypt, NONCE_LEN. rewrite app_length, L, (proj2 (Nat.ltb_ge _ _)) by lia.
      by rewrite take_app_alt, drop_app_alt, E by done. }
    set (c := key_nonce r a ++ seal k (key_nonce r a) (enc key_coding v)). set (c' := key_nonce r a' ++ seal k' (key_nonce r a') (enc key_coding v')).
    assert (s = Store (Tables (Some (new_salt r)) None None {[a := (l, c)]}) Locked) as ->.
    { unfold s, after. cbn [foldl]. unfold VaultModel.step, write_private, done. cbn. rewrite !Ac. cbn. unfold encrypt_private_keys. cbn. rewrite !Ac. cbn.
      unfold password_to_sym_key. destruct p as [|b p1]; [done|]. cbn. rewrite Ed. cbn. rewrite ?Ac. cbn. unfold reencrypt_keys. rewrite insert_empty, map_to_list_singleton. cbn.
      unfold take_checked, try_take. rewrite Dk. cbn. rewrite ?Ac. cbn. by rewrite insert_singleton. }
    set (d := Tables (Some (new_salt r)) None None {[a := (l, c)]}). set (d' := Tables (Some (new_salt r)) None None (<[a' := (l, c')]> {[a := (l, c)]})).
    assert (step (Unlock p') (Store d Locked) = (Store d (Unlocked (Some k')), Ok Done)) as U1.
    { unfold VaultModel.step, unlock_private_keys. cbn. unfold challenge_to_sym_key. by rewrite Ed'. }
    assert (step (Write r [SetKey a' l v']) (Store d (Unlocked (Some k'))) = (Store d' (Unlocked (Some k')), Ok Done)) as W1.
    { unfold VaultModel.step, write_private. cbn. rewrite ?Ac. cbn. by rewrite ?Ac. }
    assert (step Lock (Store d' (Unlocked (Some k'))) = (Store d' Locked, Ok Done)) as L1 by done.
    assert (step (Unlock p) (Store d' Locked) = (Store d' (Unlocked (Some k)), Ok Done)) as U2.
    { unfold VaultModel.step, unlock_private_keys. cbn. unfold challenge_to_sym_key. by rewrite Ed. }
    unfold after. cbn [foldl]. rewrite U1. cbn [fst]. rewrite W1. cbn [fst]. rewrite L1. cbn [fst]. rewrite U2. cbn [fst snd].
    split; [done|]. split; [done|]. split; [|split; [done|split; [done|]]]; unfold VaultModel.step, get_private_key; cbn -[take_checked].
    - rewrite lookup_singleton. cbn -[take_checked]. by rewrite (Pn _ _ _ _ _ Na1 eq_refl Ho).
    - rewrite lookup_insert. cbn -[take_checked]. by rewrite (Pn _ _ _ _ _ Na2 eq_refl Ho').
  Qed.
End Properties.
Print Assumptions C86_never_panics.
Print Assumptions C86_reads.
Print Assumptions C86_locked.
Print Assumptions C86_encrypted.
Print Assumptions C86_unlock.
Print Assumptions C86_set_passphrase.
Print Assumptions C86_at_rest.
Print Assumptions C86_write.
Print Assumptions C86_change.
Print Assumptions C86_any_passphrase_without_root_key_refuted.

(** A small wallet: keys are numbers, a sealed message starts with the key *)
Module VaultExample.
  Definition derive (salt : N) (p : list N) : option N := match p with [] => None | b :: _ => Some (salt + b) end.
  Definition seal (k : N) (n m : list N) : list N := k :: m.
  Definition open (k : N) (n c : list N) : option (list N) := match c with [] => None | b :: m => if b =? k then Some m else None end.
  Definition plain : coding (list N) := Coding _ (fun v => v) Some.
  Notation event := (@event N N (list N) (list N) (list N)).
  Notation step := (step derive seal open plain plain plain []).
  Notation history := (history derive seal open plain plain plain []).
  Notation store := (@store N N N _ _).
  Definition luck (salt : N) (f : option nat) : @chance N N := Chance salt (repeat 1 24) (repeat 2 24) (fun a => a :: repeat 3 23) f.
  Definition story : list event :=
    [Write (luck 0 None) [SetRoot [5; 6]; SetPhrase [9]; SetKey 1 (Some [3]) [8]]; Encrypt (luck 10 None) (Some [7]); Lock; ReadRoot; Unlock [4]; Unlock [7]; ReadRoot;
     Encrypt (luck 20 (Some 3%nat)) (Some [2]); Write (luck 0 None) [SetKey 4 None [1; 1]; DelPhrase]; Reopen; Unlock [7]; Encrypt (luck 20 None) (Some [2]); Reopen; Unlock [7]; Unlock [2]; ReadRoot; ReadPhrase;
     ReadKey 1; ReadKey 4; Lock].
  Fixpoint play (evs : list event) (s : store) : list (event * res vault_err value) * store :=
    match evs with [] => ([], s) | ev :: evs => let x := step ev s in let y := play evs x.1 in ((ev, x.2) :: y.1, y.2) end.
  Fixpoint allowed (evs : list event) (s : store) : bool :=
    match evs with
    | [] => true
    | ev :: evs => (match ev with Unlock _ => match root (saved s) with Some _ => true | None => false end
                                | Encrypt r _ | Write r _ => (length (root_nonce r) =? 24)%nat && (length (phrase_nonce r) =? 24)%nat | _ => true end) && allowed evs (step ev s).1
    end.

  Lemma played evs tr (s : store) : (∀ r, (∃ p, Encrypt r p ∈ evs) ∨ (∃ ws, Write r ws ∈ evs) -> ∀ a, length (key_nonce r a) = 24%nat) ->
    allowed evs s = true -> history tr s -> history (tr ++ (play evs s).1) (play evs s).2.
  Proof.
    revert tr s. induction evs as [|ev evs IH]; intros tr s Kn Al Hs; cbn; [by rewrite app_nil_r|]. cbn in Al. apply andb_prop in Al as [A1 A2].
    rewrite (cons_middle (ev, (step ev s).2) tr (play evs (step ev s).1).1), app_assoc. apply IH; [|done|].
    - intros r X. apply Kn. destruct X as [[p X]|[p X]]; [left|right]; exists p; by right.
    - apply history_step; [done|]. destruct ev as [r p|p| | |r ws| | |a|a]; cbn; try done.
      + apply andb_prop in A1 as [B1 B2]. apply Nat.eqb_eq in B1, B2. split; [done|]. split; [done|]. apply Kn. left. exists p. by left.
      + split; [by destruct (root (saved s))|]. intros salt k k' n m _ _ _ _ Ho. unfold open, seal in Ho. by destruct (N.eqb_spec k k').
      + apply andb_prop in A1 as [B1 B2]. apply Nat.eqb_eq in B1, B2. split; [done|]. split; [done|]. apply Kn. right. exists ws. by left.
  Qed.

  Example parameters : opens_sealed seal open ∧ decodes plain.
  Proof. split; [|done]. intros k n m. cbn. by rewrite N.eqb_refl. Qed.
  Example answers : snd <$> (play story empty_store).1 =
    [Ok Done; Ok Done; Ok Done; Err WalletLocked; Err WalletInvalidPassword; Ok Done; Ok (IsRoot (Some [5; 6]));
     Err StorageFailed; Ok Done; Ok Done; Ok Done; Ok Done; Ok Done; Err WalletInvalidPassword; Ok Done; Ok (IsRoot (Some [5; 6])); Ok (IsPhrase None);
     Ok (IsKey (Some [8])); Ok (IsKey (Some [1; 1])); Ok Done].
  Proof. vm_compute. reflexivity. Qed.
  Lemma story_allowed : allowed story empty_store = true.
  Proof. vm_compute. reflexivity. Qed.
  Lemma story_nonces : ∀ r, (∃ p, Encrypt r p ∈ story) ∨ (∃ ws, Write r ws ∈ story) -> ∀ a, length (key_nonce r a) = 24%nat.
  Proof.
    assert (Forall (fun ev : event => match ev with Encrypt r _ | Write r _ => ∃ salt f, r = luck salt f | _ => True end) story) as F
      by (unfold story; repeat (apply Forall_cons; split; [try done; by eexists _, _|]); by apply Forall_nil).
    rewrite Forall_forall in F. intros r [[p X]|[ws X]] a; apply F in X as (salt & f & ->); done.
  Qed.
  Lemma played_start evs : (∀ r, (∃ p, Encrypt r p ∈ evs) ∨ (∃ ws, Write r ws ∈ evs) -> ∀ a, length (key_nonce r a) = 24%nat) -> allowed evs empty_store = true ->
    history (play evs empty_store).1 (play evs empty_store).2.
  Proof. intros Kn Al. exact (played evs [] empty_store Kn Al (history_start _ _ _ _ _ _ _)). Qed.
  Example reached : history (play story empty_store).1 (play story empty_store).2.
  Proof. exact (played_start story story_nonces story_allowed). Qed.
  Example end_state : is_locked (play story empty_store).2 = true ∧ the_passphrase (meant (play story empty_store).1) = Some [2] ∧
    (snd <$> the_keys (meant (play story empty_store).1) !! 4) = Some [1; 1].
  Proof. vm_compute. done. Qed.
  (** A wallet without a root key *)
  Example no_root_key : let r := luck 10 None in derive (new_salt r) [7] = Some 17 ∧ derive (new_salt r) [4] = Some 14 ∧
    open 14 (key_nonce r 1) (seal 17 (key_nonce r 1) (enc plain [8])) = None ∧ open 17 (key_nonce r 2) (seal 14 (key_nonce r 2) (enc plain [9])) = None.
  Proof. by vm_compute. Qed.
End VaultExample.
