(** Model of the encryption of the secrets in a wallet file: the root keys, the seed phrase and the private keys added by the user.
    wallet/storage/src/internal/{mod.rs,password.rs,store_tx.rs}, utils/src/maybe_encrypted.rs, crypto/src/{kdf,symkey}.
    The key derivation function, the cipher and the encodings of the secrets are parameters; random salts and nonces are inputs.
    A storage transaction is atomic: it changes the stored data when it is committed and does nothing otherwise. *)
From Verif Require Import Base.
Local Open Scope N_scope.

(** wallet/storage/src/lib.rs [Error], what is returned by the functions modelled; [StorageFailed] stands for any error of the database *)
Inductive vault_err := WalletLocked | WalletAlreadyUnlocked | WalletLockedWithoutAPassword | WalletInvalidPassword | WalletEmptyPassword | StorageFailed.
(** maybe_encrypted.rs 26-33 *)
Inductive take_err := DecryptionError | DecodingError.

(** An encoding of values as bytes *)
Record coding (T : Type) := Coding { enc : T -> list N; dec : list N -> option T }.
Arguments enc {T}. Arguments dec {T}.

Section Vault.
  (** The symmetric keys, the salts, the names of the private keys of the user and the secrets *)
  Context {Key Salt A R Ph K : Type} `{Countable A}.
  (** crypto/src/kdf: Argon2id of a salt and a passphrase; it fails for passphrases that are too long *)
  Context (derive : Salt -> list N -> option Key).
  (** XChaCha20Poly1305 with a nonce and no associated data *)
  Context (seal : Key -> list N -> list N -> list N) (open : Key -> list N -> list N -> option (list N)).
  Context (root_coding : coding R) (phrase_coding : coding Ph) (key_coding : coding K).
  (** seed_phrase.rs 63-70 *)
  Context (zero_phrase : Ph).

  (** chacha20poly1305/mod.rs 30 *)
  Definition NONCE_LEN : nat := 24.
  (** chacha20poly1305/mod.rs 52-78: the nonce is put in front *)
  Definition encrypt (k : Key) (nonce m : list N) : list N := nonce ++ seal k nonce m.
  (** chacha20poly1305/mod.rs 80-108 *)
  Definition decrypt (k : Key) (c : list N) : option (list N) :=
    if (length c <? NONCE_LEN)%nat then None else open k (take NONCE_LEN c) (drop NONCE_LEN c).

  (** maybe_encrypted.rs 41-69 *)
  Definition maybe_encrypt {T} (cd : coding T) (v : T) (k : option Key) (nonce : list N) : list N :=
    match k with Some k => encrypt k nonce (enc cd v) | None => enc cd v end.
  (** maybe_encrypted.rs 99-106 *)
  Definition try_decrypt_then_take {T} (cd : coding T) (c : list N) (k : Key) : res take_err T :=
    let? m := ok_or (decrypt k c) DecryptionError in ok_or (dec cd m) DecodingError.
  (** maybe_encrypted.rs 86-97 *)
  Definition try_take {T} (cd : coding T) (c : list N) (k : option Key) : res take_err T :=
    match k with Some k => try_decrypt_then_take cd c k | None => ok_or (dec cd c) DecodingError end.
  (** [.expect("key was checked when unlocked")] *)
  Definition take_checked {T} (cd : coding T) (c : list N) (k : option Key) : res vault_err T :=
    match try_take cd c k with Ok v => Ok v | _ => Panic end.

  (** schema.rs 44-64 and store_tx.rs 54-86: the tables with secrets and the entry with the challenge; there is one root key and one seed phrase *)
  Record tables := Tables { challenge : option Salt; root : option (list N); phrase : option (list N); keys : gmap A (option (list N) * list N) }.
  (** store_tx.rs 88-95 *)
  Inductive lock_state := Locked | Unlocked (k : option Key).
  (** internal/mod.rs 31-35 *)
  Record store := Store { saved : tables; state : lock_state }.

  (** internal/mod.rs 37-72: opening a file *)
  Definition open_file (d : tables) : store := Store d (match challenge d with None => Unlocked None | Some _ => Locked end).
  (** internal/mod.rs 74-86 *)
  Definition is_encrypted (s : store) : bool := match state s with Locked | Unlocked (Some _) => true | Unlocked None => false end.
  Definition is_locked (s : store) : bool := match state s with Locked => true | Unlocked _ => false end.
  (** internal/mod.rs 170-179 and 191-204 *)
  Definition key_of (s : store) : res vault_err (option Key) := match state s with Locked => Err WalletLocked | Unlocked k => Ok k end.

  (** What is random in an operation, and which of its accesses to the database fails, if any *)
  Record chance := Chance { new_salt : Salt; root_nonce : list N; phrase_nonce : list N; key_nonce : A -> list N; fault : option nat }.
  Definition access (r : chance) (i : nat) : res vault_err unit := if decide (fault r = Some i) then Err StorageFailed else Ok tt.

  (** password.rs 37-66 *)
  Definition password_to_sym_key (p : list N) (salt : Salt) : res vault_err (Key * Salt) :=
    match p with [] => Err WalletEmptyPassword | _ => let? k := ok_or (derive salt p) WalletInvalidPassword in Ok (k, salt) end.
  (** password.rs 84-101 *)
  Definition challenge_to_sym_key (p : list N) (salt : Salt) : res vault_err Key := ok_or (derive salt p) WalletInvalidPassword.

  (** store_tx.rs 816-834 and 836-854 *)
  Definition reencrypt {T} (cd : coding T) (old new : option Key) (nonce : list N) (c : option (list N)) : res vault_err (option (list N)) :=
    match c with
    | None => Ok None
    | Some c => let? v := take_checked cd c old in Ok (Some (maybe_encrypt cd v new nonce))
    end.
  (** store_tx.rs 856-882 *)
  Definition reencrypt_keys (old new : option Key) (nonce : A -> list N) (m : gmap A (option (list N) * list N)) : res vault_err (gmap A (option (list N) * list N)) :=
    let? l := rmapM (fun x => let? v := take_checked key_coding x.2.2 old in Ok (x.1, (x.2.1, maybe_encrypt key_coding v new (nonce x.1)))) (map_to_list m) in
    Ok (foldl (fun m x => <[x.1 := x.2]> m) m l).

  (** internal/mod.rs 88-111: the passphrase is set, changed or removed; an error drops the transaction *)
  Definition encrypt_private_keys (r : chance) (p : option (list N)) (s : store) : store * res vault_err unit :=
    let tx :=
      let? old := key_of s in access r 0 ;?
      let? (new, ch) := match p with
                        | None => access r 1 ;? Ok (None, None)
                        | Some p => let? (k, salt) := password_to_sym_key p (new_salt r) in access r 1 ;? Ok (Some k, Some salt)
                        end in
      access r 2 ;? let? root' := reencrypt root_coding old new (root_nonce r) (root (saved s)) in
      access r 3 ;? let? phrase' := reencrypt phrase_coding old new (phrase_nonce r) (phrase (saved s)) in
      access r 4 ;? let? keys' := reencrypt_keys old new (key_nonce r) (keys (saved s)) in
      access r 5 ;? Ok (Tables ch root' phrase' keys', new) in
    match tx with
    | Ok (d, new) => (Store d (Unlocked new), Ok tt)
    | Err e => (s, Err e)
    | Panic => (s, Panic)
    end.

  (** store_tx.rs 528-549 *)
  Definition check_can_decrypt_all_root_keys (d : tables) (k : Key) : res vault_err unit :=
    match root d with
    | None => Ok tt
    | Some c => match try_decrypt_then_take root_coding c k with
                | Ok _ => Ok tt
                | Err DecryptionError => Err WalletInvalidPassword
                | Err DecodingError | Panic => Panic
                end
    end.
  (** internal/mod.rs 113-135 *)
  Definition unlock_private_keys (p : list N) (s : store) : store * res vault_err unit :=
    match state s with
    | Unlocked _ => (s, Err WalletAlreadyUnlocked)
    | Locked =>
        match challenge (saved s) with
        | None => (s, Panic)
        | Some salt =>
            match (let? k := challenge_to_sym_key p salt in check_can_decrypt_all_root_keys (saved s) k ;? Ok k) with
            | Ok k => (Store (saved s) (Unlocked (Some k)), Ok tt)
            | Err e => (s, Err e)
            | Panic => (s, Panic)
            end
        end
    end.
  (** internal/mod.rs 137-149 *)
  Definition lock_private_keys (s : store) : store * res vault_err unit :=
    match state s with
    | Locked => (s, Ok tt)
    | Unlocked None => (s, Err WalletLockedWithoutAPassword)
    | Unlocked (Some _) => (Store (saved s) Locked, Ok tt)
    end.

  (** store_tx.rs 556-584 *)
  Definition get_secret {T} (cd : coding T) (c : option (list N)) (k : option Key) : res vault_err (option T) :=
    match c with None => Ok None | Some c => rmap Some (take_checked cd c k) end.
  Definition get_root_key (d : tables) (k : option Key) : res vault_err (option R) := get_secret root_coding (root d) k.
  Definition get_seed_phrase (d : tables) (k : option Key) : res vault_err (option Ph) := get_secret phrase_coding (phrase d) k.
  Definition get_private_key (a : A) (d : tables) (k : option Key) : res vault_err (option K) := get_secret key_coding (snd <$> keys d !! a) k.
  (** store_tx.rs 282-291: it needs no key *)
  Definition get_label (a : A) (d : tables) : option (option (list N)) := fst <$> keys d !! a.

  (** store_tx.rs 886-930: the writes of one transaction; [del_root_key] is not used *)
  Inductive write := SetRoot (v : R) | SetPhrase (v : Ph) | DelPhrase | SetKey (a : A) (label : option (list N)) (v : K).
  Definition set_seed_phrase (r : chance) (k : option Key) (v : Ph) (d : tables) : tables :=
    Tables (challenge d) (root d) (Some (maybe_encrypt phrase_coding v k (phrase_nonce r))) (keys d).
  Definition write_one (r : chance) (k : option Key) (d : tables) (w : write) : res vault_err tables :=
    match w with
    | SetRoot v => Ok (Tables (challenge d) (Some (maybe_encrypt root_coding v k (root_nonce r))) (phrase d) (keys d))
    | SetPhrase v => Ok (set_seed_phrase r k v d)
    | DelPhrase =>
        let? _ := get_seed_phrase d k in
        let d := set_seed_phrase r k zero_phrase d in Ok (Tables (challenge d) (root d) None (keys d))
    | SetKey a label v => Ok (Tables (challenge d) (root d) (phrase d) (<[a := (label, maybe_encrypt key_coding v k (key_nonce r a))]> (keys d)))
    end.
  Fixpoint write_all (r : chance) (k : option Key) (i : nat) (ws : list write) (d : tables) : res vault_err tables :=
    match ws with
    | [] => access r i ;? Ok d
    | w :: ws => access r i ;? let? d := write_one r k d w in write_all r k (S i) ws d
    end.
  (** [transaction_rw_unlocked], the writes and [commit]: wallet/src/key_chain/master_key_chain/mod.rs 99-101, wallet/src/wallet/mod.rs 1030-1036,
      account_key_chain/mod.rs 611-632 *)
  Definition write_private (r : chance) (ws : list write) (s : store) : store * res vault_err unit :=
    match (let? k := key_of s in access r 0 ;? write_all r k 1 ws (saved s)) with
    | Ok d => (Store d (state s), Ok tt)
    | Err e => (s, Err e)
    | Panic => (s, Panic)
    end.

  (** What a user does; [Reopen]: the program ends, as meant or not, and the file is opened again *)
  Inductive event :=
  | Encrypt (r : chance) (p : option (list N)) | Unlock (p : list N) | Lock | Reopen
  | Write (r : chance) (ws : list write) | ReadRoot | ReadPhrase | ReadKey (a : A) | ReadLabel (a : A).
  Inductive value := Done | IsRoot (v : option R) | IsPhrase (v : option Ph) | IsKey (v : option K) | IsLabel (v : option (option (list N))).
  Definition done (x : store * res vault_err unit) : store * res vault_err value := (x.1, rmap (fun _ => Done) x.2).
  Definition step (ev : event) (s : store) : store * res vault_err value :=
    match ev with
    | Encrypt r p => done (encrypt_private_keys r p s)
    | Unlock p => done (unlock_private_keys p s)
    | Lock => done (lock_private_keys s)
    | Reopen => (open_file (saved s), Ok Done)
    | Write r ws => done (write_private r ws s)
    | ReadRoot => (s, let? k := key_of s in rmap IsRoot (get_root_key (saved s) k))
    | ReadPhrase => (s, let? k := key_of s in rmap IsPhrase (get_seed_phrase (saved s) k))
    | ReadKey a => (s, let? k := key_of s in rmap IsKey (get_private_key a (saved s) k))
    | ReadLabel a => (s, Ok (IsLabel (get_label a (saved s))))
    end.
  (** A new file *)
  Definition empty_store : store := open_file (Tables None None None ∅).
End Vault.
