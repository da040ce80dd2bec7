(** What is said about the secrets of a wallet: a wallet in words, without keys and ciphertexts. *)
From Verif Require Import Base VaultModel.
Local Open Scope N_scope.

Section Spec.
  Context {Key Salt A R Ph K : Type} `{Countable A}.
  Context (derive : Salt -> list N -> option Key) (seal : Key -> list N -> list N -> list N) (open : Key -> list N -> list N -> option (list N)).
  Context (root_coding : coding R) (phrase_coding : coding Ph) (key_coding : coding K) (zero_phrase : Ph).
  Notation event := (@event Salt A R Ph K).
  Notation value := (@value R Ph K).
  Notation store := (@store Key Salt A _ _).
  Notation chance := (@chance Salt A).
  Notation step := (step derive seal open root_coding phrase_coding key_coding zero_phrase).

  (** The cipher opens what it sealed, and decoding undoes encoding *)
  Definition opens_sealed : Prop := ∀ k n m, open k n (seal k n m) = Some m.
  Definition decodes {T} (cd : coding T) : Prop := ∀ v, dec cd (enc cd v) = Some v.
  Definition good_nonces (r : chance) : Prop := length (root_nonce r) = 24%nat ∧ length (phrase_nonce r) = 24%nat ∧ ∀ a, length (key_nonce r a) = 24%nat.

  (** What the user has put into the wallet, and the passphrase the user has set, as told by the answers the user has seen *)
  Record contents := Contents { the_root : option R; the_phrase : option Ph; the_keys : gmap A (option (list N) * K); the_passphrase : option (list N) }.
  Definition put (c : contents) (w : @write A R Ph K) : contents :=
    match w with
    | SetRoot v => Contents (Some v) (the_phrase c) (the_keys c) (the_passphrase c)
    | SetPhrase v => Contents (the_root c) (Some v) (the_keys c) (the_passphrase c)
    | DelPhrase => Contents (the_root c) None (the_keys c) (the_passphrase c)
    | SetKey a label v => Contents (the_root c) (the_phrase c) (<[a := (label, v)]> (the_keys c)) (the_passphrase c)
    end.
  Definition told (c : contents) (x : event * res vault_err value) : contents :=
    match x with
    | (Write _ ws, Ok _) => foldl put c ws
    | (Encrypt _ p, Ok _) => Contents (the_root c) (the_phrase c) (the_keys c) p
    | _ => c
    end.
  Definition meant (tr : list (event * res vault_err value)) : contents := foldl told (Contents None None ∅ None) tr.

  (** When a passphrase is tried there is a root key in the wallet, and the key derived from the passphrase does not open what was sealed with
      another key *)
  Definition fair_try (s : store) (p : list N) : Prop :=
    root (saved s) ≠ None ∧
    ∀ salt k k' n m, challenge (saved s) = Some salt -> derive salt p = Some k' -> root (saved s) = Some (n ++ seal k n m) -> length n = 24%nat ->
      open k' n (seal k n m) ≠ None -> k' = k.
  Definition proper (s : store) (ev : event) : Prop :=
    match ev with
    | Encrypt r _ | Write r _ => good_nonces r
    | Unlock p => fair_try s p
    | _ => True
    end.
  (** Everything that was done since the file was made, with the answers *)
  Inductive history : list (event * res vault_err value) -> store -> Prop :=
  | history_start : history [] empty_store
  | history_step tr s ev : history tr s -> proper s ev -> history (tr ++ [(ev, (step ev s).2)]) (step ev s).1.

  (** The key that the passphrase gives *)
  Definition key_for (s : store) (p : list N) : option Key := challenge (saved s) ≫= fun salt => derive salt p.
  (** How a secret is stored: sealed with the key, if there is one *)
  Definition stored {T} (cd : coding T) (k : option Key) (v : T) (c : list N) : Prop :=
    match k with Some k => ∃ n, length n = 24%nat ∧ c = n ++ seal k n (enc cd v) | None => c = enc cd v end.
End Spec.
