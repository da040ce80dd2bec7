(** Model of how the right to spend an input is proved and checked: single keys, key hashes and classical multisig, from
    common/src/chain/transaction/signature/mod.rs, common/src/chain/transaction/signature/inputsig and
    common/src/chain/transaction/output/classic_multisig.rs. The signature scheme is a parameter. *)
From Coq Require Import Strings.Byte.
From Verif Require Import Base CodecModel WireModel SighashModel.
Local Open Scope N_scope.

(** ** A map from bytes to signatures, Rust's [BTreeMap<u8, Signature>]: a list of pairs in increasing order of the keys *)
Notation btree := (list (N * bytes)).
Fixpoint bt_insert (k : N) (s : bytes) (l : btree) : btree :=
  match l with
  | [] => [(k, s)]
  | (k', s') :: r => if k <? k' then (k, s) :: l else if k =? k' then (k, s) :: r else (k', s') :: bt_insert k s r
  end.
Fixpoint bt_get (k : N) (l : btree) : option bytes :=
  match l with [] => None | (k', s) :: r => if k =? k' then Some s else bt_get k r end.
(** Encoded like a vector of pairs; reading one takes the pairs in any order and the last one for each key (parity-scale-codec,
    [Decode] of [BTreeMap], which collects into the map) *)
Definition enc_pair (p : N * bytes) : bytes := enc_u8 (fst p) ++ enc_signature (snd p).
Definition dec_pair : decoder (N * bytes) := let! k := dec_u8 in let! s := dec_signature in dret (k, s).
Definition enc_btree (l : btree) : bytes := enc_vec enc_pair l.
Definition bt_of (l : list (N * bytes)) : btree := fold_left (fun m p => bt_insert (fst p) (snd p) m) l [].
Definition dec_btree : decoder btree := let! l := dec_vec dec_pair in dret (bt_of l).

(** common/src/chain/transaction/output/classic_multisig.rs 26-30: [ClassicMultisigChallenge] *)
Record challenge := Challenge { ch_min : N; ch_keys : list bytes }.
Definition enc_challenge (c : challenge) : bytes := enc_u8 (ch_min c) ++ enc_vec enc_key (ch_keys c).
(** inputsig/classical_multisig/authorize_classical_multisig.rs 56-62: [AuthorizedClassicalMultisigSpend] *)
Record multi_spend := MultiSpend { ms_signatures : btree; ms_challenge : challenge }.
Definition enc_multi (m : multi_spend) : bytes := enc_btree (ms_signatures m) ++ enc_challenge (ms_challenge m).
(** inputsig/authorize_pubkeyhash_spend.rs 23-27: [AuthorizedPublicKeyHashSpend]; authorize_pubkey_spend.rs 21-24 holds a
    signature alone *)
Definition enc_key_hash_spend (k s : bytes) : bytes := enc_key k ++ enc_signature s.

(** classic_multisig.rs 32-42 *)
Inductive challenge_error := ETooManyKeys | EMoreRequiredThanKeys | ENoKeys | ENoneRequired.
(** multisig_partial_signature.rs 121-129: [PartiallySignedMultisigStructureError] *)
Inductive structure_error := EOverconstrained (have min : nat) | EInvalidChallenge (e : challenge_error) | EInvalidSignatureIndex.
(** multisig_partial_signature.rs 138-146: [SigsVerifyResult] *)
Inductive verify_result := CompleteAndValid | Incomplete | Invalid.
(** The cases of [DestinationSigError] (signature/mod.rs 37-108) made here *)
Inductive auth_error :=
| ESighash (e : sig_error)
| EVerifyWithoutInputs | ESignatureIndex (i n : nat) | ESignatureNotFound | ESignatureNotNeeded
| EKeyHashDecoding | EKeyHashMismatch | EVerificationFailed | EEncoding | EUnsupported | EAnyoneStandard
| EMultisigHashMismatch | EMultisigStructure (e : structure_error) | EMultisigIncomplete (min have : N) | EMultisigInvalid
| EKeyMismatch | EMultisigInUniparty | EAnyoneProduce | EIncompleteAuthorization | EInvalidAuthorization.
(** authorize_classical_multisig.rs 150-169: [ClassicalMultisigSigningError]; signing itself does not fail
    (crypto/src/key/mod.rs 105-116) *)
Inductive sign_error :=
| SInvalidChallenge (e : challenge_error) | SIndexExists (i : N) | SAlreadyComplete | SInvalidKeyIndex (i : N) (n : nat)
| SPreExistingInvalid | SKeyMismatch | SStructure (e : structure_error).
(** authorize_classical_multisig.rs 36-40: [ClassicalMultisigCompletionStatus] *)
Inductive completion := Complete (m : multi_spend) | Partial (m : multi_spend).

(** classic_multisig.rs 65-95: [is_valid] *)
Definition challenge_check (max : nat) (c : challenge) : res challenge_error unit :=
  ensure (negb (length (ch_keys c) =? 0)%nat) ENoKeys ;?
  ensure (negb (max <? length (ch_keys c))%nat) ETooManyKeys ;?
  ensure (negb (ch_min c =? 0)) ENoneRequired ;?
  ensure (negb (length (ch_keys c) <? N.to_nat (ch_min c))%nat) EMoreRequiredThanKeys.

Section Keys.
  (** [max]: the chain's limit on keys. [good_key]: the 33 bytes are a point on the curve. [verify key signature message] and
      [sign private message aux]: the signature scheme. [public_of]: the public key of a private one. [hash]: the hash function *)
  Context (max : nat) (good_key : bytes -> bool) (hash : bytes -> bytes)
    (verify : bytes -> bytes -> bytes -> bool) {private aux : Type} (public_of : private -> bytes) (sign : private -> bytes -> aux -> bytes).

  Definition dec_challenge : decoder challenge := let! m := dec_u8 in let! k := dec_vec (dec_key good_key) in dret (Challenge m k).
  Definition dec_multi : decoder multi_spend := let! s := dec_btree in let! c := dec_challenge in dret (MultiSpend s c).
  Definition dec_key_hash_spend : decoder (bytes * bytes) := let! k := dec_key good_key in let! s := dec_signature in dret (k, s).

  (** common/src/address/pubkeyhash.rs 41-53: the first 20 bytes of the hash of the encoding *)
  Definition key_hash (k : bytes) : bytes := take 20 (hash (enc_key k)).
  Definition challenge_hash (c : challenge) : bytes := take 20 (hash (enc_challenge c)).
  Definition same (a b : bytes) : bool := if List.list_eq_dec Byte.byte_eq_dec a b then true else false.

  (** multisig_partial_signature.rs 58-91: [check_structurally_valid]; its own result is never used *)
  Definition check_structure (m : multi_spend) : res structure_error unit :=
    rmap_err EInvalidChallenge (challenge_check max (ms_challenge m)) ;?
    ensure (forallb (fun p => (N.to_nat (fst p) <? length (ch_keys (ms_challenge m)))%nat) (ms_signatures m)) EInvalidSignatureIndex ;?
    ensure (negb (N.to_nat (ch_min (ms_challenge m)) <? length (ms_signatures m))%nat)
      (EOverconstrained (length (ms_signatures m)) (N.to_nat (ch_min (ms_challenge m)))).
  (** [self.signatures.iter().all(..)] of [verify_signatures]; an index out of range panics *)
  Fixpoint all_verify (msg : bytes) (keys : list bytes) (l : btree) : res structure_error bool :=
    match l with
    | [] => Ok true
    | (i, s) :: r => let? k := expect (keys !! N.to_nat i) in if verify k s msg then all_verify msg keys r else Ok false
    end.
  (** multisig_partial_signature.rs 93-119: [verify_signatures] *)
  Definition verify_signatures (m : multi_spend) (msg : bytes) : res structure_error verify_result :=
    check_structure m ;?
    let? ok := all_verify msg (ch_keys (ms_challenge m)) (ms_signatures m) in
    if ok then
      if (length (ms_signatures m) <? N.to_nat (ch_min (ms_challenge m)))%nat then Ok Incomplete else Ok CompleteAndValid
    else Ok Invalid.
  (** multisig_partial_signature.rs 33-43: [from_partial] is [check_structure]; authorize_classical_multisig.rs 118-148:
      [verify_classical_multisig_spending] *)
  Definition verify_multisig (h : bytes) (m : multi_spend) (msg : bytes) : res auth_error unit :=
    ensure (same (challenge_hash (ms_challenge m)) h) EMultisigHashMismatch ;?
    rmap_err EMultisigStructure (check_structure m) ;?
    let? r := rmap_err EMultisigStructure (verify_signatures m msg) in
    match r with
    | CompleteAndValid => Ok tt
    | Incomplete => Err (EMultisigIncomplete (ch_min (ms_challenge m)) (N.of_nat (length (ms_signatures m)) mod 256))
    | Invalid => Err EMultisigInvalid
    end.

  (** authorize_classical_multisig.rs 178-267: [sign_classical_multisig_spending] *)
  Definition sign_multisig (i : N) (key : private) (c : challenge) (msg : bytes) (m : multi_spend) (a : aux) : res sign_error completion :=
    rmap_err SInvalidChallenge (challenge_check max c) ;?
    ensure (match bt_get i (ms_signatures m) with Some _ => false | None => true end) (SIndexExists i) ;?
    rmap_err SStructure (check_structure m) ;?
    let? r := rmap_err SStructure (verify_signatures m msg) in
    match r with
    | CompleteAndValid => Err SAlreadyComplete
    | Invalid => Err SPreExistingInvalid
    | Incomplete =>
        let? k := ok_or (ch_keys c !! N.to_nat i) (SInvalidKeyIndex i (length (ch_keys c))) in
        ensure (same k (public_of key)) SKeyMismatch ;?
        let m := MultiSpend (bt_insert i (sign key msg a) (ms_signatures m)) (ms_challenge m) in
        rmap_err SStructure (check_structure m) ;?
        let? r := rmap_err SStructure (verify_signatures m msg) in
        match r with
        | CompleteAndValid => Ok (Complete m)
        | Incomplete => Ok (Partial m)
        | Invalid => Panic
        end
    end.

  (** authorize_pubkeyhash_spend.rs 48-62, authorize_pubkey_spend.rs 42-52 *)
  Definition verify_key_hash (h : bytes) (k s : bytes) (msg : bytes) : res auth_error unit :=
    ensure (same (key_hash k) h) EKeyHashMismatch ;?
    ensure (verify k s msg) EVerificationFailed.
  Definition verify_key (k s msg : bytes) : res auth_error unit := ensure (verify k s msg) EVerificationFailed.

  (** standard_signature.rs 74-103 [verify_signature], and the same for texts, arbitrary_message/mod.rs 176-207 *)
  Definition verify_raw (d : destination) (raw msg : bytes) : res auth_error unit :=
    match d with
    | DKeyHash h => let? (k, s) := ok_or (decode_all dec_key_hash_spend raw) EKeyHashDecoding in verify_key_hash h k s msg
    | DKey k => let? s := ok_or (decode_all dec_signature raw) EEncoding in verify_key k s msg
    | DScriptHash _ => Err EUnsupported
    | DAnyone => Err EAnyoneStandard
    | DMultisig h => let? m := ok_or (decode_all dec_multi raw) EEncoding in verify_multisig h m msg
    end.
  (** signature/mod.rs 131-169: [verify_signature] *)
  Definition verify_signature (d : destination) (tx : signable) (w : witness) (cs : list commitment) (i : nat) : res auth_error unit :=
    let? ins := ok_or (sg_inputs tx) EVerifyWithoutInputs in
    ensure (i <? length ins)%nat (ESignatureIndex i (length ins)) ;?
    match d, w with
    | DAnyone, WNone _ => Ok tt
    | DAnyone, WStandard _ _ => Err ESignatureNotNeeded
    | _, WNone _ => Err ESignatureNotFound
    | _, WStandard mode raw => let? h := rmap_err ESighash (signature_hash hash mode tx cs i) in verify_raw d raw h
    end.
  (** arbitrary_message/mod.rs 61-68, 176-207 *)
  Definition verify_text (d : destination) (text raw : bytes) : res auth_error unit := verify_raw d raw (message_challenge hash text).

  (** authorize_pubkeyhash_spend.rs 64-102, authorize_pubkey_spend.rs 54-70: a signature for a key or a key hash, encoded *)
  Definition sign_raw (key : private) (d : destination) (msg : bytes) (a : aux) : res auth_error bytes :=
    match d with
    | DKeyHash h => ensure (same (key_hash (public_of key)) h) EKeyHashMismatch ;? Ok (enc_key_hash_spend (public_of key) (sign key msg a))
    | DKey k => ensure (same k (public_of key)) EKeyMismatch ;? Ok (enc_signature (sign key msg a))
    | DScriptHash _ => Err EUnsupported
    | DAnyone => Err EAnyoneProduce
    | DMultisig _ => Err EMultisigInUniparty
    end.
  (** standard_signature.rs 105-139: [produce_uniparty_signature_for_input]; arbitrary_message/mod.rs 104-135 *)
  Definition sign_input (key : private) (mode : byte) (d : destination) (tx : signable) (cs : list commitment) (i : nat) (a : aux) : res auth_error witness :=
    let? h := rmap_err ESighash (signature_hash hash mode tx cs i) in
    let? raw := sign_raw key d h a in Ok (WStandard mode raw).
  Definition sign_text (key : private) (d : destination) (text : bytes) (a : aux) : res auth_error bytes :=
    sign_raw key d (message_challenge hash text) a.
  (** standard_signature.rs 141-175: [produce_classical_multisig_signature_for_input] *)
  Definition complete_input (m : multi_spend) (mode : byte) (tx : signable) (cs : list commitment) (i : nat) : res auth_error witness :=
    let? h := rmap_err ESighash (signature_hash hash mode tx cs i) in
    rmap_err EMultisigStructure (check_structure m) ;?
    let? r := rmap_err EMultisigStructure (verify_signatures m h) in
    match r with
    | CompleteAndValid => Ok (WStandard mode (enc_multi m))
    | Incomplete => Err EIncompleteAuthorization
    | Invalid => Err EInvalidAuthorization
    end.
End Keys.
