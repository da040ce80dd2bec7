(** Model of the witnesses of hashed timelock contracts (HTLC): how they are written, signed and checked, from
    common/src/chain/transaction/signature/inputsig/{authorize_hashed_timelock_contract_spend.rs, htlc.rs},
    classical_multisig/encode_decode_multisig_spend.rs and mintscript/src/translate.rs. What a time lock means is C34, and that
    a script of two conditions is the conjunction of them is C32; here the outcome of the lock is a parameter. *)
From Coq Require Import Strings.Byte.
From Verif Require Import Base CodecModel WireModel SighashModel AuthModel.
Local Open Scope N_scope.

(** authorize_hashed_timelock_contract_spend.rs 22-27: the secret is 32 bytes (output/htlc.rs 39-44) *)
Inductive htlc_spend := HtlcClaim (secret raw : bytes) | HtlcRefund (raw : bytes).
Definition enc_htlc_spend (s : htlc_spend) : bytes :=
  match s with
  | HtlcClaim secret raw => x00 :: enc_array secret ++ enc_blob raw
  | HtlcRefund raw => x01 :: enc_blob raw
  end.
Definition dec_htlc_spend : decoder htlc_spend :=
  let! t := dec_byte in
  match t with
  | x00 => let! s := dec_array 32 in let! r := dec_blob in dret (HtlcClaim s r)
  | x01 => let! r := dec_blob in dret (HtlcRefund r)
  | _ => dfail
  end.

(** mintscript/src/translate.rs 36-50 and mintscript/src/checker/hashlock.rs 20-26: the errors on the way *)
Inductive htlc_error := HSignature (e : auth_error) | HLocked | HHashMismatch.

Section Htlc.
  (** As in [AuthModel]; [hash160]: RIPEMD-160 of SHA-256 *)
  Context (max : nat) (good_key : bytes -> bool) (hash hash160 : bytes -> bytes)
    (verify : bytes -> bytes -> bytes -> bool) {private aux : Type} (public_of : private -> bytes) (sign : private -> bytes -> aux -> bytes).

  (** translate.rs 146-198 with hashlock.rs 63-80: checking an input that spends the contract [h]; [unlocked]: its time lock is
      over (C34). The parts of a conjunction are checked in order. *)
  Definition verify_htlc (unlocked : bool) (h : htlc) (tx : signable) (w : witness) (cs : list commitment) (i : nat) : res htlc_error unit :=
    match w with
    | WNone _ => Err (HSignature ESignatureNotFound)
    | WStandard mode raw =>
        let? s := ok_or (decode_all dec_htlc_spend raw) (HSignature EEncoding) in
        match s with
        | HtlcClaim secret raw =>
            ensure (same (hash160 secret) (ht_secret h)) HHashMismatch ;?
            rmap_err HSignature (verify_signature max good_key hash verify (ht_spend h) tx (WStandard mode raw) cs i)
        | HtlcRefund raw =>
            ensure unlocked HLocked ;?
            rmap_err HSignature (verify_signature max good_key hash verify (ht_refund h) tx (WStandard mode raw) cs i)
        end
    end.

  (** inputsig/htlc.rs 33-67: [produce_uniparty_signature_for_htlc_spending] *)
  Definition sign_claim (key : private) (mode : byte) (d : destination) (tx : signable) (cs : list commitment) (i : nat)
      (secret : bytes) (a : aux) : res auth_error witness :=
    let? w := sign_input hash public_of sign key mode d tx cs i a in
    match w with WStandard mode raw => Ok (WStandard mode (enc_htlc_spend (HtlcClaim secret raw))) | WNone _ => Panic end.
  (** inputsig/htlc.rs 95-126: [produce_uniparty_signature_for_htlc_refunding] *)
  Definition sign_refund (key : private) (mode : byte) (d : destination) (tx : signable) (cs : list commitment) (i : nat)
      (a : aux) : res auth_error witness :=
    let? w := sign_input hash public_of sign key mode d tx cs i a in
    match w with WStandard mode raw => Ok (WStandard mode (enc_htlc_spend (HtlcRefund raw))) | WNone _ => Panic end.
  (** inputsig/htlc.rs 69-93: [produce_classical_multisig_signature_for_htlc_refunding] *)
  Definition complete_refund (m : multi_spend) (mode : byte) (tx : signable) (cs : list commitment) (i : nat) : res auth_error witness :=
    let? w := complete_input max hash verify m mode tx cs i in
    match w with WStandard mode raw => Ok (WStandard mode (enc_htlc_spend (HtlcRefund raw))) | WNone _ => Panic end.

  (** encode_decode_multisig_spend.rs 94-110 *)
  Definition is_htlc (o : tx_output) : bool := match o with OHtlc _ _ => true | _ => false end.
  (** encode_decode_multisig_spend.rs 32-49: [encode_multisig_spend], with the sighash type [all] *)
  Definition encode_multi_spend (m : multi_spend) (utxo : option tx_output) : witness :=
    WStandard x01 (match utxo with
                   | Some o => if is_htlc o then enc_htlc_spend (HtlcRefund (enc_multi m)) else enc_multi m
                   | None => enc_multi m
                   end).
  (** encode_decode_multisig_spend.rs 51-77: [decode_multisig_spend] *)
  Definition decode_multi_spend (raw : bytes) (utxo : option tx_output) : res auth_error multi_spend :=
    match utxo with
    | Some o =>
        if is_htlc o then
          let? s := ok_or (decode_all dec_htlc_spend raw) EEncoding in
          match s with
          | HtlcClaim _ _ => Err EInvalidAuthorization
          | HtlcRefund raw => ok_or (decode_all (dec_multi good_key) raw) EEncoding
          end
        else ok_or (decode_all (dec_multi good_key) raw) EEncoding
    | None => ok_or (decode_all (dec_multi good_key) raw) EEncoding
    end.
End Htlc.
