(** What it takes to spend a hashed timelock contract, independently of how it is checked. *)
From Coq Require Import Strings.Byte.
From Verif Require Import Base CodecModel CodecSpec WireModel WireSpec SighashModel AuthModel AuthSpec HtlcModel.
Local Open Scope N_scope.

Definition valid_htlc_spend (s : htlc_spend) : Prop :=
  match s with HtlcClaim secret raw => is_bytes 32 secret /\ is_blob raw | HtlcRefund raw => is_blob raw end.

Section Spec.
  Context (max : nat) (good_key : bytes -> bool) (hash hash160 : bytes -> bytes) (verify : bytes -> bytes -> bytes -> bool).

  (** The witness shows a secret with the hash of the contract and entitles to the spend key: a zero byte, the 32 bytes of the
      secret, and what is needed for the key with its length in front *)
  Definition claims (h : htlc) (secret : bytes) (w : witness) (msg_of : byte -> res sig_error bytes) : Prop :=
    exists mode raw msg, w = WStandard mode (x00 :: secret ++ enc_blob raw) /\ is_blob raw /\ is_bytes 32 secret /\ hash160 secret = ht_secret h /\
      msg_of mode = Ok msg /\ entitled max good_key hash verify (ht_spend h) raw msg.
  (** The witness entitles to the refund key: a one and what is needed for the key *)
  Definition refunds (h : htlc) (w : witness) (msg_of : byte -> res sig_error bytes) : Prop :=
    exists mode raw msg, w = WStandard mode (x01 :: enc_blob raw) /\ is_blob raw /\ msg_of mode = Ok msg /\
      entitled max good_key hash verify (ht_refund h) raw msg.
End Spec.

(** What anyone can read from the witness of a claim on the chain *)
Definition shown_secret (w : witness) : bytes := match w with WStandard _ raw => take 32 (drop 1 raw) | WNone _ => [] end.
