(** Who may spend what, independently of how it is checked. *)
From Coq Require Import Strings.Byte Sorted.
From Verif Require Import Base CodecModel CodecSpec WireModel WireSpec SighashModel AuthModel.
Local Open Scope N_scope.

Section Spec.
  Context (max : nat) (good_key : bytes -> bool) (hash : bytes -> bytes) (verify : bytes -> bytes -> bytes -> bool).

  (** A multisig that can be used: at least one signature is required, not more than there are keys, and not too many keys *)
  Definition usable (c : challenge) : Prop :=
    (1 <= N.to_nat (ch_min c) <= length (ch_keys c))%nat /\ (length (ch_keys c) <= max)%nat.
  (** Exactly the required number of signatures, at different positions, each a signature of the message by the key there *)
  Definition signed_enough (c : challenge) (sigs : list (N * bytes)) (msg : bytes) : Prop :=
    length sigs = N.to_nat (ch_min c) /\ NoDup (map fst sigs) /\
    forall i s, (i, s) ∈ sigs -> exists k, ch_keys c !! N.to_nat i = Some k /\ verify k s msg = true.

  Definition valid_challenge (c : challenge) : Prop := is_u8 (ch_min c) /\ valid_vec (valid_key good_key) (ch_keys c).
  Definition valid_pair (p : N * bytes) : Prop := is_u8 (fst p) /\ is_bytes 64 (snd p).
  (** A map in memory: positions in increasing order *)
  Definition increasing (l : list (N * bytes)) : Prop := StronglySorted N.lt (map fst l).
  Definition valid_multi (m : multi_spend) : Prop :=
    increasing (ms_signatures m) /\ Forall valid_pair (ms_signatures m) /\ valid_challenge (ms_challenge m).

  (** What a witness must hold for each kind of destination; [msg] is what is signed *)
  Definition entitled (d : destination) (raw msg : bytes) : Prop :=
    match d with
    | DKeyHash h => exists k s, raw = enc_key k ++ enc_signature s /\ valid_key good_key k /\ is_bytes 64 s /\
                      take 20 (hash (enc_key k)) = h /\ verify k s msg = true
    | DKey k => exists s, raw = enc_signature s /\ is_bytes 64 s /\ verify k s msg = true
    | DMultisig h => exists m, decode_all (dec_multi good_key) raw = Some m /\ take 20 (hash (enc_challenge (ms_challenge m))) = h /\
                      usable (ms_challenge m) /\ signed_enough (ms_challenge m) (ms_signatures m) msg
    | DScriptHash _ | DAnyone => False
    end.
End Spec.

(** The private key [key] is the one that destination [d] asks for *)
Definition owner {private} (hash : bytes -> bytes) (public_of : private -> bytes) (key : private) (d : destination) : Prop :=
  match d with
  | DKeyHash h => take 20 (hash (enc_key (public_of key))) = h
  | DKey k => k = public_of key
  | _ => False
  end.

Definition signatures_of (st : completion) : multi_spend := match st with Complete m | Partial m => m end.
(** Several owners sign one after the other: a position, the private key and the extra data each time *)
Fixpoint sign_in_turn {private aux} (sign_one : N -> private -> multi_spend -> aux -> res sign_error completion)
    (st : completion) (l : list (N * private * aux)) : res sign_error completion :=
  match l with
  | [] => Ok st
  | (i, key, a) :: l => let? st := sign_one i key (signatures_of st) a in sign_in_turn sign_one st l
  end.
(** Different positions, each with the private key of the public key there *)
Definition signers {private aux} (public_of : private -> bytes) (c : challenge) (l : list (N * private * aux)) : Prop :=
  NoDup (map (fun x => fst (fst x)) l) /\
  forall i key a, (i, key, a) ∈ l -> ch_keys c !! N.to_nat i = Some (public_of key).
