(** C72: a transaction, header or block that is encoded is read back as it was, no two have the same encoding, nothing but an
    encoding is read, and so an id names one transaction or header. *)
From Coq Require Import Strings.Byte.
From Verif Require Import Base CodecModel CodecSpec CodecProofs WireModel WireSpec WireProofs.
Local Open Scope N_scope.

Section WireProperties.
  Context (good_key good_vrf good_preout good_proof : bytes -> bool).

  (** What is encoded is read back, whatever follows it *)
  Theorem C72_block_read_back b rest : valid_block good_key good_vrf good_preout good_proof b ->
    dec_block good_key good_vrf good_preout good_proof (enc_block b ++ rest) = Some (b, rest).
  Proof. apply block_codec. Qed.
  Theorem C72_signed_transaction_read_back t rest : valid_signed good_key good_vrf t ->
    dec_signed good_key good_vrf (enc_signed t ++ rest) = Some (t, rest).
  Proof. apply signed_codec. Qed.
  Theorem C72_transaction_read_back t rest : valid_transaction good_key good_vrf t ->
    dec_transaction good_key good_vrf (enc_transaction t ++ rest) = Some (t, rest).
  Proof. apply transaction_codec. Qed.

  (** Only the encoding of a value is accepted: a decoded value is a possible one, and encoding it gives the same bytes *)
  Theorem C72_block_one_encoding input b rest :
    dec_block good_key good_vrf good_preout good_proof input = Some (b, rest) ->
    valid_block good_key good_vrf good_preout good_proof b /\ input = enc_block b ++ rest.
  Proof. apply block_codec. Qed.
  Theorem C72_signed_transaction_one_encoding input t rest :
    dec_signed good_key good_vrf input = Some (t, rest) ->
    valid_signed good_key good_vrf t /\ input = enc_signed t ++ rest.
  Proof. apply signed_codec. Qed.
  Theorem C72_whole_input input t :
    decode_all (dec_signed good_key good_vrf) input = Some t <-> valid_signed good_key good_vrf t /\ input = enc_signed t.
  Proof.
    unfold decode_all. split.
    - destruct (dec_signed _ _ input) as [[t' r]|] eqn:E; [|done]. destruct r; [|done]. intros H. simplify_eq.
      apply signed_codec in E. by rewrite app_nil_r in E.
    - intros [V ->]. rewrite <- (app_nil_r (enc_signed t)). by rewrite (proj1 (signed_codec good_key good_vrf)).
  Qed.

  (** No encoding is the start of another one, so what follows is never taken for a part of it *)
  Theorem C72_no_overlap t t' rest rest' : valid_signed good_key good_vrf t -> valid_signed good_key good_vrf t' ->
    enc_signed t ++ rest = enc_signed t' ++ rest' -> t = t' /\ rest = rest'.
  Proof. apply codec_inj with (d := dec_signed good_key good_vrf), signed_codec. Qed.

  (** Equal ids: the same transaction or header, or their encodings are a collision of the hash function *)
  Theorem C72_id_names_one_transaction hash t t' :
    valid_transaction good_key good_vrf t -> valid_transaction good_key good_vrf t' ->
    transaction_id hash t = transaction_id hash t' -> t = t' \/ collide hash (enc_transaction t) (enc_transaction t').
  Proof.
    intros V V' E. destruct (List.list_eq_dec Byte.byte_eq_dec (enc_transaction t) (enc_transaction t')) as [H|H].
    - left. apply (codec_inj _ _ _ t t' [] [] (proj1 (transaction_codec good_key good_vrf)) V V'). by rewrite H.
    - right. done.
  Qed.
  Theorem C72_id_names_one_header hash h h' :
    valid_header good_key good_preout good_proof h -> valid_header good_key good_preout good_proof h' ->
    header_id hash h = header_id hash h' -> h = h' \/ collide hash (enc_header h) (enc_header h').
  Proof.
    intros V V' E. destruct (List.list_eq_dec Byte.byte_eq_dec (enc_header h) (enc_header h')) as [H|H].
    - left. apply (codec_inj _ _ _ h h' [] [] (proj1 (header_codec good_key good_preout good_proof)) V V'). by rewrite H.
    - right. done.
  Qed.
  (** The id leaves the witnesses out, the serialized hash does not *)
  Theorem C72_serialized_hash_names_one_signed_transaction hash t t' :
    valid_signed good_key good_vrf t -> valid_signed good_key good_vrf t' ->
    serialized_hash hash t = serialized_hash hash t' -> t = t' \/ collide hash (enc_signed t) (enc_signed t').
  Proof.
    intros V V' E. destruct (List.list_eq_dec Byte.byte_eq_dec (enc_signed t) (enc_signed t')) as [H|H].
    - left. apply (C72_no_overlap t t' [] [] V V'). by rewrite H.
    - right. done.
  Qed.
End WireProperties.

(** A transaction with a payment and a locked output that spends an output and withdraws from a delegation *)
Definition example_tx : transaction :=
  Transaction 1 [IUtxo (Outpoint (SrcTx (replicate 32 x11)) 300); IDelegation 7 (replicate 32 x22) 100000]
    [OTransfer (VCoin 5000000000) (DKeyHash (replicate 20 x33)); OLockThenTransfer (VTokenV1 (replicate 32 x44) 63) (DKey (replicate 33 x02)) (LForBlocks 7200)].
Definition example_signed : signed_transaction :=
  SignedTransaction example_tx [WStandard x01 [x00; x05]; WNone (Some [])].
Example C72_example : valid_signed (fun _ => true) (fun _ => true) example_signed.
Proof.
  unfold valid_signed, valid_transaction, valid_vec, valid_outpoint, is_u32, is_u64, is_u128, is_blob. cbn.
  repeat first [done | constructor].
Qed.
Example C72_example_runs : decode_all (dec_signed (fun _ => true) (fun _ => true)) (enc_signed example_signed) = Some example_signed.
Proof. vm_compute. reflexivity. Qed.
(** Three bytes more than necessary for an amount: refused *)
Example C72_longer_refused : dec_amount [x02; x00; x00; x00] = None /\ dec_amount [x00] = Some (0, []).
Proof. vm_compute. done. Qed.
(** One witness too few: refused *)
Example C72_witness_count : decode_all (dec_signed (fun _ => true) (fun _ => true))
  (enc_signed (SignedTransaction example_tx [WNone None])) = None.
Proof. vm_compute. reflexivity. Qed.

Print Assumptions C72_block_read_back.
Print Assumptions C72_signed_transaction_read_back.
Print Assumptions C72_transaction_read_back.
Print Assumptions C72_block_one_encoding.
Print Assumptions C72_signed_transaction_one_encoding.
Print Assumptions C72_whole_input.
Print Assumptions C72_no_overlap.
Print Assumptions C72_id_names_one_transaction.
Print Assumptions C72_id_names_one_header.
Print Assumptions C72_serialized_hash_names_one_signed_transaction.
