(** C77: how a hashed timelock contract is claimed and refunded. *)
From Coq Require Import Strings.Byte Sorted.
From Verif Require Import Base CodecModel CodecSpec CodecProofs WireModel WireSpec WireProofs ConstraintsProofs SighashModel SighashSpec SighashProofs
  AuthModel AuthSpec AuthProofs AuthProperties HtlcModel HtlcSpec HtlcProofs.
Local Open Scope N_scope.

Section HtlcProperties.
  Context (max : nat) (good_key : bytes -> bool) (hash hash160 : bytes -> bytes)
    (verify : bytes -> bytes -> bytes -> bool) {private aux : Type} (public_of : private -> bytes) (sign : private -> bytes -> aux -> bytes).
  Local Notation verify_htlc := (verify_htlc max good_key hash hash160 verify).
  Local Notation sign_claim := (sign_claim hash public_of sign).
  Local Notation sign_refund := (sign_refund hash public_of sign).
  Local Notation scheme := (scheme good_key verify public_of sign).

  (** A contract is spent exactly by showing a secret with its hash and being entitled to the spend key, at any time, or by being
      entitled to the refund key once the time lock is over *)
  Theorem C77_spent_exactly unlocked h tx w cs i : verify_htlc unlocked h tx w cs i = Ok tt <->
    (exists secret, claims max good_key hash hash160 verify h secret w (fun mode => signature_hash hash mode tx cs i)) \/
    unlocked = true /\ refunds max good_key hash verify h w (fun mode => signature_hash hash mode tx cs i).
  Proof. apply htlc_ok. Qed.
  (** Who knows the secret and has the spend key can make a witness that is accepted, also before the lock is over *)
  Theorem C77_claim_is_accepted unlocked h key mode tx cs i a secret msg : scheme ->
    is_bytes 32 secret -> hash160 secret = ht_secret h -> owner hash public_of key (ht_spend h) -> signature_hash hash mode tx cs i = Ok msg ->
    exists w, sign_claim key mode (ht_spend h) tx cs i secret a = Ok w /\ verify_htlc unlocked h tx w cs i = Ok tt.
  Proof.
    intros Sc L E O Hh. destruct (proj2 (C76_owner_signs _ _ _ _ _ key mode (ht_spend h) tx cs i a msg Sc Hh) O) as [w0 S].
    unfold HtlcModel.sign_claim. rewrite S. cbn [rbind].
    apply (signed_raw max good_key hash verify public_of sign) in S as (raw & -> & B & V); [|done]. eexists. split; [done|].
    apply C77_spent_exactly. left. exists secret. apply standard_ok in V as (msg' & Hh' & V). exists mode, raw, msg'. by split_and!.
  Qed.
  (** Who has the refund key can make a witness that is accepted when the lock is over, and is not before *)
  Theorem C77_refund_waits unlocked h key mode tx cs i a msg : scheme ->
    owner hash public_of key (ht_refund h) -> signature_hash hash mode tx cs i = Ok msg ->
    exists w, sign_refund key mode (ht_refund h) tx cs i a = Ok w /\ (verify_htlc unlocked h tx w cs i = Ok tt <-> unlocked = true).
  Proof.
    intros Sc O Hh. destruct (proj2 (C76_owner_signs _ _ _ _ _ key mode (ht_refund h) tx cs i a msg Sc Hh) O) as [w0 S].
    unfold HtlcModel.sign_refund. rewrite S. cbn [rbind].
    apply (signed_raw max good_key hash verify public_of sign) in S as (raw & -> & B & V); [|done]. eexists. split; [done|].
    rewrite C77_spent_exactly. apply standard_ok in V as (msg' & Hh' & V). split.
    - intros [(secret & m' & r' & x & E & _)|[U _]]; [discriminate E|done].
    - intros ->. right. split; [done|]. exists mode, raw, msg'. by split_and!.
  Qed.
  (** The same for a multisig as refund key *)
  Theorem C77_multisig_refund_is_accepted h m mode tx cs i w : (max <= 256)%nat -> valid_multi good_key m ->
    ht_refund h = DMultisig (take 20 (hash (enc_challenge (ms_challenge m)))) ->
    complete_refund max hash verify m mode tx cs i = Ok w -> verify_htlc true h tx w cs i = Ok tt.
  Proof.
    intros M V E H. unfold complete_refund in H. apply rbind_ok in H as (w0 & H0 & H).
    pose proof (C76_completed_is_accepted _ _ _ _ _ _ _ _ _ _ V H0) as A. rewrite <- E in A.
    unfold complete_input in H0. apply rbind_ok in H0 as (x & _ & H0). apply rbind_ok in H0 as ([] & Hs & H0).
    apply rbind_ok in H0 as (r & Hr & H0). destruct r; try discriminate H0. injection H0 as <-. injection H as <-.
    apply err_iff in Hs. apply structure_ok in Hs as (U & _ & L).
    apply C77_spent_exactly. right. split; [done|]. apply standard_ok in A as (msg & Hh & A).
    exists mode, (enc_multi m), msg. split; [done|]. split; [|done]. unfold usable in U.
    apply (multi_is_blob good_key); [done|clear - L U M; lia|clear - U M; lia].
  Qed.
  (** As long as the lock is not over, taking the money shows a secret on the chain with which any other contract with the same
      hash can be claimed by the owner of its spend key: the second half of a swap *)
  Theorem C77_claim_shows_secret h tx w cs i : scheme -> verify_htlc false h tx w cs i = Ok tt ->
    forall h' key mode tx' cs' i' a msg unlocked, ht_secret h' = ht_secret h -> owner hash public_of key (ht_spend h') ->
      signature_hash hash mode tx' cs' i' = Ok msg ->
      exists w', sign_claim key mode (ht_spend h') tx' cs' i' (shown_secret w) a = Ok w' /\ verify_htlc unlocked h' tx' w' cs' i' = Ok tt.
  Proof.
    intros Sc V h' key mode tx' cs' i' a msg unlocked E O Hh. apply C77_spent_exactly in V as [(secret & m & raw & x & -> & B & L & Hs & _)|[[=] _]].
    assert (shown_secret (WStandard m (x00 :: secret ++ enc_blob raw)) = secret) as ->.
    { cbn [shown_secret drop]. rewrite skipn_O. unfold is_bytes in L. rewrite <- L. apply take_app. }
    apply (C77_claim_is_accepted unlocked h' key mode tx' cs' i' a secret msg); [done|done|congruence|done|done].
  Qed.
  (** A multisig authorization that is being collected survives being stored in the witness of either kind of output *)
  Theorem C77_collected_signatures_survive m utxo raw : (length (ms_signatures m) <= 256)%nat -> (length (ch_keys (ms_challenge m)) <= 256)%nat ->
    valid_multi good_key m -> encode_multi_spend m utxo = WStandard x01 raw -> decode_multi_spend good_key raw utxo = Ok m.
  Proof.
    intros L1 L2 V [= <-]. pose proof (multi_is_blob good_key m V L1 L2) as B.
    pose proof (decode_all_reads _ _ _ m (multi_reads good_key) V) as D.
    unfold decode_multi_spend. destruct utxo as [o|]; [|by rewrite D]. destruct (is_htlc o); [|by rewrite D].
    rewrite (proj2 (decode_all_codec _ _ _ _ (HtlcRefund (enc_multi m)) htlc_codec)) by done. cbn [ok_or rbind]. by rewrite D.
  Qed.
  (** What has been collected is, once it is complete, what the checker of such an output accepts: a refund for a contract, the plain
      authorization for anything else *)
  Theorem C77_collected_is_what_is_checked m tx cs i w : complete_input max hash verify m x01 tx cs i = Ok w ->
    (forall v h, complete_refund max hash verify m x01 tx cs i = Ok (encode_multi_spend m (Some (OHtlc v h)))) /\
    (forall utxo, (forall v h, utxo <> Some (OHtlc v h)) -> encode_multi_spend m utxo = w).
  Proof.
    intros E. assert (w = WStandard x01 (enc_multi m)) as ->.
    { unfold complete_input in E. apply rbind_ok in E as (x & _ & E). apply rbind_ok in E as ([] & _ & E). apply rbind_ok in E as (r & _ & E). destruct r; try discriminate E. by injection E as <-. }
    split.
    - intros v h. unfold complete_refund. by rewrite E.
    - intros [o|] N; [|done]. unfold encode_multi_spend. destruct o; try done. exfalso. by eapply N.
  Qed.
  (** A claim is never taken for a collection of signatures *)
  Theorem C77_claim_is_no_collection v h secret raw : valid_htlc_spend (HtlcClaim secret raw) ->
    decode_multi_spend good_key (x00 :: secret ++ enc_blob raw) (Some (OHtlc v h)) = Err EInvalidAuthorization.
  Proof.
    intros V. unfold decode_multi_spend. cbn [is_htlc]. change (x00 :: secret ++ enc_blob raw) with (enc_htlc_spend (HtlcClaim secret raw)).
    by rewrite (proj2 (decode_all_codec _ _ _ _ (HtlcClaim secret raw) htlc_codec)).
  Qed.
  Theorem C77_no_panic unlocked h tx w cs i key mode d secret a : verify_htlc unlocked h tx w cs i <> Panic /\
    (signature_hash hash mode tx cs i <> Panic -> sign_claim key mode d tx cs i secret a <> Panic /\ sign_refund key mode d tx cs i a <> Panic).
  Proof.
    split.
    - destruct w as [x|m raw]; cbn [HtlcModel.verify_htlc]; [done|]. destruct (decode_all dec_htlc_spend raw) as [[s r|r]|]; cbn [ok_or rbind]; [| |done].
      + destruct (same _ _); cbn [ensure rbind]; [|done]. pose proof (C76_no_panic max good_key hash verify (ht_spend h) tx (WStandard m r) cs i) as P.
        by destruct (verify_signature _ _ _ _ _ _ _ _).
      + destruct unlocked; cbn [ensure rbind]; [|done]. pose proof (C76_no_panic max good_key hash verify (ht_refund h) tx (WStandard m r) cs i) as P.
        by destruct (verify_signature _ _ _ _ _ _ _ _).
    - intros N. unfold HtlcModel.sign_claim, HtlcModel.sign_refund, sign_input. destruct (signature_hash hash mode tx cs i) as [msg| |]; [|done..]. cbn [rmap_err rbind].
      destruct d; cbn [sign_raw rbind]; try done; destruct (same _ _); done.
  Qed.
End HtlcProperties.

(** ** A contract with the toy scheme of C75: key 0a may claim with a secret whose first 20 bytes are the hash, key 0b gets a refund *)
Definition toy_160 (s : bytes) : bytes := take 20 s.
Definition toy_secret : bytes := replicate 32 x42.
Definition toy_htlc : htlc := Htlc (toy_160 toy_secret) (DKey (toy_key x0a)) (LForBlocks 10) (DKeyHash (key_hash toy_hash (toy_key x0b))).
Definition toy_claim (b : byte) (secret : bytes) : res auth_error witness :=
  sign_claim toy_hash toy_key toy_sign b x01 (DKey (toy_key b)) (of_transaction toy_tx) [MNone] 0 secret tt.
Definition toy_refund : res auth_error witness :=
  sign_refund toy_hash toy_key toy_sign x0b x01 (DKeyHash (key_hash toy_hash (toy_key x0b))) (of_transaction toy_tx) [MNone] 0 tt.
Definition toy_check (unlocked : bool) (m : res auth_error witness) : res htlc_error unit :=
  match m with Ok w => verify_htlc 32 (fun _ => true) toy_hash toy_160 toy_verify unlocked toy_htlc (of_transaction toy_tx) w [MNone] 0 | _ => Panic end.
Example C77_example : owner toy_hash toy_key x0a (ht_spend toy_htlc) /\ owner toy_hash toy_key x0b (ht_refund toy_htlc) /\
  (exists msg, signature_hash toy_hash x01 (of_transaction toy_tx) [MNone] 0 = Ok msg) /\
  toy_check false (toy_claim x0a toy_secret) = Ok tt /\
  toy_check false (toy_claim x0a (replicate 32 x43)) = Err HHashMismatch /\
  toy_check false (toy_claim x0c toy_secret) = Err (HSignature EVerificationFailed) /\
  toy_check false toy_refund = Err HLocked /\ toy_check true toy_refund = Ok tt.
Proof. split; [done|]. split; [done|]. split; [eexists; vm_compute; reflexivity|]. vm_compute. done. Qed.

(** A key that asks for no signature ("anyone can spend") cannot be used at all in a contract, since the witness of a contract
    always carries one and a superfluous signature is refused; nothing stops such a contract from being made *)
Theorem C77_anyone_can_be_the_spender_refuted : ~ (forall h secret tx i cs, ht_spend h = DAnyone -> ht_refund h = DAnyone -> toy_160 secret = ht_secret h ->
  exists w, verify_htlc 32 (fun _ => true) toy_hash toy_160 toy_verify true h tx w cs i = Ok tt).
Proof.
  intros H. destruct (H (Htlc (toy_160 toy_secret) DAnyone (LForBlocks 10) DAnyone) toy_secret (of_transaction toy_tx) 0%nat [MNone] eq_refl eq_refl eq_refl) as [w X].
  apply C77_spent_exactly in X as [(s & m & r & msg & _ & _ & _ & _ & _ & X)|[_ (m & r & msg & _ & _ & _ & X)]]; done.
Qed.

Print Assumptions C77_spent_exactly.
Print Assumptions C77_claim_is_accepted.
Print Assumptions C77_refund_waits.
Print Assumptions C77_multisig_refund_is_accepted.
Print Assumptions C77_claim_shows_secret.
Print Assumptions C77_collected_signatures_survive.
Print Assumptions C77_no_panic.
Print Assumptions C77_anyone_can_be_the_spender_refuted.
Print Assumptions C77_collected_is_what_is_checked.
Print Assumptions C77_claim_is_no_collection.
