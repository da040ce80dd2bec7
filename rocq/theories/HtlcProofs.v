(** Proofs about the witnesses of hashed timelock contracts. *)
From Coq Require Import Strings.Byte Sorted.
From Verif Require Import Base CodecModel CodecSpec CodecProofs WireModel WireSpec WireProofs ConstraintsProofs SighashModel SighashSpec SighashProofs
  AuthModel AuthSpec AuthProofs AuthProperties HtlcModel HtlcSpec.
Local Open Scope N_scope.

Lemma err_iff {E E' A} (f : E -> E') (m : res E A) a : rmap_err f m = Ok a <-> m = Ok a.
Proof. destruct m; cbn; split; intros [= <-] || intros H; done. Qed.
Lemma htlc_codec : codec valid_htlc_spend enc_htlc_spend dec_htlc_spend.
Proof.
  destruct (array_codec' 32) as [R X], blob_codec as [Rb Xb]. split.
  - intros [s r|r] rest V; unfold dec_htlc_spend, enc_htlc_spend, dbind; cbn [dec_byte app].
    + destruct V as [V1 V2]. rewrite <- app_assoc, R by done. by rewrite Rb by done.
    + by rewrite Rb.
  - intros input a rest H. unfold dec_htlc_spend in H. apply dbind_some in H as (t & r & H1 & H). destruct input as [|b input]; [done|].
    injection H1 as -> ->. destruct t; try discriminate H.
    + apply dbind_some in H as (s & r1 & H1 & H). apply dbind_some in H as (q & r2 & H2 & H). apply dret_some in H as [-> ->].
      apply X in H1 as [V1 ->]. apply Xb in H2 as [V2 ->]. split; [done|]. cbn. by rewrite <- app_assoc.
    + apply dbind_some in H as (q & r2 & H2 & H). apply dret_some in H as [-> ->]. apply Xb in H2 as [V2 ->]. done.
Qed.

Lemma short_compact n : n < 2 ^ 30 -> (length (enc_compact n) <= 4)%nat.
Proof.
  intros L. unfold enc_compact. destruct (n <? 2 ^ 6); [rewrite le_length; lia|]. destruct (n <? 2 ^ 14); [rewrite le_length; lia|].
  rewrite (proj2 (N.ltb_lt n (2 ^ 30))) by done. rewrite le_length. lia.
Qed.
Lemma concat_bound {A} (e : A -> bytes) l n : Forall (fun a => (length (e a) <= n)%nat) l -> (length (concat (map e l)) <= n * length l)%nat.
Proof. induction 1 as [|a l H _ IH]; cbn [map concat length]; [lia|]. rewrite app_length. lia. Qed.
Lemma multi_is_blob good_key m : valid_multi good_key m -> (length (ms_signatures m) <= 256)%nat -> (length (ch_keys (ms_challenge m)) <= 256)%nat ->
  is_blob (enc_multi m).
Proof.
  intros (_ & Vs & Vm & _ & Vk) L1 L2. unfold is_blob, enc_multi, enc_btree, enc_challenge, enc_vec. rewrite !app_length.
  assert (length (concat (map enc_pair (ms_signatures m))) <= 66 * length (ms_signatures m))%nat.
  { apply concat_bound. eapply Forall_impl; [exact Vs|]. intros [k s] [_ V]. unfold is_bytes in V. cbn in V |- *. unfold enc_array. lia. }
  assert (length (concat (map enc_key (ch_keys (ms_challenge m)))) <= 34 * length (ch_keys (ms_challenge m)))%nat.
  { apply concat_bound. eapply Forall_impl; [exact Vk|]. intros k [V _]. cbn. unfold enc_array, is_bytes in *. lia. }
  pose proof (short_compact (N.of_nat (length (ms_signatures m))) ltac:(lia)).
  pose proof (short_compact (N.of_nat (length (ch_keys (ms_challenge m)))) ltac:(lia)).
  unfold enc_u8, enc_uint. rewrite le_length. clear - H H0 H1 H2 L1 L2. lia.
Qed.

Lemma key_spend_blob good_key k s : valid_key good_key k -> is_bytes 64 s -> is_blob (enc_key_hash_spend k s).
Proof. intros [V _] L. unfold is_blob, enc_key_hash_spend, enc_key, enc_signature, enc_array, is_bytes in *. rewrite app_length. cbn [length]. lia. Qed.
Lemma signature_blob s : is_bytes 64 s -> is_blob (enc_signature s).
Proof. intros L. unfold is_blob, enc_signature, enc_array, is_bytes in *. cbn [length]. lia. Qed.

Section HtlcProofs.
  Context (max : nat) (good_key : bytes -> bool) (hash hash160 : bytes -> bytes)
    (verify : bytes -> bytes -> bytes -> bool) {private aux : Type} (public_of : private -> bytes) (sign : private -> bytes -> aux -> bytes).
  Local Notation verify_htlc := (verify_htlc max good_key hash hash160 verify).
  Local Notation verify_signature := (verify_signature max good_key hash verify).
  Local Notation claims := (claims max good_key hash hash160 verify).
  Local Notation refunds := (refunds max good_key hash verify).
  Local Notation entitled := (entitled max good_key hash verify).

  Lemma standard_ok d tx mode raw cs i : verify_signature d tx (WStandard mode raw) cs i = Ok tt <->
    exists msg, signature_hash hash mode tx cs i = Ok msg /\ entitled d raw msg.
  Proof.
    rewrite C76_accepted_exactly. split.
    - intros [_ [[_ [? ?]]|(m & r & msg & [= <- <-] & ? & ?)]]; [done|]. by exists msg.
    - intros (msg & Hh & He). split; [|right; by exists mode, raw, msg].
      unfold signature_hash, sighash_stream in Hh. destruct (sg_inputs tx) as [ins|]; [|done]. cbn [ok_or rbind] in Hh. exists ins. split; [done|].
      destruct (ins !! i) as [b|] eqn:B; [|done]. by eapply lookup_lt_Some.
  Qed.
  Lemma htlc_ok unlocked h tx w cs i : verify_htlc unlocked h tx w cs i = Ok tt <->
    (exists secret, claims h secret w (fun m => signature_hash hash m tx cs i)) \/
    unlocked = true /\ refunds h w (fun m => signature_hash hash m tx cs i).
  Proof.
    destruct w as [d|mode raw]; cbn [HtlcModel.verify_htlc].
    - split; [done|]. intros [(s & ? & ? & ? & ? & _)|[_ (? & ? & ? & ? & _)]]; done.
    - destruct (decode_all dec_htlc_spend raw) as [s|] eqn:D; cbn [ok_or rbind].
      + apply (decode_all_codec _ _ _ _ _ htlc_codec) in D as [V ->]. destruct s as [secret r|r].
        * destruct V as [V1 V2]. rewrite ensure_bind, err_iff, standard_ok, same_true. split.
          -- intros (E & msg & Hh & He). left. exists secret, mode, r, msg. by split_and!.
          -- intros [(s' & m' & r' & msg & [= <- E] & B & L & Hs & Hh & He)|[_ (m' & r' & msg & E & _)]]; [|discriminate E].
             unfold enc_array in E. apply app_inj_1 in E as [-> E]; [|unfold is_bytes in *; congruence].
             rewrite <- (app_nil_r (enc_blob r)), <- (app_nil_r (enc_blob r')) in E.
             apply (codec_inj _ _ _ _ _ _ _ (proj1 blob_codec)) in E as [-> _]; [|done..]. split; [done|]. by exists msg.
        * rewrite ensure_bind, err_iff, standard_ok. split.
          -- intros (-> & msg & Hh & He). right. split; [done|]. exists mode, r, msg. by split_and!.
          -- intros [(s' & m' & r' & msg & E & _)|[U (m' & r' & msg & [= <- E] & B & Hh & He)]]; [discriminate E|].
             rewrite <- (app_nil_r (enc_blob r)), <- (app_nil_r (enc_blob r')) in E.
             apply (codec_inj _ _ _ _ _ _ _ (proj1 blob_codec)) in E as [-> _]; [|done..]. split; [done|]. by exists msg.
      + split; [done|]. intros X. exfalso.
        assert (exists s, valid_htlc_spend s /\ raw = enc_htlc_spend s) as (s & V & ->).
        { destruct X as [(s & m' & r' & msg & [= _ ->] & B & L & _)|[_ (m' & r' & msg & [= _ ->] & B & _)]];
            [by exists (HtlcClaim s r')|by exists (HtlcRefund r')]. }
        rewrite (proj2 (decode_all_codec _ _ _ _ s htlc_codec)) in D; done.
  Qed.
  Lemma signed_raw key mode d tx cs i a w : scheme good_key verify public_of sign ->
    sign_input hash public_of sign key mode d tx cs i a = Ok w -> exists raw, w = WStandard mode raw /\ is_blob raw /\
      verify_signature d tx (WStandard mode raw) cs i = Ok tt.
  Proof.
    intros Sc H. pose proof (C76_signed_is_accepted max _ _ _ _ _ _ _ _ _ _ _ _ _ Sc H) as A. destruct Sc as (_ & Sz & Vk).
    unfold sign_input in H. apply rbind_ok in H as (msg & _ & H). apply rbind_ok in H as (raw & Hr & [= <-]).
    exists raw. split; [done|]. split; [|done]. destruct d; cbn in Hr; try discriminate Hr; apply ensure_bind in Hr as [_ [= <-]].
    - eapply key_spend_blob; [apply Vk|apply Sz].
    - apply signature_blob, Sz.
  Qed.
End HtlcProofs.
