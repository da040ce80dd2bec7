(** C75: who can spend from a multisig and how its signatures are collected. C76: which witness is accepted for a destination. *)
From Coq Require Import Strings.Byte Sorted.
From Verif Require Import Base CodecModel CodecSpec CodecProofs WireModel WireSpec WireProofs ConstraintsProofs SighashModel SighashSpec SighashProofs
  AuthModel AuthSpec AuthProofs.
Local Open Scope N_scope.

Section AuthProperties.
  Context (max : nat) (good_key good_vrf : bytes -> bool) (hash : bytes -> bytes)
    (verify : bytes -> bytes -> bytes -> bool) {private aux : Type} (public_of : private -> bytes) (sign : private -> bytes -> aux -> bytes).
  (** The signature scheme: what a private key signs is verified by its public key; keys and signatures have their forms *)
  Definition scheme : Prop :=
    (forall key msg a, verify (public_of key) (sign key msg a) msg = true) /\
    (forall key msg a, is_bytes 64 (sign key msg a)) /\ (forall key, valid_key good_key (public_of key)).
  Local Notation verify_raw := (verify_raw max good_key hash verify).
  Local Notation verify_signature := (verify_signature max good_key hash verify).
  Local Notation sign_in_turn c msg := (sign_in_turn (fun i key m a => sign_multisig max verify public_of sign i key c msg m a)).
  Local Notation nobody c := (Partial (MultiSpend [] c)).

  (** A multisig is spent exactly with signatures of the required number of its keys, at different positions *)
  Theorem C75_accepted_exactly h raw msg : verify_raw (DMultisig h) raw msg = Ok tt <->
    exists m, decode_all (dec_multi good_key) raw = Some m /\ take 20 (hash (enc_challenge (ms_challenge m))) = h /\
      usable max (ms_challenge m) /\ signed_enough verify (ms_challenge m) (ms_signatures m) msg.
  Proof. apply raw_ok. Qed.

  (** As many signers as required, in whatever order they sign, arrive at a witness that is accepted *)
  Theorem C75_signing_completes c msg l : scheme -> (max <= 256)%nat -> usable max c -> valid_challenge good_key c ->
    signers public_of c l -> length l = N.to_nat (ch_min c) ->
    exists m, sign_in_turn c msg (nobody c) l = Ok (Complete m) /\
      verify_raw (DMultisig (take 20 (hash (enc_challenge c)))) (enc_multi m) msg = Ok tt.
  Proof.
    intros (W & Sz & _) M U V S L.
    destruct (in_turn max verify public_of sign W c msg l (nobody c)) as (st & E & R & C & I & G & P); try done.
    - cbn. unfold usable in U. lia.
    - constructor.
    - intros i s H. by apply elem_of_nil in H.
    - intros x _. apply not_elem_of_nil.
    - cbn [signatures_of ms_signatures length]. lia.
    - cbn [signatures_of ms_signatures] in P. rewrite app_nil_r in P.
      assert (length (ms_signatures (signatures_of st)) = N.to_nat (ch_min c)) as L' by (rewrite P, map_length; lia).
      destruct st as [m|m]; cbn [signatures_of right_status] in *; [|rewrite C in R; lia]. exists m. split; [done|].
      apply C75_accepted_exactly. exists m. rewrite C. split; [|split; [done|split; [done|split; [done|split; [by apply increasing_nodup|done]]]]].
      apply (decode_all_reads _ _ _ _ (multi_reads good_key)). split; [done|]. rewrite C. split; [|done].
      apply Forall_forall. intros [i s] H. rewrite P in H. apply elem_of_list_fmap in H as ([[j key] a] & [= -> ->] & H).
      split; [|apply Sz]. cbn [fst]. destruct S as [_ S]. apply S in H. apply lookup_lt_Some in H. unfold usable in U. unfold is_u8.
      clear - H U M. lia.
  Qed.
  (** With fewer the witness is not accepted yet, and the others can go on signing *)
  Theorem C75_fewer_are_not_enough c msg l : scheme -> usable max c -> signers public_of c l -> (length l < N.to_nat (ch_min c))%nat ->
    exists m, sign_in_turn c msg (nobody c) l = Ok (Partial m) /\ length (ms_signatures m) = length l /\
      verify_multisig max hash verify (take 20 (hash (enc_challenge c))) m msg <> Ok tt.
  Proof.
    intros (W & _ & _) U S L.
    destruct (in_turn max verify public_of sign W c msg l (nobody c)) as (st & E & R & C & I & G & P); try done.
    - cbn. unfold usable in U. lia.
    - constructor.
    - intros i s H. by apply elem_of_nil in H.
    - intros x _. apply not_elem_of_nil.
    - cbn [signatures_of ms_signatures length]. lia.
    - cbn [signatures_of ms_signatures] in P. rewrite app_nil_r in P.
      assert (length (ms_signatures (signatures_of st)) = length l) as L' by (rewrite P, map_length; lia).
      destruct st as [m|m]; cbn [signatures_of right_status] in *; [rewrite C in R; lia|]. exists m. split_and!; [done|done|].
      intros X. apply multisig_ok in X as (_ & _ & X & _); [|done]. rewrite C in X. lia.
  Qed.
  (** One more signature than required is refused when it is made *)
  Theorem C75_more_are_refused c msg l i key a : scheme -> usable max c -> signers public_of c (l ++ [(i, key, a)]) -> length l = N.to_nat (ch_min c) ->
    sign_in_turn c msg (nobody c) (l ++ [(i, key, a)]) = Err SAlreadyComplete.
  Proof.
    intros (W & _ & _) U [D S] L. rewrite map_app in D. apply NoDup_app in D as (D1 & D2 & _).
    destruct (in_turn max verify public_of sign W c msg l (nobody c)) as (st & E & R & C & I & G & P); try done.
    - cbn. unfold usable in U. lia.
    - constructor.
    - intros j s H. by apply elem_of_nil in H.
    - split; [done|]. intros j k b H. apply (S j k b). apply elem_of_app. by left.
    - intros x _. apply not_elem_of_nil.
    - cbn [signatures_of ms_signatures length]. lia.
    - cbn [signatures_of ms_signatures] in P. rewrite app_nil_r in P.
      rewrite in_turn_app, E. cbn [rbind AuthSpec.sign_in_turn].
      rewrite (complete_refuses max verify public_of sign W i key c msg); [done|done|done| |done|rewrite P, map_length; lia].
      rewrite P. rewrite elem_of_list_fmap. intros ([j s] & Ej & H). cbn [fst] in Ej. subst j.
      apply elem_of_list_fmap in H as ([[j k] b] & [= -> ->] & H).
      apply (D2 j); [apply elem_of_list_fmap; by exists (j, k, b)|by apply elem_of_list_here].
  Qed.
  (** The order in which they sign does not matter *)
  Theorem C75_order_does_not_matter c msg l l' : scheme -> usable max c -> signers public_of c l -> (length l <= N.to_nat (ch_min c))%nat ->
    l ≡ₚ l' -> sign_in_turn c msg (nobody c) l = sign_in_turn c msg (nobody c) l'.
  Proof.
    intros (W & _ & _) U S L X.
    assert (signers public_of c l') as S'.
    { destruct S as [D S]. split; [by rewrite <- X|]. intros i key a H. rewrite <- X in H. by apply (S i key a). }
    assert (length l' <= N.to_nat (ch_min c))%nat as L' by (by rewrite <- X).
    assert (right_status (nobody c)) as R0 by (cbn; unfold usable in U; lia).
    assert (increasing []) as I0 by constructor.
    destruct (in_turn max verify public_of sign W c msg l (nobody c)) as (st & E & R & C & I & G & P); try done.
    { intros i s H. by apply elem_of_nil in H. }
    { intros x _. apply not_elem_of_nil. }
    destruct (in_turn max verify public_of sign W c msg l' (nobody c)) as (st' & E' & R' & C' & I' & G' & P'); try done.
    { intros i s H. by apply elem_of_nil in H. }
    { intros x _. apply not_elem_of_nil. }
    rewrite E, E'. f_equal. rewrite <- X, <- P in P'. apply increasing_same in P'; [|done..].
    destruct st as [[m c1]|[m c1]], st' as [[m' c2]|[m' c2]]; cbn [signatures_of ms_signatures ms_challenge right_status] in *; subst; try done; lia.
  Qed.
  (** Signing and checking never panic, if the challenge given is that of the signatures so far *)
  Theorem C75_no_panic i key m msg a h : scheme -> increasing (ms_signatures m) ->
    sign_multisig max verify public_of sign i key (ms_challenge m) msg m a <> Panic /\ verify_multisig max hash verify h m msg <> Panic.
  Proof. intros (W & _ & _) I. split; [by apply sign_no_panic|apply multisig_no_panic]. Qed.

  (** ** C76 *)
  (** An input with this destination is accepted exactly with a witness that entitles to it, over the hash of what the sighash
      type covers; one that anyone can spend exactly without a signature *)
  Theorem C76_accepted_exactly d tx w cs i : verify_signature d tx w cs i = Ok tt <->
    (exists ins, sg_inputs tx = Some ins /\ (i < length ins)%nat) /\
    (d = DAnyone /\ (exists data, w = WNone data) \/
     exists mode raw msg, w = WStandard mode raw /\ signature_hash hash mode tx cs i = Ok msg /\ entitled max good_key hash verify d raw msg).
  Proof.
    unfold AuthModel.verify_signature. destruct (sg_inputs tx) as [ins|]; cbn [ok_or rbind]; [|split; [done|by intros [(? & ? & _) _]]].
    rewrite ensure_bind, Nat.ltb_lt. split.
    - intros [L H]. split; [by exists ins|]. destruct d, w as [data|mode raw]; try done; try (left; split; [done|by exists data]).
      all: right; apply rbind_ok in H as (msg & Hh & H); exists mode, raw, msg.
      all: destruct (signature_hash hash mode tx cs i) as [x| |] eqn:E; cbn in Hh; try discriminate Hh; injection Hh as ->.
      all: split; [done|]; split; [done|]; by apply raw_ok.
    - intros [(ins' & [= <-] & L) [[-> [data ->]]|(mode & raw & msg & -> & Hh & X)]]; (split; [done|]); [done|].
      apply raw_ok in X. rewrite Hh. cbn [rmap_err rbind]. by destruct d.
  Qed.
  (** The owner of the key can sign, and what they sign is accepted; nobody else can sign for a key or a key hash *)
  Theorem C76_owner_signs key mode d tx cs i a msg : scheme -> signature_hash hash mode tx cs i = Ok msg ->
    (is_ok (sign_input hash public_of sign key mode d tx cs i a) <-> owner hash public_of key d).
  Proof.
    intros _ Hh. unfold sign_input. rewrite Hh. cbn [rmap_err rbind]. unfold is_ok, owner. destruct d as [|h|k|h|h]; cbn [sign_raw].
    1,4,5: split; [by intros [? ?]|done].
    - unfold key_hash. rewrite <- same_true. destruct (same _ h); cbn; split; try done; [eauto|by intros [? ?]].
    - rewrite <- (same_true k). destruct (same k _); cbn; split; try done; [eauto|by intros [? ?]].
  Qed.
  Theorem C76_signed_is_accepted key mode d tx cs i a w : scheme ->
    sign_input hash public_of sign key mode d tx cs i a = Ok w -> verify_signature d tx w cs i = Ok tt.
  Proof.
    intros (W & Sz & Vk) H. unfold sign_input in H. apply rbind_ok in H as (msg & Hh & H). apply rbind_ok in H as (raw & Hr & [= <-]).
    destruct (signature_hash hash mode tx cs i) as [x| |] eqn:E; cbn in Hh; try discriminate Hh. injection Hh as ->.
    apply C76_accepted_exactly. split.
    - unfold signature_hash, sighash_stream in E. destruct (sg_inputs tx) as [ins|]; [|done]. cbn [ok_or rbind] in E. exists ins. split; [done|].
      destruct (ins !! i) as [b|] eqn:B; [|done]. by eapply lookup_lt_Some.
    - right. exists mode, raw, msg. split; [done|]. split; [done|]. destruct d as [|h|k|h|h]; cbn in Hr; try discriminate Hr.
      + apply ensure_bind in Hr as [Hs [= <-]]. apply same_true in Hs. exists (public_of key), (sign key msg a). done.
      + apply ensure_bind in Hr as [Hs [= <-]]. apply same_true in Hs. subst k. exists (sign key msg a). done.
  Qed.
  Theorem C76_signed_text_is_accepted key d text a raw : scheme ->
    sign_text hash public_of sign key d text a = Ok raw -> verify_text max good_key hash verify d text raw = Ok tt.
  Proof.
    intros (W & Sz & Vk) Hr. unfold sign_text in Hr. unfold verify_text. apply raw_ok.
    destruct d as [|h|k|h|h]; cbn in Hr; try discriminate Hr.
    - apply ensure_bind in Hr as [Hs [= <-]]. apply same_true in Hs. exists (public_of key), (sign key (message_challenge hash text) a). done.
    - apply ensure_bind in Hr as [Hs [= <-]]. apply same_true in Hs. subst k. exists (sign key (message_challenge hash text) a). done.
  Qed.
  (** A complete multisig authorization makes an accepted witness *)
  Theorem C76_completed_is_accepted m mode tx cs i w : valid_multi good_key m ->
    complete_input max hash verify m mode tx cs i = Ok w ->
    verify_signature (DMultisig (take 20 (hash (enc_challenge (ms_challenge m))))) tx w cs i = Ok tt.
  Proof.
    intros V H. unfold complete_input in H. apply rbind_ok in H as (msg & Hh & H).
    destruct (signature_hash hash mode tx cs i) as [x| |] eqn:E; cbn in Hh; try discriminate Hh. injection Hh as ->.
    apply rbind_ok in H as ([] & Hs & H). destruct (check_structure max m) as [[]| |] eqn:S; cbn in Hs; try discriminate Hs.
    destruct (verify_is max verify m msg S) as (r & R & K). rewrite R in H. cbn [rmap_err rbind] in H.
    destruct r; try discriminate H. injection H as <-. destruct K as [G L]. apply structure_ok in S as (U & _ & _).
    apply C76_accepted_exactly. split.
    - unfold signature_hash, sighash_stream in E. destruct (sg_inputs tx) as [ins|]; [|done]. cbn [ok_or rbind] in E. exists ins. split; [done|].
      destruct (ins !! i) as [b|] eqn:B; [|done]. by eapply lookup_lt_Some.
    - right. exists mode, (enc_multi m), msg. split; [done|]. split; [done|]. exists m.
      split; [apply (decode_all_reads _ _ _ _ (multi_reads good_key) V)|]. split; [done|]. split; [done|].
      split; [done|]. split; [|done]. by apply increasing_nodup, V.
  Qed.
  (** What a signature does not vouch for can be changed without making it unacceptable *)
  Theorem C76_only_covered_parts_matter d mode raw t cs i u ds j :
    signable_input good_key good_vrf mode t cs i -> signable_input good_key good_vrf mode u ds j -> vouch_same mode t cs i mode u ds j ->
    verify_signature d (of_transaction t) (WStandard mode raw) cs i = Ok tt ->
    verify_signature d (of_transaction u) (WStandard mode raw) ds j = Ok tt.
  Proof.
    intros R R' V. rewrite !C76_accepted_exactly. intros [_ [[_ [? ?]]|(m' & raw' & msg & [= <- <-] & Hh & X)]]; [done|]. split.
    - exists (t_inputs u). split; [done|]. apply R'.
    - right. exists mode, raw, msg. split; [done|]. split; [|done]. unfold signature_hash in *.
      by rewrite <- (stream_same _ _ _ _ _ _ _ _ _ R R' V).
  Qed.
  Theorem C76_no_panic d tx w cs i : verify_signature d tx w cs i <> Panic.
  Proof.
    unfold AuthModel.verify_signature. destruct (sg_inputs tx) as [ins|] eqn:I; cbn [ok_or rbind]; [|done].
    destruct (i <? length ins)%nat; cbn [ensure rbind]; [|done].
    assert (forall mode, signature_hash hash mode tx cs i <> Panic) as N.
    { intros mode. unfold signature_hash, sighash_stream. rewrite I. cbn [ok_or rbind]. destruct (ins !! i) as [b|] eqn:B; cbn [ok_or rbind]; [|done].
      unfold stream_inputs. destruct (length cs =? length ins)%nat eqn:L; cbn [ensure rbind rmap]; [|done]. apply Nat.eqb_eq in L.
      apply lookup_lt_Some in B. rewrite (proj2 (Nat.ltb_lt _ _) B). cbn [ensure rbind].
      rewrite <- L in B. destruct (lookup_lt_is_Some_2 _ _ B) as [c ->]. unfold stream_outputs.
      destruct (inputs_of mode), (outputs_of mode); cbn [expect rbind rmap]; try done; destruct (_ !! i); done. }
    assert (forall mode raw, rbind (rmap_err ESighash (signature_hash hash mode tx cs i)) (fun h => verify_raw d raw h) <> Panic) as K.
    { intros mode raw. specialize (N mode). destruct (signature_hash hash mode tx cs i); cbn; [apply raw_no_panic|done..]. }
    destruct d, w; try done; apply K.
  Qed.
End AuthProperties.

(** ** A toy signature scheme for the cases below: a private key is a byte, repeated in the public key and in the signatures *)
Definition toy_key (b : byte) : bytes := x02 :: replicate 32 b.
Definition toy_sign (b : byte) (msg : bytes) (_ : unit) : bytes := replicate 64 b.
Definition toy_verify (k s msg : bytes) : bool := same s (replicate 64 (nth 1 k x00)).
Definition toy_hash (s : bytes) : bytes := take 32 (s ++ replicate 32 x00).
Definition toy_keys : list bytes := [toy_key x0a; toy_key x0b; toy_key x0c].
Definition toy_challenge : challenge := Challenge 2 toy_keys.
Definition toy_spend : multi_spend := MultiSpend [(0, toy_sign x0a [] tt); (2, toy_sign x0c [] tt)] toy_challenge.
(** Two of three keys sign, in either order *)
Example C75_example : scheme (fun _ => true) toy_verify toy_key toy_sign /\
  usable 32 toy_challenge /\ valid_challenge (fun _ => true) toy_challenge /\
  signers toy_key toy_challenge [(2, x0c, tt); (0, x0a, tt)].
Proof.
  split.
  - split_and!.
    + intros key msg a. by destruct key.
    + done.
    + done.
  - split; [unfold usable; cbn; lia|]. split.
    + split; [done|]. split; [done|]. repeat constructor; done.
    + split.
      * cbn. apply NoDup_cons. split; [by rewrite elem_of_list_singleton|apply NoDup_singleton].
      * intros i key a H. repeat (apply elem_of_cons in H as [H|H]; [by injection H as -> -> ->|]). by apply elem_of_nil in H.
Qed.
Example C75_example_runs :
  sign_in_turn (fun i key m a => sign_multisig 32 toy_verify toy_key toy_sign i key toy_challenge [] m a) (Partial (MultiSpend [] toy_challenge))
    [(2, x0c, tt); (0, x0a, tt)] = Ok (Complete toy_spend) /\
  verify_raw 32 (fun _ => true) toy_hash toy_verify (DMultisig (take 20 (toy_hash (enc_challenge toy_challenge)))) (enc_multi toy_spend) [] = Ok tt.
Proof. vm_compute. done. Qed.

(** The keys of a multisig need not differ, so one signature scheme's key can count for several *)
Theorem C75_different_keys_refuted : ~ (forall h raw msg m, verify_raw 32 (fun _ => true) toy_hash toy_verify (DMultisig h) raw msg = Ok tt ->
  decode_all (dec_multi (fun _ => true)) raw = Some m ->
  forall i s i' s' k, (i, s) ∈ ms_signatures m -> (i', s') ∈ ms_signatures m ->
    ch_keys (ms_challenge m) !! N.to_nat i = Some k -> ch_keys (ms_challenge m) !! N.to_nat i' = Some k -> i = i').
Proof.
  intros H. pose (c := Challenge 2 [toy_key x0a; toy_key x0a]).
  pose (m := MultiSpend [(0, toy_sign x0a [] tt); (1, toy_sign x0a [] tt)] c).
  specialize (H (take 20 (toy_hash (enc_challenge c))) (enc_multi m) [] m).
  assert (0 = 1) as E; [|discriminate E].
  apply (H ltac:(vm_compute; reflexivity) ltac:(vm_compute; reflexivity) 0 (toy_sign x0a [] tt) 1 (toy_sign x0a [] tt) (toy_key x0a));
    [apply elem_of_list_here|apply elem_of_list_further, elem_of_list_here|vm_compute; reflexivity|vm_compute; reflexivity].
Qed.
(** The signatures in a witness can be written in any order, so one authorization has several encodings, all accepted: anyone
    can change the witness of a transaction on its way *)
Definition toy_swapped : bytes :=
  enc_vec enc_pair [(2, toy_sign x0c [] tt); (0, toy_sign x0a [] tt)] ++ enc_challenge toy_challenge.
Theorem C75_one_encoding_refuted : ~ (forall d raw raw' msg m,
  verify_raw 32 (fun _ => true) toy_hash toy_verify d raw msg = Ok tt -> verify_raw 32 (fun _ => true) toy_hash toy_verify d raw' msg = Ok tt ->
  decode_all (dec_multi (fun _ => true)) raw = Some m -> decode_all (dec_multi (fun _ => true)) raw' = Some m -> raw = raw').
Proof.
  intros H. specialize (H (DMultisig (take 20 (toy_hash (enc_challenge toy_challenge)))) (enc_multi toy_spend) toy_swapped [] toy_spend
    ltac:(vm_compute; reflexivity) ltac:(vm_compute; reflexivity) ltac:(vm_compute; reflexivity) ltac:(vm_compute; reflexivity)).
  vm_compute in H. discriminate H.
Qed.
(** Signing panics when it is given another challenge than the one the signatures belong to *)
Theorem C75_no_panic_for_any_challenge_refuted : ~ (forall i key c msg m, increasing (ms_signatures m) ->
  sign_multisig 32 toy_verify toy_key toy_sign i key c msg m tt <> Panic).
Proof.
  intros H. apply (H 1 x0c (Challenge 2 [toy_key x0a; toy_key x0c]) [] (MultiSpend [] toy_challenge)); [constructor|].
  vm_compute. reflexivity.
Qed.

(** A key hash: signing and checking an input of a transaction *)
Definition toy_tx : transaction := Transaction 0 [IUtxo (Outpoint (SrcTx (replicate 32 x11)) 0)] [OTransfer (VCoin 10) DAnyone].
Example C76_example : exists w,
  sign_input toy_hash toy_key toy_sign x0a x01 (DKeyHash (key_hash toy_hash (toy_key x0a))) (of_transaction toy_tx) [MNone] 0 tt = Ok w /\
  verify_signature 32 (fun _ => true) toy_hash toy_verify (DKeyHash (key_hash toy_hash (toy_key x0a))) (of_transaction toy_tx) w [MNone] 0 = Ok tt /\
  verify_signature 32 (fun _ => true) toy_hash toy_verify (DKeyHash (key_hash toy_hash (toy_key x0b))) (of_transaction toy_tx) w [MNone] 0 = Err EKeyHashMismatch.
Proof. eexists. vm_compute. done. Qed.

Print Assumptions C75_accepted_exactly.
Print Assumptions C75_signing_completes.
Print Assumptions C75_fewer_are_not_enough.
Print Assumptions C75_more_are_refused.
Print Assumptions C75_order_does_not_matter.
Print Assumptions C75_no_panic.
Print Assumptions C75_different_keys_refuted.
Print Assumptions C75_one_encoding_refuted.
Print Assumptions C75_no_panic_for_any_challenge_refuted.
Print Assumptions C76_accepted_exactly.
Print Assumptions C76_owner_signs.
Print Assumptions C76_signed_is_accepted.
Print Assumptions C76_signed_text_is_accepted.
Print Assumptions C76_completed_is_accepted.
Print Assumptions C76_only_covered_parts_matter.
Print Assumptions C76_no_panic.
