(** Every encoder of WireModel.v is lossless and unambiguous. *)
From Coq Require Import Strings.Byte.
From Verif Require Import Base CodecModel CodecSpec CodecProofs WireModel WireSpec.
Local Open Scope N_scope.

Lemma bind_reads {A B} (valid : A -> Prop) e d (k : A -> decoder B) a r :
  codec valid e d -> valid a -> dbind d k (e a ++ r) = k a r.
Proof. intros [R _] V. unfold dbind. by rewrite R. Qed.
Lemma bind_reads_byte {B} (k : byte -> decoder B) b r : dbind dec_byte k (b :: r) = k b r.
Proof. done. Qed.
Lemma bind_reads_tag {B} (k : unit -> decoder B) t r : dbind (dec_tag t) k (t :: r) = k tt r.
Proof. unfold dbind, dec_tag, dbind. cbn. by destruct t. Qed.
Lemma bind_guard {B} (k : unit -> decoder B) b r : b = true -> dbind (dguard b) k r = k tt r.
Proof. by intros ->. Qed.
Lemma bind_exact {A B} (valid : A -> Prop) e d (k : A -> decoder B) i b r :
  codec valid e d -> dbind d k i = Some (b, r) -> exists a r', valid a /\ i = e a ++ r' /\ k a r' = Some (b, r).
Proof.
  intros [_ X] H. apply dbind_some in H as (a & r' & H1 & H2). apply X in H1 as [V ->]. by exists a, r'.
Qed.
Lemma bind_exact_byte {B} (k : byte -> decoder B) i b r :
  dbind dec_byte k i = Some (b, r) -> exists a r', i = a :: r' /\ k a r' = Some (b, r).
Proof. intros H. destruct i as [|a i]; [done|]. by exists a, i. Qed.
Lemma bind_exact_tag {B} (k : unit -> decoder B) t i b r :
  dbind (dec_tag t) k i = Some (b, r) -> exists r', i = t :: r' /\ k tt r' = Some (b, r).
Proof.
  intros H. apply dbind_some in H as ([] & r' & H1 & H2). apply (proj2 (tag_codec t)) in H1 as [_ ->]. by exists r'.
Qed.
Lemma bind_exact_guard {B} (k : unit -> decoder B) g i b r :
  dbind (dguard g) k i = Some (b, r) -> g = true /\ k tt i = Some (b, r).
Proof. intros H. apply dbind_some in H as ([] & r' & H1 & H2). by apply dguard_some in H1 as [-> ->]. Qed.

Create HintDb codecs.
Local Arguments enc_amount : simpl never.
Local Arguments enc_u64c : simpl never.
Local Arguments enc_id : simpl never.
Local Arguments enc_hash20 : simpl never.
Local Arguments enc_u8 : simpl never.
Local Arguments enc_u32 : simpl never.
Local Arguments enc_blob : simpl never.
Local Arguments enc_per_thousand : simpl never.
Local Arguments enc_data_or_none : simpl never.
Local Arguments enc_key : simpl never.
Local Arguments enc_vrf_key : simpl never.
Local Arguments enc_signature : simpl never.
Local Arguments enc_vrf_return : simpl never.
Local Arguments enc_destination : simpl never.
Local Arguments enc_timelock : simpl never.
Local Arguments enc_metadata : simpl never.
Local Arguments enc_token_data : simpl never.
Local Arguments enc_value : simpl never.
Local Arguments enc_pool_data : simpl never.
Local Arguments enc_supply : simpl never.
Local Arguments enc_yes_no : simpl never.
Local Arguments enc_token_issuance : simpl never.
Local Arguments enc_htlc : simpl never.
Local Arguments enc_order_data : simpl never.
Local Arguments enc_output : simpl never.
Local Arguments enc_source : simpl never.
Local Arguments enc_outpoint : simpl never.
Local Arguments enc_command : simpl never.
Local Arguments enc_order_command : simpl never.
Local Arguments enc_input : simpl never.
Local Arguments enc_transaction : simpl never.
Local Arguments enc_witness : simpl never.
Local Arguments enc_signed : simpl never.
Local Arguments enc_consensus : simpl never.
Local Arguments enc_header : simpl never.
Local Arguments enc_signed_header : simpl never.
Local Arguments enc_block : simpl never.
Local Arguments enc_compact : simpl never.
Local Arguments enc_vec : simpl never.
Local Arguments enc_option : simpl never.
Local Arguments enc_byte : simpl never.
Local Arguments enc_array : simpl never.
Local Arguments enc_uint : simpl never.
Ltac codec_of := solve [eauto 3 with codecs].
(** Runs a decoder on the encoding of a known value *)
Ltac step_read :=
  match goal with
  | |- dbind dec_byte _ (_ :: _) = _ => rewrite bind_reads_byte
  | |- dbind (dec_tag _) _ (_ :: _) = _ => rewrite bind_reads_tag
  | |- dbind (dguard _) _ _ = _ => rewrite bind_guard; [|first [done|assumption|apply N.leb_le; lia|by apply Nat.eqb_eq]]
  | |- dbind _ _ (_ ++ _) = _ => erewrite bind_reads; [|codec_of|eassumption]
  | |- dret _ _ = _ => unfold dret
  end; cbv beta; rewrite <- ?app_assoc.
Ltac reads := rewrite <- ?app_assoc, <- ?app_comm_cons; rewrite <- ?app_assoc; cbn [app]; repeat step_read; try reflexivity.
(** Takes a successful run of a decoder apart *)
Ltac step_exact H :=
  match type of H with
  | dbind dec_byte _ _ = _ => let a := fresh "t" in let r := fresh "r" in
      apply bind_exact_byte in H as (a & r & -> & H); cbv beta in H
  | dbind (dec_tag _) _ _ = _ => let r := fresh "r" in apply bind_exact_tag in H as (r & -> & H); cbv beta in H
  | dbind (dguard _) _ _ = _ => let G := fresh "G" in apply bind_exact_guard in H as [G H]; cbv beta in H
  | dbind _ _ _ = _ => let a := fresh "a" in let r := fresh "r" in let V := fresh "V" in
      eapply bind_exact in H as (a & r & V & -> & H); [|codec_of]; cbv beta in H
  | dret _ _ = _ => apply dret_some in H as [-> ->]
  | dfail _ = _ => discriminate H
  | match ?t with _ => _ end _ = _ => is_var t; destruct t; try discriminate H
  end.
Ltac exacts H := repeat step_exact H.
Ltac finish_exact := split; [solve [repeat first [done | split]]|cbn [app]; rewrite <- ?app_assoc; cbn [app]; rewrite <- ?app_assoc; cbn [app]; rewrite <- ?app_assoc; done].

Lemma u128_codec : codec is_u128 enc_compact (dec_compact 16).
Proof. apply (compact_codec 16). lia. Qed.
Lemma amount_codec : codec is_u128 enc_amount dec_amount.
Proof. apply u128_codec. Qed.
Lemma u64c_codec : codec is_u64 enc_u64c dec_u64c.
Proof. apply (compact_codec 8). lia. Qed.
Lemma id_codec : codec (is_bytes 32) enc_id dec_id.
Proof. apply array_codec. Qed.
Lemma hash20_codec : codec (is_bytes 20) enc_hash20 dec_hash20.
Proof. apply array_codec. Qed.
Lemma u8_codec : codec is_u8 enc_u8 dec_u8.
Proof. apply (uint_codec 1). Qed.
Lemma u32_codec : codec is_u32 enc_u32 dec_u32.
Proof. apply (uint_codec 4). Qed.
Lemma u128_fixed_codec : codec is_u128 (enc_uint 16) (dec_uint 16).
Proof. apply (uint_codec 16). Qed.
Lemma blob_codec : codec is_blob enc_blob dec_blob.
Proof.
  destruct (vec_codec _ _ _ byte_codec) as [R X]. split.
  - intros a r H. apply R. split; [done|]. by apply Forall_true.
  - intros i a r H. apply X in H as [[H _] E]. done.
Qed.
Lemma array_codec' n : codec (is_bytes n) enc_array (dec_array n).
Proof. apply array_codec. Qed.
Lemma uint2_codec : codec (fun v => v < 2 ^ 16) (enc_uint 2) (dec_uint 2).
Proof. apply (uint_codec 2). Qed.
Global Hint Resolve u128_codec amount_codec u64c_codec id_codec hash20_codec u8_codec u32_codec u128_fixed_codec blob_codec
  array_codec' uint2_codec vec_codec option_codec : codecs.

Lemma per_thousand_codec : codec (fun v => v <= 1000) enc_per_thousand dec_per_thousand.
Proof.
  split.
  - intros v r H. unfold enc_per_thousand, dec_per_thousand.
    erewrite bind_reads; [|apply uint2_codec|]; [|cbv beta; change (2 ^ 16) with 65536; lia]. cbv beta. reads.
  - intros i v r H. unfold dec_per_thousand in H. exacts H. apply N.leb_le in G. done.
Qed.
Lemma data_or_none_codec : codec is_data_or_none enc_data_or_none dec_data_or_none.
Proof.
  split.
  - intros [b|] r H; unfold dec_data_or_none, enc_data_or_none.
    + destruct H as [Hn H]. reads. by destruct b.
    + assert (is_blob []) by (unfold is_blob; cbn; lia). reads.
  - intros i o r H. unfold dec_data_or_none in H. exacts H. destruct a as [|x a]; cbn; [done|]. done.
Qed.
Lemma signature_codec : codec (is_bytes 64) enc_signature dec_signature.
Proof.
  split.
  - intros s r H. unfold dec_signature, enc_signature. cbn [app]. step_read. by apply array_codec.
  - intros i s r H. unfold dec_signature in H. exacts H. by apply array_codec in H as [? ->].
Qed.
Lemma timelock_codec : codec valid_timelock enc_timelock dec_timelock.
Proof.
  split.
  - intros [] r H; cbn [valid_timelock] in H; unfold dec_timelock, enc_timelock; reads.
  - intros i l r H. unfold dec_timelock in H. exacts H; unfold enc_timelock; finish_exact.
Qed.
Lemma supply_codec : codec valid_supply enc_supply dec_supply.
Proof.
  split.
  - intros [] r H; cbn [valid_supply] in H; unfold dec_supply, enc_supply; reads.
  - intros i l r H. unfold dec_supply in H. exacts H; unfold enc_supply; finish_exact.
Qed.
Lemma yes_no_codec : codec (fun _ => True) enc_yes_no dec_yes_no.
Proof.
  split.
  - intros [] r _; unfold dec_yes_no, enc_yes_no; reads.
  - intros i l r H. unfold dec_yes_no in H. exacts H; unfold enc_yes_no; finish_exact.
Qed.
Lemma source_codec : codec valid_source enc_source dec_source.
Proof.
  split.
  - intros [] r H; cbn [valid_source] in H; unfold dec_source, enc_source; reads.
  - intros i l r H. unfold dec_source in H. exacts H; unfold enc_source; finish_exact.
Qed.
Global Hint Resolve per_thousand_codec data_or_none_codec signature_codec timelock_codec supply_codec yes_no_codec source_codec : codecs.
Lemma outpoint_codec : codec valid_outpoint enc_outpoint dec_outpoint.
Proof.
  split.
  - intros [s n] r [H1 H2]; cbn in H1, H2; unfold dec_outpoint, enc_outpoint; cbn -[app]; reads.
  - intros i l r H. unfold dec_outpoint in H. exacts H; unfold enc_outpoint; finish_exact.
Qed.
Lemma order_command_codec : codec valid_order_command enc_order_command dec_order_command.
Proof.
  split.
  - intros [] r H; cbn [valid_order_command] in H; destruct_and?; unfold dec_order_command, enc_order_command; reads.
  - intros i l r H. unfold dec_order_command in H. exacts H; unfold enc_order_command; finish_exact.
Qed.
Lemma witness_codec : codec valid_witness enc_witness dec_witness.
Proof.
  split.
  - intros [] r H; cbn [valid_witness] in H; destruct_and?; unfold dec_witness, enc_witness, enc_byte; reads.
  - intros i l r H. unfold dec_witness in H. exacts H; unfold enc_witness; finish_exact.
Qed.
Global Hint Resolve outpoint_codec order_command_codec witness_codec : codecs.

Section Points.
  Context (good_key good_vrf good_preout good_proof : bytes -> bool).

  Lemma key_codec : codec (valid_key good_key) enc_key (dec_key good_key).
  Proof.
    split.
    - intros k r [L G]. unfold dec_key, enc_key. fold (is_bytes 33 k) in L. reads.
    - intros i l r H. unfold dec_key in H. exacts H; unfold enc_key; finish_exact.
  Qed.
  Lemma vrf_key_codec : codec (valid_vrf_key good_vrf) enc_vrf_key (dec_vrf_key good_vrf).
  Proof.
    split.
    - intros k r [L G]. unfold dec_vrf_key, enc_vrf_key. fold (is_bytes 32 k) in L. reads.
    - intros i l r H. unfold dec_vrf_key in H. exacts H; unfold enc_vrf_key; finish_exact.
  Qed.
  Lemma vrf_return_codec : codec (valid_vrf_return good_preout good_proof) enc_vrf_return (dec_vrf_return good_preout good_proof).
  Proof.
    split.
    - intros [a p] r [[L1 G1] [L2 G2]]. cbn in *. unfold dec_vrf_return, enc_vrf_return. cbn [vr_preout vr_proof].
      fold (is_bytes 32 a) in L1. fold (is_bytes 64 p) in L2. reads.
    - intros i l r H. unfold dec_vrf_return in H. exacts H; unfold enc_vrf_return; finish_exact.
  Qed.
  Hint Resolve key_codec vrf_key_codec vrf_return_codec : codecs.

  Lemma destination_codec : codec (valid_destination good_key) enc_destination (dec_destination good_key).
  Proof.
    split.
    - intros [] r H; cbn [valid_destination] in H; unfold dec_destination, enc_destination; reads.
    - intros i l r H. unfold dec_destination in H. exacts H; unfold enc_destination; finish_exact.
  Qed.
  Lemma metadata_codec : codec (valid_metadata good_key) enc_metadata (dec_metadata good_key).
  Proof.
    split.
    - intros [] r H; unfold valid_metadata in H; cbn in H; destruct_and?; unfold dec_metadata, enc_metadata; cbn -[app enc_option]; reads.
    - intros i l r H. unfold dec_metadata in H. exacts H; unfold enc_metadata; finish_exact.
  Qed.
  Hint Resolve destination_codec metadata_codec : codecs.
  Lemma token_data_codec : codec (valid_token_data good_key) enc_token_data (dec_token_data good_key).
  Proof.
    split.
    - intros [] r H; cbn [valid_token_data] in H; destruct_and?; unfold dec_token_data, enc_token_data; reads.
    - intros i l r H. unfold dec_token_data in H. exacts H; unfold enc_token_data; finish_exact.
  Qed.
  Hint Resolve token_data_codec : codecs.
  Lemma value_codec : codec (valid_value good_key) enc_value (dec_value good_key).
  Proof.
    split.
    - intros [] r H; cbn [valid_value] in H; destruct_and?; unfold dec_value, enc_value; reads.
    - intros i l r H. unfold dec_value in H. exacts H; unfold enc_value; finish_exact.
  Qed.
  Hint Resolve value_codec : codecs.
  Lemma pool_data_codec : codec (valid_pool_data good_key good_vrf) enc_pool_data (dec_pool_data good_key good_vrf).
  Proof.
    split.
    - intros [] r H; unfold valid_pool_data in H; cbn in H; destruct_and?; unfold dec_pool_data, enc_pool_data; cbn -[app]; reads.
    - intros i l r H. unfold dec_pool_data in H. exacts H; unfold enc_pool_data; finish_exact.
  Qed.
  Lemma token_issuance_codec : codec (valid_token_issuance good_key) enc_token_issuance (dec_token_issuance good_key).
  Proof.
    split.
    - intros [] r H; unfold valid_token_issuance in H; cbn in H; destruct_and?; unfold dec_token_issuance, enc_token_issuance; cbn -[app].
      assert (True) by done. reads.
    - intros i l r H. unfold dec_token_issuance in H. exacts H; unfold enc_token_issuance; finish_exact.
  Qed.
  Lemma htlc_codec : codec (valid_htlc good_key) enc_htlc (dec_htlc good_key).
  Proof.
    split.
    - intros [] r H; unfold valid_htlc in H; cbn in H; destruct_and?; unfold dec_htlc, enc_htlc; cbn -[app]; reads.
    - intros i l r H. unfold dec_htlc in H. exacts H; unfold enc_htlc; finish_exact.
  Qed.
  Lemma order_data_codec : codec (valid_order_data good_key) enc_order_data (dec_order_data good_key).
  Proof.
    split.
    - intros [] r H; unfold valid_order_data in H; cbn in H; destruct_and?; unfold dec_order_data, enc_order_data; cbn -[app]; reads.
    - intros i l r H. unfold dec_order_data in H. exacts H; unfold enc_order_data; finish_exact.
  Qed.
  Hint Resolve pool_data_codec token_issuance_codec htlc_codec order_data_codec : codecs.
  Lemma output_codec : codec (valid_output good_key good_vrf) enc_output (dec_output good_key good_vrf).
  Proof.
    split.
    - intros [] r H; cbn [valid_output] in H; destruct_and?; unfold dec_output, enc_output; reads.
    - intros i l r H. unfold dec_output in H. exacts H; unfold enc_output; finish_exact.
  Qed.
  Lemma command_codec : codec (valid_command good_key) enc_command (dec_command good_key).
  Proof.
    split.
    - intros [] r H; cbn [valid_command] in H; destruct_and?; assert (True) by done; unfold dec_command, enc_command; reads.
    - intros i l r H. unfold dec_command in H. exacts H; unfold enc_command; finish_exact.
  Qed.
  Hint Resolve output_codec command_codec : codecs.
  Lemma input_codec : codec (valid_input good_key) enc_input (dec_input good_key).
  Proof.
    split.
    - intros [] r H; cbn [valid_input] in H; destruct_and?; unfold dec_input, enc_input; reads.
    - intros i l r H. unfold dec_input in H. exacts H; unfold enc_input; finish_exact.
  Qed.
  Hint Resolve input_codec : codecs.
  Lemma transaction_codec : codec (valid_transaction good_key good_vrf) enc_transaction (dec_transaction good_key good_vrf).
  Proof.
    split.
    - intros [] r (H1 & H2 & H3); cbn in H1, H2, H3; unfold dec_transaction, enc_transaction, enc_tag; cbn -[app]; reads.
    - intros i l r H. unfold dec_transaction in H. exacts H; unfold enc_transaction; finish_exact.
  Qed.
  Hint Resolve transaction_codec : codecs.
  Lemma signed_codec : codec (valid_signed good_key good_vrf) enc_signed (dec_signed good_key good_vrf).
  Proof.
    split.
    - intros [] r (H1 & H2 & H3); cbn in H1, H2, H3; unfold dec_signed, enc_signed; cbn -[app]; reads.
    - intros i l r H. unfold dec_signed in H. exacts H. apply Nat.eqb_eq in G. unfold enc_signed. finish_exact.
  Qed.
  Hint Resolve signed_codec : codecs.
  Lemma consensus_codec :
    codec (valid_consensus good_key good_preout good_proof) enc_consensus (dec_consensus good_key good_preout good_proof).
  Proof.
    split.
    - intros [] r H; cbn [valid_consensus] in H; destruct_and?; unfold dec_consensus, enc_consensus; reads.
    - intros i l r H. unfold dec_consensus in H. exacts H; unfold enc_consensus; finish_exact.
  Qed.
  Hint Resolve consensus_codec : codecs.
  Lemma header_codec :
    codec (valid_header good_key good_preout good_proof) enc_header (dec_header good_key good_preout good_proof).
  Proof.
    split.
    - intros [] r H; unfold valid_header in H; cbn in H; destruct_and?; unfold dec_header, enc_header, enc_tag; cbn -[app]; reads.
    - intros i l r H. unfold dec_header in H. exacts H; unfold enc_header; finish_exact.
  Qed.
  Hint Resolve header_codec : codecs.
  Lemma signed_header_codec :
    codec (valid_signed_header good_key good_preout good_proof) enc_signed_header (dec_signed_header good_key good_preout good_proof).
  Proof.
    split.
    - intros [h [g|]] r [H1 H2]; cbn in H1, H2; unfold dec_signed_header, enc_signed_header; cbn -[app]; reads.
    - intros i l r H. unfold dec_signed_header in H. exacts H; unfold enc_signed_header; finish_exact.
  Qed.
  Hint Resolve signed_header_codec : codecs.
  Lemma block_codec :
    codec (valid_block good_key good_vrf good_preout good_proof) enc_block (dec_block good_key good_vrf good_preout good_proof).
  Proof.
    split.
    - intros [] r (H1 & H2 & H3); cbn in H1, H2, H3; unfold dec_block, enc_block; cbn -[app]; reads.
    - intros i l r H. unfold dec_block in H. exacts H; unfold enc_block; finish_exact.
  Qed.
End Points.
