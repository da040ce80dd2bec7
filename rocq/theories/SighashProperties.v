(** C73: what a signature of an input vouches for. C74: a signature made for one purpose serves no other. *)
From Coq Require Import Strings.Byte.
From Verif Require Import Base CodecModel CodecSpec CodecProofs WireModel WireSpec WireProofs SighashModel SighashSpec SighashProofs.
Local Open Scope N_scope.

Section SighashProperties.
  Context (good_key good_vrf : bytes -> bool).
  Local Notation ready := (signable_input good_key good_vrf).

  (** Everything that should be signed can be *)
  Theorem C73_can_be_signed m t cs i : ready m t cs i -> is_ok (sighash_stream (of_transaction t) cs m i).
  Proof. apply stream_ok. Qed.
  (** The bytes hashed for two signatures are the same exactly when both have the same type and vouch for the same things *)
  Theorem C73_covers_exactly m t cs i m' u ds j : ready m t cs i -> ready m' u ds j ->
    (sighash_stream (of_transaction t) cs m i = sighash_stream (of_transaction u) ds m' j <-> vouch_same m t cs i m' u ds j).
  Proof.
    intros R R'. split.
    - intros E. destruct (stream_ok _ _ _ _ _ _ R) as [s H]. rewrite H in E. symmetry in E. by eapply stream_inj.
    - intros V. pose proof V as (<- & _). by eapply stream_same.
  Qed.
  (** So a signature made for one input serves another one only if it vouches for the same things there, or the bytes hashed
      are a collision of the hash function *)
  Theorem C73_serves_only_what_it_covers hash m t cs i m' u ds j d : ready m t cs i -> ready m' u ds j ->
    signature_hash hash m (of_transaction t) cs i = Ok d -> signature_hash hash m' (of_transaction u) ds j = Ok d ->
    vouch_same m t cs i m' u ds j \/
    exists s s', sighash_stream (of_transaction t) cs m i = Ok s /\ sighash_stream (of_transaction u) ds m' j = Ok s' /\ collide hash s s'.
  Proof.
    intros R R'. unfold signature_hash.
    destruct (stream_ok _ _ _ _ _ _ R) as [s H], (stream_ok _ _ _ _ _ _ R') as [s' H']. rewrite H, H'. cbn. intros E E'.
    destruct (List.list_eq_dec Byte.byte_eq_dec s s') as [<-|N].
    - left. by eapply stream_inj.
    - right. exists s, s'. split_and!; [done..|]. split; [done|congruence].
  Qed.
  (** With the type that covers all inputs, made against one state of the chain, it serves another state only if everything
      the inputs refer to is the same there: the outputs spent, staked balances, orders *)
  Theorem C73_state_covered m t i v w cs ds : sighash_type m -> ~ only_this_input m ->
    valid_view good_key good_vrf v -> valid_view good_key good_vrf w -> valid_transaction good_key good_vrf t ->
    (i < length (t_inputs t))%nat -> (only_this_output m -> (i < length (t_outputs t))%nat) ->
    commitments CV1 v (t_inputs t) = Ok cs -> commitments CV1 w (t_inputs t) = Ok ds ->
    (sighash_stream (of_transaction t) cs m i = sighash_stream (of_transaction t) ds m i <->
     Forall (input_looks_same v w) (t_inputs t)).
  Proof.
    intros Ty All Vv Vw Vt I O H H'.
    assert (ready m t cs i) as R by exact (SighashProofs.ready _ _ _ _ _ _ _ _ Ty Vv Vt I O H).
    assert (ready m t ds i) as R' by exact (SighashProofs.ready _ _ _ _ _ _ _ _ Ty Vw Vt I O H').
    rewrite (C73_covers_exactly _ _ _ _ _ _ _ _ R R'), <- (commitments_eq _ _ _ _ _ H H'). split.
    - intros (_ & _ & [_ E] & _). by apply E.
    - intros <-. by repeat split.
  Qed.
  (** With the type that covers one input, that holds of this input, in whatever transaction *)
  Theorem C73_state_of_the_input_covered m t i u j v w cs ds a : only_this_input m ->
    ready m t cs i -> ready m u ds j -> commitments CV1 v (t_inputs t) = Ok cs -> commitments CV1 w (t_inputs u) = Ok ds ->
    t_inputs t !! i = Some a ->
    sighash_stream (of_transaction t) cs m i = sighash_stream (of_transaction u) ds m j ->
    t_inputs u !! j = Some a /\ input_looks_same v w a.
  Proof.
    intros One R R' H H' Ha E. apply (C73_covers_exactly _ _ _ _ _ _ _ _ R R') in E as (_ & _ & [E _] & _).
    destruct (E One) as [E1 E2]. rewrite Ha in E1. symmetry in E1. split; [done|]. by eapply commitments_eq_at.
  Qed.
  (** Before the fork to the second version only the outputs spent were covered *)
  Theorem C73_before_the_fork m t i v w cs ds : sighash_type m -> ~ only_this_input m ->
    valid_view good_key good_vrf v -> valid_view good_key good_vrf w -> valid_transaction good_key good_vrf t ->
    (i < length (t_inputs t))%nat -> (only_this_output m -> (i < length (t_outputs t))%nat) ->
    commitments CV0 v (t_inputs t) = Ok cs -> commitments CV0 w (t_inputs t) = Ok ds ->
    (sighash_stream (of_transaction t) cs m i = sighash_stream (of_transaction t) ds m i <->
     (forall p, IUtxo p ∈ t_inputs t -> v_utxo v p = v_utxo w p)).
  Proof.
    intros Ty All Vv Vw Vt I O H H'.
    assert (ready m t cs i) as R by exact (SighashProofs.ready _ _ _ _ _ _ _ _ Ty Vv Vt I O H).
    assert (ready m t ds i) as R' by exact (SighashProofs.ready _ _ _ _ _ _ _ _ Ty Vw Vt I O H').
    rewrite (C73_covers_exactly _ _ _ _ _ _ _ _ R R'), <- (commitments0_eq _ _ _ _ _ H H'). split.
    - intros (_ & _ & [_ E] & _). by apply E.
    - intros <-. by repeat split.
  Qed.

  (** ** C74 *)
  (** A signed text is never the hash of a transaction's or a block reward's input, unless the bytes hashed are a collision *)
  Theorem C74_texts_apart hash msg m tx cs i d : sighash_type m -> signature_hash hash m tx cs i = Ok d ->
    message_challenge hash msg = d -> exists s, sighash_stream tx cs m i = Ok s /\ collide hash s (message_stream msg).
  Proof.
    unfold signature_hash, message_challenge. intros Ty. destruct (sighash_stream tx cs m i) as [s| |] eqn:H; cbn; [|done..].
    intros [= <-] E. exists s. split; [done|]. split; [|done]. intros ->. clear E. unfold sighash_stream in H.
    destruct (sg_inputs tx) as [ins|]; cbn in H; [|done]. destruct (ins !! i) as [a|]; cbn in H; [|done].
    destruct (stream_inputs _ _ _ _ _) as [bi| |]; cbn in H; [|done..].
    destruct (stream_outputs _ _ _) as [bo| |]; cbn in H; [|done..]. injection H as H _. subst m.
    unfold sighash_type in Ty. repeat (apply elem_of_cons in Ty as [Ty|Ty]; [done|]). by apply elem_of_nil in Ty.
  Qed.
  (** Two texts with the same challenge are the same *)
  Theorem C74_text_is_covered hash msg msg' : message_challenge hash msg = message_challenge hash msg' ->
    msg = msg' \/ collide hash (message_stream msg) (message_stream msg').
  Proof.
    intros E. destruct (List.list_eq_dec Byte.byte_eq_dec (message_stream msg) (message_stream msg')) as [H|N].
    - left. unfold message_stream in H. apply app_inv_head in H. by apply app_inv_tail in H.
    - right. done.
  Qed.
  (** What is signed for a block, its encoded header, is longer than any hash, so it is never what is signed for an input or
      for a text *)
  Theorem C74_headers_apart hash h m tx cs i d msg : (forall s, length (hash s) = 32%nat) ->
    is_bytes 32 (h_prev h) -> is_bytes 32 (h_tx_root h) -> is_bytes 32 (h_witness_root h) ->
    (signature_hash hash m tx cs i = Ok d -> enc_header h <> d) /\ enc_header h <> message_challenge hash msg.
  Proof.
    intros L P T W.
    assert (32 < length (enc_header h))%nat as G.
    { unfold enc_header, enc_id, enc_array, enc_tag. rewrite !app_length. unfold is_bytes in *. cbn [length]. clear - P T W. lia. }
    split.
    - unfold signature_hash. destruct (sighash_stream tx cs m i); cbn [rmap]; [|done..]. intros [= <-] E. rewrite E, L in G. lia.
    - intros E. unfold message_challenge in E. rewrite E, L in G. lia.
  Qed.
End SighashProperties.

(** ** Cases that meet the hypotheses *)
Definition ex_kernel : outpoint := Outpoint (SrcTx (replicate 32 x11)) 0.
Definition ex_order : bytes := replicate 32 x22.
Definition ex_tx : transaction :=
  Transaction 0 [IUtxo ex_kernel; IOrder (CConclude ex_order); IOrder (CFill ex_order 5)] [OTransfer (VCoin 10) DAnyone].
Definition ex_view (left : N) : view :=
  View (fun _ => Some (OTransfer (VCoin 7) (DKeyHash (replicate 20 x33)))) (fun _ => None)
    (fun _ => Some (OrderInfo (VCoin 100) (VTokenV1 (replicate 32 x44) 50) left 50)).
Example C73_example left : left < 2 ^ 128 ->
  exists cs, commitments CV1 (ex_view left) (t_inputs ex_tx) = Ok cs /\ valid_view (fun _ => true) (fun _ => true) (ex_view left) /\
    signable_input (fun _ => true) (fun _ => true) x01 ex_tx cs 1.
Proof.
  intros B. eexists. split; [cbn; reflexivity|]. split.
  - split_and!; cbn.
    + intros _ o [= <-]. cbn. by unfold is_u128, is_bytes.
    + done.
    + intros _ d [= <-]. cbn. by unfold is_u128, is_bytes.
  - unfold signable_input, valid_transaction, valid_vec, is_u128. cbn. split_and!; try done; try lia.
    + by apply elem_of_list_here.
    + repeat constructor; cbn; by unfold is_u32, is_u128, is_bytes.
    + repeat constructor; cbn; by unfold is_u32, is_u128, is_bytes.
    + repeat constructor; cbn; by unfold is_u32, is_u128, is_bytes.
    + intros H. unfold only_this_output in H. repeat (apply elem_of_cons in H as [H|H]; [done|]). by apply elem_of_nil in H.
Qed.
(** What is left of the order matters after the fork, and not before *)
Example C73_example_differs : forall cs ds m, m ∈ [x01; x02; x81; x82] ->
  commitments CV1 (ex_view 3) (t_inputs ex_tx) = Ok cs -> commitments CV1 (ex_view 4) (t_inputs ex_tx) = Ok ds ->
  sighash_stream (of_transaction ex_tx) cs m 1 <> sighash_stream (of_transaction ex_tx) ds m 1.
Proof.
  intros cs ds m Hm [= <-] [= <-]. repeat (apply elem_of_cons in Hm as [->|Hm]; [vm_compute; done|]). by apply elem_of_nil in Hm.
Qed.

(** A signature that covers everything is not tied to the number of the input: with the same key it serves every input of the
    transaction *)
Theorem C73_tied_to_the_input_refuted : ~ (forall t cs i j,
  signable_input (fun _ => true) (fun _ => true) x01 t cs i -> signable_input (fun _ => true) (fun _ => true) x01 t cs j ->
  sighash_stream (of_transaction t) cs x01 i = sighash_stream (of_transaction t) cs x01 j -> i = j).
Proof.
  intros H. destruct (C73_example 3 ltac:(done)) as (cs & _ & _ & R).
  assert (signable_input (fun _ => true) (fun _ => true) x01 ex_tx cs 2) as R'.
  { destruct R as (? & ? & ? & ? & ? & S). split_and!; try done; [cbn; lia|]. intros X. apply S in X. cbn in X. lia. }
  specialize (H ex_tx cs 1%nat 2%nat R R'). discriminate H.
  destruct (proj2 (C73_covers_exactly (fun _ => true) (fun _ => true) x01 ex_tx cs 1 x01 ex_tx cs 2 R R')); [|done].
  assert (~ only_this_input x01 /\ ~ only_this_output x01) as [N1 N2].
  { split; intros X; unfold only_this_input, only_this_output in X; repeat (apply elem_of_cons in X as [X|X]; [done|]); by apply elem_of_nil in X. }
  by repeat split.
Qed.

(** A block reward is hashed without version and flags and nothing tells it from a transaction: the bytes hashed for the staked
    output of a block can be those of an input of a transaction. The staked output [ex_staked] of transaction [ex_source] and
    the transaction [ex_spender] are made so; bytes 12 to 17 of [ex_source], the key hash of the staker and the id of the pool
    have to fit *)
Definition ex_locked : tx_output :=
  OLockThenTransfer (VCoin 50000000000000000) (DKeyHash (replicate 20 x55)) (LUntilTime 1800000000).
Definition ex_hash : bytes := replicate 6 x66 ++ replicate 4 x00 ++ [x01; x00; x00; x00] ++ [x01] ++ take 5 (enc_output ex_locked).
Definition ex_pool : bytes := drop 5 (enc_output ex_locked).
Definition ex_staked : tx_output := OProduceBlock (DKeyHash ex_hash) ex_pool.
Definition ex_source : bytes := replicate 11 x77 ++ [x01; x00; x00; x00] ++ [x00; x00] ++ replicate 15 x77.
Definition ex_other : bytes := replicate 15 x77 ++ replicate 4 x00 ++ [x01; x00; x00; x00] ++ [x01] ++ [x04; x01] ++ replicate 6 x66.
Definition ex_spender : transaction :=
  Transaction (of_le (replicate 5 x00 ++ replicate 11 x77)) [IUtxo (Outpoint (SrcTx ex_other) 0)] [OTransfer (VCoin 49999999000000000) DAnyone].
Definition ex_state : view :=
  View (fun p => if List.list_eq_dec Byte.byte_eq_dec (match op_source p with SrcTx id | SrcReward id => id end) ex_source
                 then Some ex_staked else Some ex_locked) (fun _ => Some 0) (fun _ => None).
Theorem C74_rewards_apart_refuted : ~ (forall m v kernel ks outs t cs i j s,
  sighash_type m -> valid_view (fun _ => true) (fun _ => true) v -> valid_transaction (fun _ => true) (fun _ => true) t ->
  make_kernel_commitments (fun _ p => v_utxo v p) kernel = Ok ks -> commitments CV1 v (t_inputs t) = Ok cs ->
  sighash_stream (of_reward (Some kernel) outs) ks m i = Ok s -> sighash_stream (of_transaction t) cs m j = Ok s -> False).
Proof.
  intros H. eapply (H x02 ex_state [IUtxo (Outpoint (SrcTx ex_source) 0)] _ (Some []) ex_spender _ 0%nat 0%nat).
  - by apply elem_of_list_further, elem_of_list_here.
  - split_and!.
    + intros p o. cbn. destruct (List.list_eq_dec _ _ _); intros [= <-]; vm_compute; done.
    + intros id b [= <-]. done.
    + done.
  - split; [vm_compute; done|]. split; (split; [done|]); apply Forall_singleton; vm_compute; done.
  - vm_compute. reflexivity.
  - vm_compute. reflexivity.
  - vm_compute. reflexivity.
  - vm_compute. reflexivity.
Qed.
Example C74_example : signature_hash (fun s => s) x01 (of_transaction ex_tx) (repeat MNone 3) 0 <> Ok (message_challenge (fun s => s) [x01]).
Proof. vm_compute. done. Qed.

Print Assumptions C73_can_be_signed.
Print Assumptions C73_covers_exactly.
Print Assumptions C73_serves_only_what_it_covers.
Print Assumptions C73_state_covered.
Print Assumptions C73_state_of_the_input_covered.
Print Assumptions C73_before_the_fork.
Print Assumptions C73_tied_to_the_input_refuted.
Print Assumptions C74_texts_apart.
Print Assumptions C74_text_is_covered.
Print Assumptions C74_headers_apart.
Print Assumptions C74_rewards_apart_refuted.
