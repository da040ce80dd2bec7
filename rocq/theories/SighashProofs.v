(** Proofs about what is hashed for a signature. *)
From Coq Require Import Strings.Byte.
From Verif Require Import Base CodecModel CodecSpec CodecProofs WireModel WireSpec WireProofs ConstraintsProofs SighashModel SighashSpec.
Local Open Scope N_scope.

Lemma times_inj {A} (valid : A -> Prop) e d l l' r r' : reads_back valid e d -> Forall valid l -> Forall valid l' ->
  length l = length l' -> concat (map e l) ++ r = concat (map e l') ++ r' -> l = l' /\ r = r'.
Proof.
  intros R V V' L H. pose proof (times_reads valid e d l r R V) as P.
  rewrite H, L, (times_reads valid e d l' r' R V') in P. by simplify_eq.
Qed.
Lemma u32_inj n n' r r' : (N.of_nat n < 2 ^ 32) -> (N.of_nat n' < 2 ^ 32) ->
  enc_u32 (N.of_nat n) ++ r = enc_u32 (N.of_nat n') ++ r' -> n = n' /\ r = r'.
Proof.
  intros B B' H. destruct (codec_inj is_u32 enc_u32 dec_u32 _ _ r r' (proj1 u32_codec) B B' H) as [E ->]. split; [lia|done].
Qed.

Lemma type_cases m : sighash_type m ->
  (inputs_of m = AnyoneCanPay /\ only_this_input m \/ inputs_of m = CommitWhoPays /\ ~ only_this_input m) /\
  (outputs_of m = OutAll /\ all_outputs m /\ ~ only_this_output m \/
   outputs_of m = OutNone /\ ~ all_outputs m /\ ~ only_this_output m \/
   outputs_of m = OutSingle /\ ~ all_outputs m /\ only_this_output m).
Proof.
  unfold sighash_type, only_this_input, all_outputs, only_this_output. intros H.
  repeat (apply elem_of_cons in H as [->|H]); [..|by apply elem_of_nil in H]; cbn; rewrite ?elem_of_cons, ?elem_of_nil.
  all: intuition congruence.
Qed.

Section Points.
  Context (good_key good_vrf : bytes -> bool).
  Local Notation V := (valid_commitment good_key good_vrf).

  (** A reader of commitments; there is none in the code, which only ever hashes them *)
  Definition dec_commitment : decoder commitment :=
    let! t := dec_byte in
    match t with
    | x00 => dret MNone
    | x01 => let! o := dec_output good_key good_vrf in dret (MUtxo o)
    | x02 => let! o := dec_output good_key good_vrf in let! b := dec_amount in dret (MStake o b)
    | x03 => let! a := dec_value good_key in let! g := dec_value good_key in dret (MFill a g)
    | x04 => let! a := dec_value good_key in let! g := dec_value good_key in let! x := dec_amount in let! y := dec_amount in dret (MConclude a g x y)
    | _ => dfail
    end.
  Lemma commitment_reads : reads_back V enc_commitment dec_commitment.
  Proof.
    pose proof (output_codec good_key good_vrf) as Co. pose proof (value_codec good_key) as Cv.
    intros [|o|o b|a g|a g x y] r; cbn [valid_commitment enc_commitment app]; unfold dec_commitment; rewrite bind_reads_byte.
    - done.
    - intros H. by rewrite (bind_reads _ _ _ _ _ _ Co).
    - intros [H1 H2]. rewrite <- ?app_assoc, (bind_reads _ _ _ _ _ _ Co) by done.
      by rewrite (bind_reads _ _ _ _ _ _ amount_codec).
    - intros [H1 H2]. rewrite <- ?app_assoc, (bind_reads _ _ _ _ _ _ Cv) by done. by rewrite (bind_reads _ _ _ _ _ _ Cv).
    - intros (H1 & H2 & H3 & H4). rewrite <- ?app_assoc, (bind_reads _ _ _ _ _ _ Cv) by done.
      rewrite (bind_reads _ _ _ _ _ _ Cv) by done. rewrite (bind_reads _ _ _ _ _ _ amount_codec) by done.
      by rewrite (bind_reads _ _ _ _ _ _ amount_codec).
  Qed.

  Lemma stream_ok m t cs i : signable_input good_key good_vrf m t cs i -> is_ok (sighash_stream (of_transaction t) cs m i).
  Proof.
    intros (Ty & _ & _ & L & I & O). destruct (lookup_lt_is_Some_2 _ _ I) as [x Hx].
    unfold sighash_stream, stream_inputs, stream_outputs. cbn [of_transaction sg_inputs sg_outputs ok_or rbind]. rewrite Hx.
    cbn [ok_or rbind]. unfold ensure. rewrite (proj2 (Nat.eqb_eq _ _) L), (proj2 (Nat.ltb_lt _ _) I). cbn [rbind].
    destruct (type_cases m Ty) as [[[-> _]|[-> _]] [[-> _]|[[-> _]|[-> [_ X]]]]].
    all: rewrite <- L in I; try (destruct (lookup_lt_is_Some_2 _ _ I) as [c Hc]; rewrite Hc); cbn [expect rbind].
    all: try (destruct (lookup_lt_is_Some_2 _ _ (O X)) as [o Ho]; rewrite Ho); cbn [ok_or rbind].
    all: eexists; reflexivity.
  Qed.

  (** The bytes, put together *)
  Definition part_inputs (m : byte) (t : transaction) (cs : list commitment) (i : nat) : bytes :=
    match inputs_of m with
    | CommitWhoPays => enc_u32 (N.of_nat (length (t_inputs t))) ++ concat (map enc_input (t_inputs t)) ++
                       enc_u32 (N.of_nat (length cs)) ++ concat (map enc_commitment cs)
    | AnyoneCanPay => match t_inputs t !! i, cs !! i with Some a, Some c => enc_input a ++ enc_commitment c | _, _ => [] end
    end.
  Definition part_outputs (m : byte) (t : transaction) (i : nat) : bytes :=
    match outputs_of m with
    | OutAll => enc_vec enc_output (t_outputs t)
    | OutNone => []
    | OutSingle => match t_outputs t !! i with Some o => enc_output o | None => [] end
    end.
  Lemma stream_is m t cs i s : sighash_stream (of_transaction t) cs m i = Ok s ->
    s = m :: x01 :: enc_uint 16 (t_flags t) ++ part_inputs m t cs i ++ part_outputs m t i /\
    length cs = length (t_inputs t) /\ (i < length (t_inputs t))%nat /\ (outputs_of m = OutSingle -> (i < length (t_outputs t))%nat).
  Proof.
    unfold sighash_stream, stream_inputs, stream_outputs, part_inputs, part_outputs.
    cbn [of_transaction sg_inputs sg_outputs sg_version sg_flags ok_or rbind].
    destruct (t_inputs t !! i) as [x|] eqn:Hx; [|done]. cbn [ok_or rbind]. unfold ensure.
    destruct (length cs =? length (t_inputs t))%nat eqn:L; [|done]. apply Nat.eqb_eq in L.
    destruct (i <? length (t_inputs t))%nat eqn:I; [|done]. apply Nat.ltb_lt in I. cbn [rbind].
    destruct (inputs_of m), (outputs_of m); cbn [rbind]; try (destruct (cs !! i) as [c|]; cbn [expect rbind]; [|done]).
    all: try (destruct (t_outputs t !! i) as [o|] eqn:Ho; cbn [ok_or rbind]; [|done]; apply lookup_lt_Some in Ho).
    all: intros H; injection H as <-; done.
  Qed.

  Lemma vec_bound {A} (valid : A -> Prop) l : valid_vec valid l -> (N.of_nat (length l) < 2 ^ 32) /\ Forall valid l.
  Proof. done. Qed.
  Lemma lookup_valid {A} (valid : A -> Prop) l i a : Forall valid l -> l !! i = Some a -> valid a.
  Proof. intros F H. rewrite Forall_forall in F. by eapply F, elem_of_list_lookup_2. Qed.

  Lemma inputs_inj m t cs i u ds j r r' :
    signable_input good_key good_vrf m t cs i -> signable_input good_key good_vrf m u ds j ->
    part_inputs m t cs i ++ r = part_inputs m u ds j ++ r' -> vouch_same_inputs m t cs i u ds j /\ r = r'.
  Proof.
    intros (Ty & (_ & [Bi Fi] & _) & Fc & L & I & _) (_ & (_ & [Bi' Fi'] & _) & Fc' & L' & I' & _) H.
    unfold part_inputs in H. destruct (type_cases m Ty) as [[[E O]|[E O]] _]; rewrite E in H.
    - destruct (lookup_lt_is_Some_2 _ _ I) as [a Ha]. destruct (lookup_lt_is_Some_2 _ _ I') as [a' Ha'].
      rewrite <- L in I. rewrite <- L' in I'.
      destruct (lookup_lt_is_Some_2 _ _ I) as [c Hc]. destruct (lookup_lt_is_Some_2 _ _ I') as [c' Hc'].
      rewrite Ha, Ha', Hc, Hc' in H. rewrite <- !app_assoc in H.
      apply (codec_inj _ _ _ _ _ _ _ (proj1 (input_codec good_key))) in H as [-> H];
        [|exact (lookup_valid _ _ _ _ Fi Ha)|exact (lookup_valid _ _ _ _ Fi' Ha')].
      apply (codec_inj _ _ _ _ _ _ _ commitment_reads) in H as [-> ->]; [|exact (lookup_valid _ _ _ _ Fc Hc)|exact (lookup_valid _ _ _ _ Fc' Hc')].
      split; [|done]. split; [|done]. intros _. by rewrite Ha, Ha', Hc, Hc'.
    - rewrite <- !app_assoc in H. apply u32_inj in H as [E1 H]; [|done..].
      apply (times_inj _ _ _ _ _ _ _ (proj1 (input_codec good_key)) Fi Fi' E1) in H as [E2 H].
      apply u32_inj in H as [E3 H]; [|rewrite ?L, ?L'; done..].
      apply (times_inj _ _ _ _ _ _ _ commitment_reads Fc Fc' E3) in H as [-> ->].
      split; [|done]. by split.
  Qed.
  Lemma outputs_inj m t cs i u ds j :
    signable_input good_key good_vrf m t cs i -> signable_input good_key good_vrf m u ds j ->
    part_outputs m t i = part_outputs m u j -> vouch_same_outputs m t i u j.
  Proof.
    intros (Ty & (_ & _ & Vo) & _ & _ & _ & O) (_ & (_ & _ & Vo') & _ & _ & _ & O') H.
    unfold part_outputs in H. destruct (type_cases m Ty) as [_ [(E & A & S)|[(E & A & S)|(E & A & S)]]]; rewrite E in H.
    - split; [|done]. intros _. rewrite <- (app_nil_r (enc_vec _ (t_outputs t))), <- (app_nil_r (enc_vec _ (t_outputs u))) in H.
      by apply (codec_inj _ _ _ _ _ _ _ (proj1 (vec_codec _ _ _ (output_codec good_key good_vrf)))) in H as [-> _].
    - split; done.
    - split; [done|]. intros _.
      destruct (lookup_lt_is_Some_2 _ _ (O S)) as [a Ha]. destruct (lookup_lt_is_Some_2 _ _ (O' S)) as [a' Ha'].
      rewrite Ha, Ha' in H |- *. rewrite <- (app_nil_r (enc_output a)), <- (app_nil_r (enc_output a')) in H.
      destruct Vo as [_ Vo], Vo' as [_ Vo'].
      apply (codec_inj _ _ _ _ _ _ _ (proj1 (output_codec good_key good_vrf))) in H as [-> _];
        [done|exact (lookup_valid _ _ _ _ Vo Ha)|exact (lookup_valid _ _ _ _ Vo' Ha')].
  Qed.
  Lemma stream_inj m t cs i m' u ds j s :
    signable_input good_key good_vrf m t cs i -> signable_input good_key good_vrf m' u ds j ->
    sighash_stream (of_transaction t) cs m i = Ok s -> sighash_stream (of_transaction u) ds m' j = Ok s ->
    vouch_same m t cs i m' u ds j.
  Proof.
    intros S S' H H'. apply stream_is in H as [-> _]. apply stream_is in H' as [H' _].
    assert (m = m') as <- by congruence. apply (f_equal (drop 2)) in H'. cbn [drop] in H'. apply (codec_inj _ _ _ _ _ _ _ (proj1 u128_fixed_codec)) in H' as [Ef H']; [|apply S|apply S'].
    eapply inputs_inj in H' as [Ei H']; [|done..]. eapply outputs_inj in H' as Eo; [|done..]. done.
  Qed.
  Lemma stream_same m t cs i u ds j :
    signable_input good_key good_vrf m t cs i -> signable_input good_key good_vrf m u ds j ->
    vouch_same m t cs i m u ds j -> sighash_stream (of_transaction t) cs m i = sighash_stream (of_transaction u) ds m j.
  Proof.
    intros S S' (_ & Ef & [Ei Ei'] & [Eo Eo']).
    destruct (stream_ok _ _ _ _ S) as [s H], (stream_ok _ _ _ _ S') as [s' H']. rewrite H, H'.
    apply stream_is in H as (-> & _ & _ & B). apply stream_is in H' as (-> & _ & _ & B'). rewrite Ef. do 4 f_equal.
    unfold part_inputs, part_outputs. destruct S as (Ty & _).
    destruct (type_cases m Ty) as [[[-> O]|[-> O]] [(-> & A & _)|[(-> & A & _)|(-> & A & X)]]].
    all: try (destruct (Ei O) as [-> ->]); try (destruct (Ei' O) as [-> ->]).
    all: try rewrite (Eo A); try rewrite (Eo' X); try done.
  Qed.
End Points.

(** ** The commitments of a transaction's inputs *)
Lemma commit_from_all f n ins cs : commit_from f n ins = Ok cs ->
  length cs = length ins /\ (forall i a, ins !! i = Some a -> exists c, cs !! i = Some c /\ f a (n + i)%nat = Ok c).
Proof.
  revert n cs. induction ins as [|a ins IH]; intros n cs H; cbn in H.
  - injection H as <-. done.
  - apply rbind_ok in H as (c & Hc & H). apply rbind_ok in H as (cs' & Hcs & H). injection H as <-.
    apply IH in Hcs as [L P]. split; [cbn; lia|]. intros [|i] b Hb; cbn in Hb |- *.
    + injection Hb as <-. exists c. rewrite Nat.add_0_r. done.
    + destruct (P i b Hb) as (d & Hd & E). exists d. split; [done|]. by replace (n + S i)%nat with (S n + i)%nat by lia.
Qed.
Lemma commit_from_eq f g n ins cs ds : commit_from f n ins = Ok cs -> commit_from g n ins = Ok ds ->
  (cs = ds <-> (forall i a, ins !! i = Some a -> f a (n + i)%nat = g a (n + i)%nat)).
Proof.
  intros H H'. apply commit_from_all in H as [L P]. apply commit_from_all in H' as [L' P']. split.
  - intros <- i a Ha. destruct (P i a Ha) as (c & Hc & ->), (P' i a Ha) as (c' & Hc' & ->). congruence.
  - intros E. apply list_eq. intros i. destruct (ins !! i) as [a|] eqn:Ha.
    + destruct (P i a Ha) as (c & Hc & Ec), (P' i a Ha) as (c' & Hc' & Ec'). rewrite Hc, Hc'.
      rewrite (E i a Ha) in Ec. congruence.
    + apply lookup_ge_None in Ha. by rewrite !lookup_ge_None_2 by lia.
Qed.

Lemma out_case o : (exists d id, o = OProduceBlock d id) \/
  ((forall d id, o <> OProduceBlock d id) /\
   forall A (f : destination -> bytes -> A) (g : A), match o with OProduceBlock d id => f d id | _ => g end = g).
Proof. destruct o; try (right; split; done). left. by eexists _, _. Qed.

Section Views.
  Local Notation one v := (commitment_v1 (fun _ p => v_utxo v p) (v_pool v) (v_order v)).
  Local Notation one0 v := (commitment_v0 (fun _ p => v_utxo v p) (v_pool v) (v_order v)).

  Lemma utxo_one v p i c : one v (IUtxo p) i = Ok c ->
    exists o, v_utxo v p = Some o /\
      ((exists d id b, o = OProduceBlock d id /\ v_pool v id = Some b /\ c = MStake o b) \/
       ((forall d id, o <> OProduceBlock d id) /\ c = MUtxo o)).
  Proof.
    cbn [commitment_v1]. destruct (v_utxo v p) as [o|]; [|done]. cbn [ok_or rbind]. intros H. exists o. split; [done|].
    destruct (out_case o) as [(d & id & ->)|[N E]].
    - left. destruct (v_pool v id) as [b|] eqn:B; cbn in H; [|done]. injection H as <-. by exists d, id, b.
    - right. rewrite E in H. injection H as <-. done.
  Qed.
  Lemma one_eq v w a i c d : one v a i = Ok c -> one w a i = Ok d -> (c = d <-> input_looks_same v w a).
  Proof.
    destruct a as [p|n id x|n k|k].
    - intros H H'. apply utxo_one in H as (o & Ho & H). apply utxo_one in H' as (o' & Ho' & H').
      cbn [input_looks_same]. rewrite Ho, Ho'.
      destruct H as [(e & id & b & -> & B & ->)|[N ->]], H' as [(e' & id' & b' & -> & B' & ->)|[N' ->]].
      + split.
        * intros K. injection K as <- <- <-. split; [done|]. intros ?? K. injection K as <- <-. congruence.
        * intros [K1 K2]. injection K1 as <- <-. specialize (K2 _ _ eq_refl). congruence.
      + split; [done|]. intros [K _]. injection K as <-. by destruct (N' e id).
      + split; [done|]. intros [K _]. injection K as ->. by destruct (N e' id').
      + split.
        * intros K. injection K as <-. split; [done|]. intros ?? K. injection K as K. by apply N in K.
        * intros [K _]. by injection K as <-.
    - cbn. intros [= <-] [= <-]. done.
    - destruct k; cbn; try (intros [= <-] [= <-]; done).
      all: destruct (v_order v _) as [[a1 g1 x1 y1]|]; cbn; [|done]; intros [= <-].
      all: destruct (v_order w _) as [[a2 g2 x2 y2]|]; cbn; [|done]; intros [= <-].
      all: split; [intros [=]; subst; done|].
      + intros [=]. by subst.
      + intros [[=] [=]]. by subst.
    - destruct k; cbn; try (intros [= <-] [= <-]; done).
      all: destruct (v_order v _) as [[a1 g1 x1 y1]|]; cbn; [|done]; intros [= <-].
      all: destruct (v_order w _) as [[a2 g2 x2 y2]|]; cbn; [|done]; intros [= <-].
      all: split; [intros [=]; subst; done|].
      + intros [[=] [=]]. by subst.
      + intros [=]. by subst.
  Qed.
  Lemma one_valid good_key good_vrf v a i c : valid_view good_key good_vrf v -> one v a i = Ok c -> valid_commitment good_key good_vrf c.
  Proof.
    intros (Vu & Vp & Vo). destruct a as [p|n id x|n k|k].
    - intros H. apply utxo_one in H as (o & Ho & [(e & id & b & -> & B & ->)|[N ->]]).
      + split; [by apply (Vu p)|by apply (Vp id)].
      + by apply (Vu p).
    - cbn. by intros [= <-].
    - destruct k; cbn; try (intros [= <-]; done).
      all: destruct (v_order v _) as [e|] eqn:E; cbn; [|done]; intros [= <-]; apply Vo in E; try done.
      by destruct E as (E1 & E2 & _).
    - destruct k; cbn; try (intros [= <-]; done).
      all: destruct (v_order v _) as [e|] eqn:E; cbn; [|done]; intros [= <-]; apply Vo in E; try done.
      by destruct E as (E1 & E2 & _).
  Qed.
  Lemma one0_is v a i c : one0 v a i = Ok c ->
    (exists p o, a = IUtxo p /\ v_utxo v p = Some o /\ c = MUtxo o) \/ ((forall p, a <> IUtxo p) /\ c = MNone).
  Proof.
    unfold commitment_v0. intros H. apply rbind_ok in H as (c' & _ & H). destruct a as [p|n id x|n k|k].
    2,3,4: right; split; [done|congruence].
    left. destruct (v_utxo v p) as [o|] eqn:E; cbn in H; [|done]. injection H as <-. by exists p, o.
  Qed.

  Lemma commitments_length cv v ins cs : commitments cv v ins = Ok cs -> length cs = length ins.
  Proof. unfold commitments, make_commitments. intros H. by apply commit_from_all in H as [? _]. Qed.
  Lemma commitments_valid good_key good_vrf cv v ins cs : valid_view good_key good_vrf v ->
    commitments cv v ins = Ok cs -> Forall (valid_commitment good_key good_vrf) cs.
  Proof.
    intros Vv H. apply commit_from_all in H as [L P]. apply Forall_lookup. intros i c Hc.
    destruct (lookup_lt_is_Some_2 ins i) as [a Ha]; [rewrite <- L; by eapply lookup_lt_Some|].
    destruct (P i a Ha) as (c' & Hc' & E). assert (c' = c) as -> by congruence. destruct cv.
    - apply one0_is in E as [(p & o & -> & Ho & ->)|[_ ->]]; [|done]. by apply (proj1 Vv p).
    - by eapply one_valid in E.
  Qed.
  Lemma commitments_eq v w ins cs ds : commitments CV1 v ins = Ok cs -> commitments CV1 w ins = Ok ds ->
    (cs = ds <-> Forall (input_looks_same v w) ins).
  Proof.
    intros H H'. rewrite (commit_from_eq _ _ _ _ _ _ H H').
    apply commit_from_all in H as [_ P]. apply commit_from_all in H' as [_ P']. rewrite Forall_lookup. split.
    - intros E i a Ha. specialize (E i a Ha). destruct (P i a Ha) as (c & _ & Hc), (P' i a Ha) as (d & _ & Hd).
      apply (one_eq _ _ _ _ _ _ Hc Hd). congruence.
    - intros E i a Ha. specialize (E i a Ha). destruct (P i a Ha) as (c & _ & Hc), (P' i a Ha) as (d & _ & Hd).
      rewrite Hc, Hd. f_equal. by apply (one_eq _ _ _ _ _ _ Hc Hd).
  Qed.
  Lemma commitments_eq_at v w ins ins' cs ds i j a : commitments CV1 v ins = Ok cs -> commitments CV1 w ins' = Ok ds ->
    ins !! i = Some a -> ins' !! j = Some a -> cs !! i = ds !! j -> input_looks_same v w a.
  Proof.
    intros H H' Ha Ha' E. apply commit_from_all in H as [_ P]. apply commit_from_all in H' as [_ P'].
    destruct (P i a Ha) as (c & Hc & E1), (P' j a Ha') as (d & Hd & E2). cbn [Nat.add] in E1, E2.
    assert (c = d) as <- by congruence.
    assert (one w a i = one w a j \/ exists e, one w a i = Err e) as [X|[e X]].
    { clear. destruct a as [p|n id x|n k|k]; cbn.
      - destruct (v_utxo w p) as [o|]; cbn; [|right; eauto]. destruct (out_case o) as [(d & id & ->)|[N E]].
        + destruct (v_pool w id); cbn; [by left|right; eauto].
        + left. by rewrite !E.
      - by left.
      - destruct k; try (by left); destruct (v_order w _); cbn; try (by left); right; eauto.
      - destruct k; try (by left); destruct (v_order w _); cbn; try (by left); right; eauto. }
    - rewrite <- X in E2. by apply (one_eq _ _ _ _ _ _ E1 E2).
    - exfalso. clear - E2 X. destruct a as [p|n id x|n k|k]; cbn in *.
      + destruct (v_utxo w p) as [o|]; cbn in *; [|done]. destruct (out_case o) as [(d & id & ->)|[N E]].
        * destruct (v_pool w id); cbn in *; done.
        * rewrite E in X. done.
      + done.
      + destruct k; try done; destruct (v_order w _); done.
      + destruct k; try done; destruct (v_order w _); done.
  Qed.
  Lemma commitments0_eq v w ins cs ds : commitments CV0 v ins = Ok cs -> commitments CV0 w ins = Ok ds ->
    (cs = ds <-> (forall p, IUtxo p ∈ ins -> v_utxo v p = v_utxo w p)).
  Proof.
    intros H H'. rewrite (commit_from_eq _ _ _ _ _ _ H H').
    apply commit_from_all in H as [_ P]. apply commit_from_all in H' as [_ P']. split.
    - intros E p Hp. apply elem_of_list_lookup in Hp as [i Ha]. specialize (E i _ Ha).
      destruct (P i _ Ha) as (c & _ & Hc), (P' i _ Ha) as (d & _ & Hd).
      apply one0_is in Hc as Hc'. apply one0_is in Hd as Hd'.
      destruct Hc' as [(q & o & [= <-] & Ho & ->)|[N _]]; [|by destruct (N p)].
      destruct Hd' as [(q & o' & [= <-] & Ho' & ->)|[N _]]; [|by destruct (N p)]. congruence.
    - intros E i a Ha. destruct (P i _ Ha) as (c & _ & Hc), (P' i _ Ha) as (d & _ & Hd). rewrite Hc, Hd. f_equal.
      apply one0_is in Hc as [(q & o & -> & Ho & ->)|[N ->]]; apply one0_is in Hd as [(q' & o' & K & Ho' & ->)|[N' ->]]; try done.
      + injection K as <-. specialize (E q (elem_of_list_lookup_2 _ _ _ Ha)). congruence.
      + by destruct (N' q).
      + by destruct (N q').
  Qed.
End Views.

Lemma ready good_key good_vrf cv m t i v cs : sighash_type m -> valid_view good_key good_vrf v -> valid_transaction good_key good_vrf t ->
  (i < length (t_inputs t))%nat -> (only_this_output m -> (i < length (t_outputs t))%nat) -> commitments cv v (t_inputs t) = Ok cs ->
  signable_input good_key good_vrf m t cs i.
Proof.
  intros Ty Vv Vt I O H. split; [done|]. split; [done|]. split; [by eapply commitments_valid|].
  split; [by eapply commitments_length|done].
Qed.
