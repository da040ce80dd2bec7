(** Proofs about signatures of inputs and texts. *)
From Coq Require Import Strings.Byte Sorted.
From Verif Require Import Base CodecModel CodecSpec CodecProofs WireModel WireSpec WireProofs ConstraintsProofs SighashModel AuthModel AuthSpec.
Local Open Scope N_scope.

(** ** The map *)
Lemma insert_fst k s l k' : k' ∈ map fst (bt_insert k s l) <-> k' = k \/ k' ∈ map fst l.
Proof.
  induction l as [|[k1 s1] l IH]; cbn [bt_insert map fst]; [rewrite elem_of_list_singleton; set_solver|].
  destruct (k <? k1); [|destruct (k =? k1) eqn:E]; cbn [map fst]; rewrite ?elem_of_cons, ?IH; [tauto| |tauto].
  apply N.eqb_eq in E as <-. tauto.
Qed.
Lemma increasing_cons k s l : increasing ((k, s) :: l) <-> increasing l /\ Forall (N.lt k) (map fst l).
Proof.
  unfold increasing. cbn [map fst]. split.
  - intros H. by apply StronglySorted_inv in H.
  - intros [H1 H2]. by constructor.
Qed.
Lemma insert_increasing k s l : increasing l -> increasing (bt_insert k s l).
Proof.
  induction l as [|[k1 s1] l IH]; intros H; cbn [bt_insert].
  - apply increasing_cons. split; [constructor|constructor].
  - apply increasing_cons in H as H'. destruct H' as [H1 H2].
    destruct (k <? k1) eqn:L; [|destruct (k =? k1) eqn:E].
    + apply N.ltb_lt in L. apply increasing_cons. split; [done|]. cbn [map fst]. constructor; [done|].
      eapply Forall_impl; [exact H2|]. intros x. cbn. lia.
    + apply N.eqb_eq in E as <-. by apply increasing_cons.
    + apply N.ltb_ge in L. apply N.eqb_neq in E. apply increasing_cons. split; [by apply IH|].
      apply Forall_forall. intros x Hx. apply insert_fst in Hx as [->|Hx]; [lia|]. rewrite Forall_forall in H2. by apply H2.
Qed.
Lemma get_none k l : bt_get k l = None <-> k ∉ map fst l.
Proof.
  induction l as [|[k1 s1] l IH]; cbn [bt_get map fst]; [set_solver|].
  rewrite elem_of_cons. destruct (k =? k1) eqn:E; [apply N.eqb_eq in E; split; [done|tauto]|].
  apply N.eqb_neq in E. rewrite IH. tauto.
Qed.
Lemma insert_new k s l : k ∉ map fst l -> bt_insert k s l ≡ₚ (k, s) :: l.
Proof.
  induction l as [|[k1 s1] l IH]; cbn [bt_insert map fst]; [done|]. rewrite elem_of_cons. intros N.
  destruct (k <? k1); [done|]. destruct (k =? k1) eqn:E; [apply N.eqb_eq in E; tauto|].
  rewrite IH by tauto. by rewrite Permutation_swap.
Qed.
Lemma increasing_nodup l : increasing l -> NoDup (map fst l).
Proof.
  unfold increasing. generalize (map fst l). clear l. intros l H. induction H as [|k l _ IH F]; constructor; [|done].
  intros X. rewrite Forall_forall in F. specialize (F k X). lia.
Qed.
Lemma insert_last k s l : Forall (fun x => x < k) (map fst l) -> bt_insert k s l = l ++ [(k, s)].
Proof.
  induction l as [|[k1 s1] l IH]; cbn [bt_insert map fst app]; [done|]. intros F. apply Forall_cons in F as [L F].
  rewrite (proj2 (N.ltb_ge _ _)) by lia. rewrite (proj2 (N.eqb_neq _ _)) by lia. by rewrite IH.
Qed.
Lemma sorted_app (l1 l2 : list N) : StronglySorted N.lt (l1 ++ l2) -> StronglySorted N.lt l1 /\ forall x y, x ∈ l1 -> y ∈ l2 -> x < y.
Proof.
  induction l1 as [|a l1 IH]; cbn [app]; intros H; [split; [constructor|set_solver]|].
  apply StronglySorted_inv in H as [H F]. apply IH in H as [H1 H2]. split.
  - constructor; [done|]. apply Forall_app in F as [F _]. done.
  - intros x y Hx Hy. apply elem_of_cons in Hx as [->|Hx]; [|by apply H2].
    rewrite Forall_forall in F. apply F. apply elem_of_app. by right.
Qed.
Lemma of_increasing l : increasing l -> bt_of l = l.
Proof.
  intros H. unfold bt_of. change l with ([] ++ l) at 2. change l with ([] ++ l) in H. revert H. generalize (@nil (N * bytes)) as acc.
  induction l as [|[k s] l IH]; intros acc H; cbn [fold_left fst snd]; [by rewrite app_nil_r|].
  rewrite insert_last.
  - rewrite IH; rewrite <- app_assoc; done.
  - unfold increasing in H. rewrite map_app in H. cbn [map fst] in H. apply sorted_app in H as [_ H].
    apply Forall_forall. intros x Hx. apply H; [done|]. by apply elem_of_list_here.
Qed.
Lemma fold_increasing l acc : increasing acc -> increasing (fold_left (fun m p => bt_insert (fst p) (snd p) m) l acc).
Proof. revert acc. induction l as [|p l IH]; intros acc H; [done|]. cbn [fold_left]. apply IH. by apply insert_increasing. Qed.
Lemma insert_Forall (P : N * bytes -> Prop) k s l : P (k, s) -> Forall P l -> Forall P (bt_insert k s l).
Proof.
  intros Hp. induction l as [|[k1 s1] l IH]; intros F; cbn [bt_insert]; [by constructor|].
  apply Forall_cons in F as [F1 F]. destruct (k <? k1); [|destruct (k =? k1)]; repeat constructor; try done. by apply IH.
Qed.
Lemma fold_Forall (P : N * bytes -> Prop) l acc : Forall P l -> Forall P acc -> Forall P (fold_left (fun m p => bt_insert (fst p) (snd p) m) l acc).
Proof.
  revert acc. induction l as [|[k s] l IH]; intros acc F Fa; [done|]. apply Forall_cons in F as [F1 F]. cbn [fold_left].
  apply IH; [done|]. by apply insert_Forall.
Qed.
Lemma increasing_same l l' : increasing l -> increasing l' -> l ≡ₚ l' -> l = l'.
Proof.
  revert l'. induction l as [|[k s] l IH]; intros l' H H' P.
  - symmetry in P. by apply Permutation_nil_r in P.
  - destruct l' as [|[k' s'] l']; [by apply Permutation_nil_r in P|].
    apply increasing_cons in H as [H F]. apply increasing_cons in H' as [H' F'].
    assert ((k, s) = (k', s')) as E.
    { assert ((k, s) ∈ (k', s') :: l') as X by (rewrite <- P; apply elem_of_list_here).
      apply elem_of_cons in X as [X|X]; [done|].
      assert ((k', s') ∈ (k, s) :: l) as Y by (rewrite P; apply elem_of_list_here).
      apply elem_of_cons in Y as [Y|Y]; [done|]. rewrite Forall_forall in F, F'.
      apply (elem_of_list_fmap_1 fst) in X, Y. specialize (F _ Y). specialize (F' _ X). cbn in F, F'. lia. }
    rewrite E. f_equal. apply IH; [done|done|]. rewrite E in P. by apply Permutation_cons_inv in P.
Qed.

(** ** Encodings *)
Lemma pair_codec : codec valid_pair enc_pair dec_pair.
Proof.
  split.
  - intros [k s] r [Hk Hs]. unfold enc_pair, dec_pair. rewrite <- app_assoc.
    rewrite (bind_reads _ _ _ _ _ _ u8_codec) by done. by rewrite (bind_reads _ _ _ _ _ _ signature_codec).
  - intros i [k s] r H. apply (bind_exact _ _ _ _ _ _ _ u8_codec) in H as (k' & r1 & Vk & -> & H).
    apply (bind_exact _ _ _ _ _ _ _ signature_codec) in H as (s' & r2 & Vs & -> & H). apply dret_some in H as [E ->].
    injection E as -> ->. split; [done|]. unfold enc_pair. by rewrite <- app_assoc.
Qed.
Section Codecs.
  Context (good_key : bytes -> bool).
  Lemma challenge_codec : codec (valid_challenge good_key) enc_challenge (dec_challenge good_key).
  Proof.
    pose proof (vec_codec _ _ _ (key_codec good_key)) as K. split.
    - intros [m ks] r [Hm Hk]. unfold enc_challenge, dec_challenge. rewrite <- app_assoc.
      rewrite (bind_reads _ _ _ _ _ _ u8_codec) by done. by rewrite (bind_reads _ _ _ _ _ _ K).
    - intros i [m ks] r H. apply (bind_exact _ _ _ _ _ _ _ u8_codec) in H as (k' & r1 & Vk & -> & H).
      apply (bind_exact _ _ _ _ _ _ _ K) in H as (s' & r2 & Vs & -> & H). apply dret_some in H as [E ->].
      injection E as -> ->. split; [done|]. unfold enc_challenge. by rewrite <- app_assoc.
  Qed.
  Lemma increasing_short l : increasing l -> Forall valid_pair l -> N.of_nat (length l) < 2 ^ 32.
  Proof.
    intros H F. apply increasing_nodup in H. rewrite <- (map_length fst l).
    assert (length (map fst l) <= length (map N.of_nat (seq 0 256)))%nat as L.
    { apply submseteq_length, NoDup_submseteq; [done|]. intros k Hk. apply elem_of_list_fmap in Hk as ([k' s] & -> & Hk).
      rewrite Forall_forall in F. apply F in Hk as [Hk _]. unfold is_u8 in Hk. cbn [fst] in *. apply elem_of_list_fmap.
      exists (N.to_nat k'). split; [lia|]. apply elem_of_seq. clear - Hk. lia. }
    rewrite (map_length N.of_nat), seq_length in L. clear - L. lia.
  Qed.
  Lemma multi_reads : reads_back (valid_multi good_key) enc_multi (dec_multi good_key).
  Proof.
    pose proof (vec_codec _ _ _ pair_codec) as P. intros [l c] r (Hi & Hp & Hc). cbn [ms_signatures ms_challenge] in *.
    unfold enc_multi, dec_multi, dec_btree, enc_btree. cbn [ms_signatures ms_challenge]. rewrite <- app_assoc.
    unfold dbind at 1. rewrite (bind_reads _ _ _ _ _ _ P) by (split; [by apply increasing_short|done]).
    unfold dret at 1. rewrite of_increasing by done. by rewrite (bind_reads _ _ _ _ _ _ challenge_codec).
  Qed.
  Lemma multi_decoded raw m : decode_all (dec_multi good_key) raw = Some m -> valid_multi good_key m.
  Proof.
    unfold decode_all. destruct (dec_multi good_key raw) as [[m' r]|] eqn:E; [|done]. destruct r; [|done]. intros [= <-].
    unfold dec_multi in E. apply dbind_some in E as (l & r1 & Hl & E). unfold dec_btree in Hl.
    apply (bind_exact _ _ _ _ _ _ _ (vec_codec _ _ _ pair_codec)) in Hl as (ps & r2 & [_ Vp] & -> & Hl).
    apply dret_some in Hl as [-> ->]. apply (bind_exact _ _ _ _ _ _ _ challenge_codec) in E as (c & r3 & Vc & -> & E).
    apply dret_some in E as [-> _]. split_and!; cbn [ms_signatures ms_challenge].
    - apply fold_increasing. constructor.
    - by apply fold_Forall.
    - apply Vc.
  Qed.
  Lemma decode_all_reads {A} (valid : A -> Prop) e d a : reads_back valid e d -> valid a -> decode_all d (e a) = Some a.
  Proof. intros R V. unfold decode_all. rewrite <- (app_nil_r (e a)). by rewrite R. Qed.
  Lemma decode_all_codec {A} (valid : A -> Prop) e d raw a : codec valid e d ->
    decode_all d raw = Some a <-> valid a /\ raw = e a.
  Proof.
    intros [R X]. split.
    - unfold decode_all. destruct (d raw) as [[a' r]|] eqn:E; [|done]. destruct r; [|done]. intros [= <-].
      apply X in E. by rewrite app_nil_r in E.
    - intros [V ->]. by eapply decode_all_reads.
  Qed.
End Codecs.

(** ** Checking *)
Lemma ensure_ok {E} b (e : E) : ensure b e = Ok tt <-> b = true.
Proof. unfold ensure. destruct b; split; done. Qed.
Lemma ensure_bind {E A} b (e : E) (k : unit -> res E A) x : rbind (ensure b e) k = Ok x <-> b = true /\ k tt = Ok x.
Proof. unfold ensure. destruct b; cbn; split; try done; by intros [? ?]. Qed.
Lemma same_true a b : same a b = true <-> a = b.
Proof. unfold same. destruct (List.list_eq_dec _ a b); split; done. Qed.

Section Checks.
  Context (max : nat).

  Lemma challenge_ok c : challenge_check max c = Ok tt <-> usable max c.
  Proof.
    unfold challenge_check, usable. rewrite !ensure_bind, ensure_ok, !negb_true_iff, Nat.eqb_neq, N.eqb_neq, !Nat.ltb_ge.
    lia.
  Qed.
  Lemma challenge_total c : challenge_check max c <> Panic.
  Proof. unfold challenge_check, ensure. repeat destruct (negb _); done. Qed.
  Definition within (c : challenge) (l : btree) : Prop := forall i s, (i, s) ∈ l -> (N.to_nat i < length (ch_keys c))%nat.
  Lemma structure_ok m : check_structure max m = Ok tt <->
    usable max (ms_challenge m) /\ within (ms_challenge m) (ms_signatures m) /\
    (length (ms_signatures m) <= N.to_nat (ch_min (ms_challenge m)))%nat.
  Proof.
    unfold check_structure. rewrite <- challenge_ok. destruct (challenge_check max (ms_challenge m)) as [[]|e|]; cbn [rmap_err rbind]; [|split; naive_solver..].
    rewrite ensure_bind, ensure_ok, negb_true_iff, Nat.ltb_ge, forallb_forall. split.
    - intros [H L]. split_and!; [done| |done]. intros i s Hs. apply elem_of_list_In in Hs. apply H in Hs. by apply Nat.ltb_lt in Hs.
    - intros (_ & H & L). split; [|done]. intros [i s] Hs. apply elem_of_list_In in Hs. apply H in Hs. by apply Nat.ltb_lt.
  Qed.
  Lemma structure_total m : check_structure max m <> Panic.
  Proof.
    unfold check_structure. pose proof (challenge_total (ms_challenge m)). unfold ensure.
    destruct (challenge_check max (ms_challenge m)) as [[]|e|]; cbn; [|done..]. destruct (forallb _ _); cbn; [|done]. by destruct (negb _).
  Qed.
End Checks.

Section Verifying.
  Context (max : nat) (verify : bytes -> bytes -> bytes -> bool).
  Definition all_good (c : challenge) (l : btree) (msg : bytes) : Prop :=
    forall i s, (i, s) ∈ l -> exists k, ch_keys c !! N.to_nat i = Some k /\ verify k s msg = true.
  Lemma good_within c l msg : all_good c l msg -> within c l.
  Proof. intros H i s Hs. destruct (H i s Hs) as (k & Hk & _). by eapply lookup_lt_Some. Qed.

  Lemma all_verify_is c msg l : within c l -> exists b, all_verify verify msg (ch_keys c) l = Ok b /\ (b = true <-> all_good c l msg).
  Proof.
    induction l as [|[i s] l IH]; intros W; cbn [all_verify].
    - exists true. split; [done|]. split; [|done]. intros _ i s H. by apply elem_of_nil in H.
    - destruct IH as (b & Hb & E); [intros j t Hj; apply (W j t); by apply elem_of_list_further|].
      destruct (lookup_lt_is_Some_2 (ch_keys c) (N.to_nat i)) as [k Hk]; [apply (W i s), elem_of_list_here|].
      rewrite Hk. cbn [expect rbind]. destruct (verify k s msg) eqn:V.
      + exists b. split; [done|]. rewrite E. split.
        * intros G j t Hj. apply elem_of_cons in Hj as [Hj|Hj]; [injection Hj as -> ->; by exists k|by apply G].
        * intros G j t Hj. apply G. by apply elem_of_list_further.
      + exists false. split; [done|]. split; [done|]. intros G. destruct (G i s) as (k' & Hk' & V'); [apply elem_of_list_here|congruence].
  Qed.
  Lemma verify_is m msg : check_structure max m = Ok tt -> exists r, verify_signatures max verify m msg = Ok r /\
    match r with
    | CompleteAndValid => all_good (ms_challenge m) (ms_signatures m) msg /\ length (ms_signatures m) = N.to_nat (ch_min (ms_challenge m))
    | Incomplete => all_good (ms_challenge m) (ms_signatures m) msg /\ (length (ms_signatures m) < N.to_nat (ch_min (ms_challenge m)))%nat
    | Invalid => ~ all_good (ms_challenge m) (ms_signatures m) msg
    end.
  Proof.
    intros S. unfold verify_signatures. rewrite S. cbn [rbind]. apply structure_ok in S as (_ & W & L).
    destruct (all_verify_is _ msg _ W) as (b & -> & E). cbn [rbind]. destruct b.
    - destruct (length (ms_signatures m) <? N.to_nat (ch_min (ms_challenge m)))%nat eqn:C.
      + exists Incomplete. apply Nat.ltb_lt in C. split; [done|]. split; [by apply E|done].
      + exists CompleteAndValid. apply Nat.ltb_ge in C. split; [done|]. split; [by apply E|lia].
    - exists Invalid. split; [done|]. intros G. apply E in G. done.
  Qed.
  Lemma verify_no_panic m msg : verify_signatures max verify m msg <> Panic.
  Proof.
    pose proof (structure_total max m). destruct (check_structure max m) as [[]|e|] eqn:S; [| |done].
    - destruct (verify_is m msg S) as (r & -> & _). done.
    - unfold verify_signatures. by rewrite S.
  Qed.
End Verifying.

Section Hashed.
  Context (max : nat) (hash : bytes -> bytes) (verify : bytes -> bytes -> bytes -> bool).
  Lemma multisig_ok h m msg : increasing (ms_signatures m) ->
    verify_multisig max hash verify h m msg = Ok tt <->
    challenge_hash hash (ms_challenge m) = h /\ usable max (ms_challenge m) /\ signed_enough verify (ms_challenge m) (ms_signatures m) msg.
  Proof.
    intros I. apply increasing_nodup in I. unfold verify_multisig. rewrite ensure_bind, same_true. split.
    - intros [Hh H]. apply rbind_ok in H as ([] & S & H). destruct (check_structure max m) as [[]|e|] eqn:S'; cbn in S; try discriminate S.
      destruct (verify_is max verify m msg S') as (r & R & K). rewrite R in H. cbn in H. apply structure_ok in S' as (U & _ & _).
      destruct r; try discriminate H. destruct K as [G L]. done.
    - intros (Hh & U & L & _ & G). split; [done|].
      assert (check_structure max m = Ok tt) as S.
      { apply structure_ok. split; [done|]. split; [by eapply good_within|lia]. }
      rewrite S. cbn. destruct (verify_is max verify m msg S) as (r & -> & K). cbn. destruct r; [done| |done].
      destruct K as [_ K]. lia.
  Qed.
  Lemma multisig_no_panic h m msg : verify_multisig max hash verify h m msg <> Panic.
  Proof.
    unfold verify_multisig, ensure. destruct (same _ _); cbn; [|done]. pose proof (structure_total max m) as S.
    destruct (check_structure max m) as [[]|e|]; cbn; [|done..]. pose proof (verify_no_panic max verify m msg) as V.
    destruct (verify_signatures max verify m msg) as [r|e|]; cbn; [|done..]. by destruct r.
  Qed.

End Hashed.

Section Raw.
  Context (max : nat) (good_key : bytes -> bool) (hash : bytes -> bytes) (verify : bytes -> bytes -> bytes -> bool).
  Lemma key_hash_spend_codec : codec (fun p => valid_key good_key (fst p) /\ is_bytes 64 (snd p)) (fun p => enc_key_hash_spend (fst p) (snd p)) (dec_key_hash_spend good_key).
  Proof.
    split.
    - intros [k s] r [Hk Hs]. unfold enc_key_hash_spend, dec_key_hash_spend. cbn [fst snd] in *. rewrite <- app_assoc.
      rewrite (bind_reads _ _ _ _ _ _ (key_codec good_key)) by done. by rewrite (bind_reads _ _ _ _ _ _ signature_codec).
    - intros i [k s] r H. apply (bind_exact _ _ _ _ _ _ _ (key_codec good_key)) in H as (k' & r1 & Vk & -> & H).
      apply (bind_exact _ _ _ _ _ _ _ signature_codec) in H as (s' & r2 & Vs & -> & H). apply dret_some in H as [E ->].
      injection E as -> ->. split; [done|]. unfold enc_key_hash_spend. by rewrite <- app_assoc.
  Qed.
  Lemma raw_ok d raw msg : verify_raw max good_key hash verify d raw msg = Ok tt <-> entitled max good_key hash verify d raw msg.
  Proof.
    destruct d as [|h|k|h|h]; cbn [verify_raw entitled]; [split; done| | |split; done|].
    - destruct (decode_all (dec_key_hash_spend good_key) raw) as [[k s]|] eqn:D; cbn [ok_or rbind].
      + apply (decode_all_codec _ _ _ _ _ key_hash_spend_codec) in D as [[Vk Vs] ->]. cbn [fst snd] in *.
        unfold verify_key_hash. rewrite ensure_bind, same_true, ensure_ok. unfold key_hash. split.
        * intros [Hh V]. by exists k, s.
        * intros (k' & s' & E & Vk' & Vs' & Hh & V). unfold enc_key_hash_spend in E.
          apply (codec_inj _ _ _ _ _ _ _ (proj1 (key_codec good_key)) Vk Vk') in E as [-> E].
          rewrite <- (app_nil_r (enc_signature s)), <- (app_nil_r (enc_signature s')) in E.
          apply (codec_inj _ _ _ _ _ _ _ (proj1 signature_codec) Vs Vs') in E as [-> _]. done.
      + split; [done|]. intros (k & s & -> & Vk & Vs & _).
        rewrite (proj2 (decode_all_codec _ _ _ _ (k, s) key_hash_spend_codec)) in D; done.
    - destruct (decode_all dec_signature raw) as [s|] eqn:D; cbn [ok_or rbind].
      + apply (decode_all_codec _ _ _ _ _ signature_codec) in D as [Vs ->]. unfold verify_key. rewrite ensure_ok. split.
        * intros V. by exists s.
        * intros (s' & E & Vs' & V). rewrite <- (app_nil_r (enc_signature s)), <- (app_nil_r (enc_signature s')) in E.
          apply (codec_inj _ _ _ _ _ _ _ (proj1 signature_codec) Vs Vs') in E as [-> _]. done.
      + split; [done|]. intros (s & -> & Vs & _). rewrite (proj2 (decode_all_codec _ _ _ _ s signature_codec)) in D; done.
    - destruct (decode_all (dec_multi good_key) raw) as [m|] eqn:D; cbn [ok_or rbind].
      + apply multi_decoded in D as (I & _). rewrite multisig_ok by done. split.
        * intros H. by exists m.
        * intros (m' & [= <-] & H). done.
      + split; [done|]. by intros (m & ? & _).
  Qed.
  Lemma raw_no_panic d raw msg : verify_raw max good_key hash verify d raw msg <> Panic.
  Proof.
    destruct d as [|h|k|h|h]; cbn [verify_raw]; try done.
    - destruct (decode_all _ raw) as [[k s]|]; cbn; [|done]. unfold verify_key_hash, ensure. destruct (same _ _); cbn; [|done]. by destruct (verify _ _ _).
    - destruct (decode_all _ raw) as [s|]; cbn; [|done]. unfold verify_key, ensure. by destruct (verify _ _ _).
    - destruct (decode_all _ raw) as [m|]; cbn; [|done]. apply multisig_no_panic.
  Qed.
End Raw.

(** ** Signing *)
Section Signing.
  Context (max : nat) (verify : bytes -> bytes -> bytes -> bool) {private aux : Type} (public_of : private -> bytes) (sign : private -> bytes -> aux -> bytes).
  Hypothesis works : forall key msg a, verify (public_of key) (sign key msg a) msg = true.
  Local Notation all_good := (all_good verify).
  Local Notation sign_multisig := (sign_multisig max verify public_of sign).

  Definition right_status (st : completion) : Prop :=
    match st with
    | Complete m => length (ms_signatures m) = N.to_nat (ch_min (ms_challenge m))
    | Partial m => (length (ms_signatures m) < N.to_nat (ch_min (ms_challenge m)))%nat
    end.
  Lemma insert_good c l msg i key a : i ∉ map fst l -> all_good c l msg -> ch_keys c !! N.to_nat i = Some (public_of key) ->
    all_good c (bt_insert i (sign key msg a) l) msg.
  Proof.
    intros N G K j s Hj. rewrite (insert_new _ _ _ N) in Hj. apply elem_of_cons in Hj as [Hj|Hj]; [|by apply G].
    injection Hj as -> ->. exists (public_of key). split; [done|apply works].
  Qed.
  (** What one call does when the given challenge is the one of the signatures so far *)
  Lemma sign_one i key msg m a : usable max (ms_challenge m) -> all_good (ms_challenge m) (ms_signatures m) msg ->
    (length (ms_signatures m) < N.to_nat (ch_min (ms_challenge m)))%nat -> i ∉ map fst (ms_signatures m) ->
    ch_keys (ms_challenge m) !! N.to_nat i = Some (public_of key) ->
    exists st, sign_multisig i key (ms_challenge m) msg m a = Ok st /\ right_status st /\
      signatures_of st = MultiSpend (bt_insert i (sign key msg a) (ms_signatures m)) (ms_challenge m).
  Proof.
    intros U G L N K. unfold AuthModel.sign_multisig. rewrite (proj2 (challenge_ok _ _) U). cbn [rmap_err rbind].
    rewrite (proj2 (get_none _ _) N). cbn [ensure rbind].
    assert (check_structure max m = Ok tt) as S.
    { apply structure_ok. split; [done|]. split; [by eapply good_within|lia]. }
    rewrite S. cbn [rmap_err rbind]. destruct (verify_is max verify m msg S) as (r & -> & R). cbn [rmap_err rbind].
    destruct r; [lia| |done]. rewrite K. cbn [ok_or rbind]. rewrite (proj2 (same_true _ _) eq_refl). cbn [ensure rbind].
    set (m' := MultiSpend _ _).
    assert (length (ms_signatures m') = Datatypes.S (length (ms_signatures m))) as L'.
    { unfold m'. cbn [ms_signatures]. by rewrite (insert_new _ _ _ N). }
    assert (all_good (ms_challenge m') (ms_signatures m') msg) as G' by (by apply insert_good).
    assert (check_structure max m' = Ok tt) as S'.
    { apply structure_ok. split; [done|]. split; [by eapply good_within|]. rewrite L'. cbn [m' ms_challenge]. lia. }
    rewrite S'. cbn [rmap_err rbind]. destruct (verify_is max verify m' msg S') as (r & -> & R'). cbn [rmap_err rbind].
    destruct r; [exists (Complete m')|exists (Partial m')|done]; (split; [done|]); (split; [|done]); apply R'.
  Qed.
  Lemma sign_no_panic i key msg m a : increasing (ms_signatures m) -> sign_multisig i key (ms_challenge m) msg m a <> Panic.
  Proof.
    intros I. unfold AuthModel.sign_multisig at 1. pose proof (challenge_total max (ms_challenge m)) as Tc.
    destruct (challenge_check max (ms_challenge m)) as [[]|e|] eqn:C; cbn [rmap_err rbind]; [|done..].
    destruct (bt_get i (ms_signatures m)) eqn:B; cbn [ensure rbind]; [done|].
    pose proof (structure_total max m) as Ts. destruct (check_structure max m) as [[]|e|] eqn:S; cbn [rmap_err rbind]; [|done..].
    destruct (verify_is max verify m msg S) as (r & V & R). rewrite V. cbn [rmap_err rbind]. destruct r; [done| |done].
    destruct (ch_keys (ms_challenge m) !! N.to_nat i) as [k|] eqn:K; cbn [ok_or rbind]; [|done].
    destruct (same k (public_of key)) eqn:E; cbn [ensure rbind]; [|done]. apply same_true in E as ->.
    destruct R as [G L]. apply challenge_ok in C. apply get_none in B.
    destruct (sign_one i key msg m a C G L B K) as (st & E & _). unfold AuthModel.sign_multisig in E.
    rewrite (proj2 (challenge_ok _ _) C), S, V, K, (proj2 (get_none _ _) B) in E. cbn [rmap_err rbind ensure ok_or] in E.
    rewrite (proj2 (same_true _ _) eq_refl) in E. cbn [rmap_err rbind ensure ok_or] in E.
    by rewrite E.
  Qed.
  Definition sig_of (msg : bytes) (x : N * private * aux) : N * bytes := (fst (fst x), sign (snd (fst x)) msg (snd x)).
  Lemma in_turn c msg l st : usable max c -> ms_challenge (signatures_of st) = c -> right_status st ->
    increasing (ms_signatures (signatures_of st)) -> all_good c (ms_signatures (signatures_of st)) msg -> signers public_of c l ->
    (forall x, x ∈ l -> fst (fst x) ∉ map fst (ms_signatures (signatures_of st))) ->
    (length (ms_signatures (signatures_of st)) + length l <= N.to_nat (ch_min c))%nat ->
    exists st', sign_in_turn (fun i key m a => sign_multisig i key c msg m a) st l = Ok st' /\ right_status st' /\
      ms_challenge (signatures_of st') = c /\ increasing (ms_signatures (signatures_of st')) /\
      all_good c (ms_signatures (signatures_of st')) msg /\
      ms_signatures (signatures_of st') ≡ₚ map (sig_of msg) l ++ ms_signatures (signatures_of st).
  Proof.
    intros U. revert st. induction l as [|[[i key] a] l IH]; intros st C R I G [D K] A L.
    - exists st. done.
    - cbn [sign_in_turn]. set (m := signatures_of st) in *.
      cbn [map fst] in D. apply NoDup_cons in D as [D1 D].
      assert (i ∉ map fst (ms_signatures m)) as N by (apply (A (i, key, a)), elem_of_list_here).
      assert (ch_keys c !! N.to_nat i = Some (public_of key)) as K1 by (apply (K i key a), elem_of_list_here).
      subst c. destruct (sign_one i key msg m a U G) as (st1 & E & R1 & S1); [cbn [length] in L; lia|done|done|].
      rewrite E. cbn [rbind]. destruct (IH st1) as (st' & E' & R' & C' & I' & G' & P').
      + by rewrite S1.
      + done.
      + rewrite S1. by apply insert_increasing.
      + rewrite S1. by apply insert_good.
      + split; [done|]. intros j k b Hj. apply (K j k b). by apply elem_of_list_further.
      + intros x Hx. rewrite S1. cbn [ms_signatures]. rewrite insert_fst. intros [X|X].
        * apply D1. rewrite <- X. apply elem_of_list_fmap. by exists x.
        * eapply A; [by apply elem_of_list_further|done].
      + rewrite S1. cbn [ms_signatures]. rewrite (insert_new _ _ _ N). cbn [length] in *. lia.
      + exists st'. split; [done|]. split; [done|]. split; [done|]. split; [done|]. split; [done|].
        rewrite P', S1. cbn [ms_signatures map app]. rewrite (insert_new _ _ _ N). by rewrite Permutation_middle.
  Qed.
  Lemma in_turn_app c msg l1 l2 st : sign_in_turn (fun i key m a => sign_multisig i key c msg m a) st (l1 ++ l2) =
    rbind (sign_in_turn (fun i key m a => sign_multisig i key c msg m a) st l1)
      (fun st => sign_in_turn (fun i key m a => sign_multisig i key c msg m a) st l2).
  Proof.
    revert st. induction l1 as [|[[i key] a] l1 IH]; intros st; cbn [app sign_in_turn]; [done|].
    destruct (sign_multisig i key c msg (signatures_of st) a) as [st1|e|]; cbn [rbind]; [apply IH|done..].
  Qed.
  Lemma complete_refuses i key c msg m a : usable max c -> ms_challenge m = c -> i ∉ map fst (ms_signatures m) ->
    all_good c (ms_signatures m) msg -> length (ms_signatures m) = N.to_nat (ch_min c) ->
    sign_multisig i key c msg m a = Err SAlreadyComplete.
  Proof.
    intros U C N G L. unfold AuthModel.sign_multisig. rewrite (proj2 (challenge_ok _ _) U). cbn [rmap_err rbind].
    rewrite (proj2 (get_none _ _) N). cbn [ensure rbind]. subst c.
    assert (check_structure max m = Ok tt) as S.
    { apply structure_ok. split; [done|]. split; [by eapply good_within|lia]. }
    rewrite S. cbn [rmap_err rbind]. destruct (verify_is max verify m msg S) as (r & -> & R). cbn [rmap_err rbind].
    destruct r; [done|lia|done].
  Qed.
End Signing.
