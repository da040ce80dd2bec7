(** Proofs about frames. *)
From Coq Require Import Strings.Byte.
From Verif Require Import Base CodecModel CodecProofs FrameModel FrameSpec.
Local Open Scope N_scope.

Section FrameProofs.
  Context {Msg : Type} (encode : Msg -> bytes) (decode_msg : bytes -> option Msg) (max : option nat).
  Local Notation decode_frame := (decode_frame decode_msg max).
  Local Notation recv := (recv decode_msg max).
  Local Notation recv_times := (recv_times recv).

  (** More bytes do not change a decision once it is taken *)
  Lemma decode_more src more r rest : decode_frame src = (r, rest) -> r <> Ok None -> exists rest', decode_frame (src ++ more) = (r, rest') /\ rest' = rest ++ more.
  Proof.
    unfold FrameModel.decode_frame. destruct (Nat.ltb_spec (length src) 4) as [L|L]; [by intros [= <- _]|].
    rewrite (proj2 (Nat.ltb_ge (length (src ++ more)) 4)) by (rewrite app_length; lia). rewrite take_app_le by lia.
    destruct (check_size max (N.to_nat (of_le (take 4 src)))) as [[]|e|]; [|intros [= <- <-] _; by eexists..].
    rewrite (drop_app_le src more 4) by lia. rewrite app_length.
    destruct (Nat.ltb_spec (length (drop 4 src)) (N.to_nat (of_le (take 4 src)))) as [L'|L']; [by intros [= <- _]|].
    rewrite (proj2 (Nat.ltb_ge _ _)) by lia. rewrite take_app_le by lia. rewrite drop_length in L'.
    rewrite (drop_app_le src) by lia. intros [= <- <-] _. by eexists.
  Qed.
  Lemma decode_wait src rest : decode_frame src = (Ok None, rest) -> rest = src.
  Proof.
    unfold FrameModel.decode_frame. destruct (length src <? 4)%nat; [by intros [= <-]|].
    destruct (check_size max (N.to_nat (of_le (take 4 src)))) as [[]|e|]; [|done|done].
    destruct (length (drop 4 src) <? _)%nat; [by intros [= <-]|]. destruct (decode_msg _); done.
  Qed.
  Lemma decode_split src r rest : decode_frame src = (r, rest) -> exists used, src = used ++ rest.
  Proof.
    unfold FrameModel.decode_frame. destruct (length src <? 4)%nat; [intros [= _ <-]; by exists []|].
    destruct (check_size max (N.to_nat (of_le (take 4 src)))) as [[]|e|]; [|intros [= _ <-]; by exists []..].
    destruct (length (drop 4 src) <? _)%nat; [intros [= _ <-]; by exists []|]. intros [= _ <-].
    exists (take (4 + N.to_nat (of_le (take 4 src))) src). symmetry. apply take_drop.
  Qed.

  (** What a call of [recv] gives is decided by all the bytes there are *)
  Definition outcome (bs : bytes) : res frame_error Msg * bytes :=
    match decode_frame bs with
    | (Ok (Some m), rest) => (Ok m, rest)
    | (Ok None, rest) => (Err UnexpectedEof, rest)
    | (Err e, rest) => (Err e, rest)
    | (Panic, rest) => (Panic, rest)
    end.
  Lemma recv_spec reads : forall buffer, open reads -> exists b s, recv buffer reads = ((outcome (buffer ++ concat reads)).1, b, s) /\
    b ++ concat s = (outcome (buffer ++ concat reads)).2 /\ open s.
  Proof.
    induction reads as [|c reads IH]; intros buffer O; cbn [FrameModel.recv concat].
    - rewrite app_nil_r. unfold outcome. destruct (decode_frame buffer) as [[[m|]|e|] rest]; eexists _, _; (split; [reflexivity|]); cbn; by rewrite app_nil_r.
    - destruct (decode_frame buffer) as [r rest] eqn:D. apply Forall_cons in O as [O1 O2].
      assert (r = Ok None \/ r <> Ok None) as [->|N'] by (destruct r as [[?|]|?|]; by auto).
      + apply decode_wait in D as ->. destruct c as [|x c]; [done|]. destruct (IH (buffer ++ x :: c) O2) as (b & s & E & F & G).
        exists b, s. rewrite <- app_assoc in E, F. done.
      + destruct (decode_more _ (c ++ concat reads) _ _ D N') as (rest' & E & ->). unfold outcome. rewrite E.
        destruct r as [[m|]|e|]; try done; eexists _, _; (split; [reflexivity|]); (split; [done|]); by apply Forall_cons.
  Qed.

  Lemma decode_frame_of m rest : decode_msg (encode m) = Some m -> N.of_nat (length (encode m)) < 2 ^ 32 ->
    check_size max (length (encode m)) = Ok tt -> decode_frame (frame (encode m) ++ rest) = (Ok (Some m), rest).
  Proof.
    intros R L C. unfold FrameModel.decode_frame, frame. rewrite (proj2 (Nat.ltb_ge (length ((le 4 (N.of_nat (length (encode m))) ++ encode m) ++ rest)) 4)) by (rewrite !app_length, le_length; lia).
    rewrite <- app_assoc. rewrite take_app_alt by (by rewrite le_length). rewrite of_le_le by done. rewrite Nat2N.id, C.
    rewrite drop_app_alt by (by rewrite le_length). rewrite app_length. rewrite (proj2 (Nat.ltb_ge _ _)) by lia.
    rewrite take_app. rewrite R. cbn [ok_or rbind]. f_equal.
    rewrite <- drop_drop. rewrite drop_app_alt by (by rewrite le_length). apply drop_app.
  Qed.
End FrameProofs.

Section FrameTop.
  Context {Msg : Type} (encode : Msg -> bytes) (decode_msg : bytes -> option Msg) (max : option nat).
  Context (R : forall m, decode_msg (encode m) = Some m).
  Local Notation recv := (recv decode_msg max).
  Local Notation send := (send encode max).

  Lemma send_ok m b : send m = Ok b -> N.of_nat (length (encode m)) < 2 ^ 32 -> b = frame (encode m) /\ check_size max (length (encode m)) = Ok tt.
  Proof.
    unfold FrameModel.send. intros H L. destruct (check_size max (length (encode m))) as [[]|e|]; try done. cbn [rbind] in H.
    assert (b = le 4 (N.of_nat (length (encode m)) mod 2 ^ 32) ++ encode m) as -> by congruence.
    split; [|reflexivity]. unfold frame. rewrite N.mod_small by exact L. reflexivity.
  Qed.
  Lemma outcome_frame m rest : N.of_nat (length (encode m)) < 2 ^ 32 -> check_size max (length (encode m)) = Ok tt ->
    outcome decode_msg max (frame (encode m) ++ rest) = (Ok m, rest).
  Proof. intros L C. unfold outcome. by rewrite (decode_frame_of encode decode_msg max m rest (R m) L C). Qed.

  Lemma received_as_sent msgs : forall wire later buffer reads,
    Forall (fun m => N.of_nat (length (encode m)) < 2 ^ 32) msgs -> send_all send msgs = Ok wire ->
    open reads -> buffer ++ concat reads = wire ++ later ->
    exists b s, recv_times recv (length msgs) buffer reads = (map Ok msgs, b, s) /\ b ++ concat s = later /\ open s.
  Proof.
    induction msgs as [|m msgs IH]; intros wire later buffer reads F S O E; cbn [send_all] in S.
    - injection S as <-. by exists buffer, reads.
    - destruct (send m) as [w| |] eqn:S1; [|done|done]. cbn [rbind] in S. destruct (send_all send msgs) as [w'| |] eqn:S2; [|done|done]. cbn [rbind] in S. injection S as <-.
      apply Forall_cons in F as [F1 F2]. destruct (send_ok _ _ S1 F1) as [-> C].
      destruct (recv_spec decode_msg max reads buffer O) as (b & s & E1 & E2 & O').
      rewrite E, <- app_assoc, (outcome_frame m _ F1 C) in E1, E2. cbn [fst snd] in E1, E2.
      destruct (IH w' later b s F2 eq_refl O' E2) as (b' & s' & E3 & E4 & O'').
      exists b', s'. cbn [length recv_times]. rewrite E1, E3. done.
  Qed.
End FrameTop.

(** Waiting for the rest of a message *)
Lemma waits_bounded {Msg} (decode_msg : bytes -> option Msg) m src rest : decode_frame decode_msg (Some m) src = (Ok None, rest) -> (length src < 4 + m)%nat.
Proof.
  unfold decode_frame. destruct (Nat.ltb_spec (length src) 4) as [L|L]; [lia|]. unfold check_size.
  destruct (Nat.ltb_spec m (N.to_nat (of_le (take 4 src)))) as [L'|L']; cbn [negb ensure]; [done|].
  destruct (Nat.ltb_spec (length (drop 4 src)) (N.to_nat (of_le (take 4 src)))) as [L2|L2]; [|by destruct (decode_msg _)].
  rewrite drop_length in L2. lia.
Qed.
Lemma decode_no_panic {Msg} (decode_msg : bytes -> option Msg) max src : (decode_frame decode_msg max src).1 <> Panic.
Proof.
  unfold decode_frame. destruct (length src <? 4)%nat; [done|]. unfold check_size. destruct max as [m|]; [destruct (negb _); [|done]|]; cbn [ensure].
  all: destruct (length (drop 4 src) <? _)%nat; [done|]; by destruct (decode_msg _).
Qed.
Lemma recv_no_panic {Msg} (decode_msg : bytes -> option Msg) max reads : forall buffer, (recv decode_msg max buffer reads).1.1 <> Panic.
Proof.
  induction reads as [|c reads IH]; intros buffer; cbn [recv]; pose proof (decode_no_panic decode_msg max buffer) as P;
    destruct (decode_frame decode_msg max buffer) as [[[m|]|e|] rest]; try done.
  destruct c; [done|]. apply IH.
Qed.
