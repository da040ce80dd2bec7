(** C78: messages between peers, whatever way their bytes arrive. *)
From Coq Require Import Strings.Byte.
From Verif Require Import Base CodecModel CodecProofs FrameModel FrameSpec FrameProofs.
Local Open Scope N_scope.

Section C78.
  Context {Msg : Type} (encode : Msg -> bytes) (decode_msg : bytes -> option Msg) (max : option nat).
  Context (R : forall m, decode_msg (encode m) = Some m).
  Local Notation recv := (recv decode_msg max).
  Local Notation send := (send encode max).

  (** Whatever reads the bytes of sent messages arrive in, the receiver gets these messages, in this order, and then an end, with
      nothing left over *)
  Theorem C78_received_as_sent (msgs : list Msg) wire reads :
    Forall (fun m => N.of_nat (length (encode m)) < 2 ^ 32) msgs ->
    send_all send msgs = Ok wire -> concat reads = wire -> open reads ->
    recv_times recv (length msgs + 1) [] reads = (map Ok msgs ++ [Err UnexpectedEof], [], []).
  Proof.
    intros F S E O. destruct (received_as_sent encode decode_msg max R msgs wire [] [] reads F S O) as (b & s & H & L & O').
    { by rewrite E, app_nil_r. }
    apply app_eq_nil in L as [-> L]. assert (s = []) as ->.
    { destruct s as [|c s]; [done|]. apply Forall_cons in O' as [N _]. by destruct c. }
    clear - H. revert H. generalize (map Ok msgs : list (res frame_error Msg)). generalize (length msgs).
    intros n l. generalize (@nil byte) at 1 3. revert reads l. induction n as [|n IH]; intros reads l buffer H.
    - injection H as <- -> ->. done.
    - cbn [Nat.add recv_times] in *. destruct (recv buffer reads) as [[r b] s]. specialize (IH s).
      destruct (recv_times recv n b s) as [[l' b'] s'] eqn:E. injection H as <- -> ->. by rewrite (IH _ _ E).
  Qed.

  (** How the bytes are cut into reads, and how many of them are in the buffer already, changes neither what a call gives nor what
      the next one finds: an interrupted call that has read some of them loses nothing *)
  Theorem C78_arrival_does_not_matter n buffer reads buffer' reads' : open reads -> open reads' ->
    buffer ++ concat reads = buffer' ++ concat reads' ->
    let '(l, b, s) := recv_times recv n buffer reads in let '(l', b', s') := recv_times recv n buffer' reads' in
    l = l' /\ b ++ concat s = b' ++ concat s'.
  Proof.
    revert buffer reads buffer' reads'. induction n as [|n IH]; intros buffer reads buffer' reads' O O' E; [done|]. cbn [recv_times].
    destruct (recv_spec decode_msg max reads buffer O) as (b & s & E1 & E2 & P). destruct (recv_spec decode_msg max reads' buffer' O') as (b' & s' & E1' & E2' & P').
    rewrite E1, E1'. rewrite E in E2. rewrite <- E2' in E2. specialize (IH b s b' s' P P' E2).
    destruct (recv_times recv n b s) as [[l c] t], (recv_times recv n b' s') as [[l' c'] t']. rewrite E. destruct IH as [-> ->]. done.
  Qed.

  (** A frame whose bytes are not a message is reported and passed over; the ones after it are received as if it had not been there *)
  Theorem C78_bad_message_is_passed_over (body : bytes) (msgs : list Msg) wire reads :
    N.of_nat (length body) < 2 ^ 32 -> check_size max (length body) = Ok tt -> decode_msg body = None ->
    Forall (fun m => N.of_nat (length (encode m)) < 2 ^ 32) msgs ->
    send_all send msgs = Ok wire -> concat reads = frame body ++ wire -> open reads ->
    (recv_times recv (1 + length msgs) [] reads).1.1 = Err InvalidData :: map Ok msgs.
  Proof.
    intros L C D F S E O. destruct (recv_spec decode_msg max reads [] O) as (b & s & E1 & E2 & P).
    assert (outcome decode_msg max (frame body ++ wire) = (Err InvalidData, wire)) as Q.
    { unfold outcome, decode_frame, frame. rewrite <- app_assoc. rewrite (proj2 (Nat.ltb_ge (length (le 4 (N.of_nat (length body)) ++ body ++ wire)) 4)) by (rewrite app_length, le_length; lia).
      rewrite take_app_alt by (by rewrite le_length). rewrite of_le_le by done. rewrite Nat2N.id, C.
      rewrite drop_app_alt by (by rewrite le_length). rewrite (proj2 (Nat.ltb_ge (length (body ++ wire)) _)) by (rewrite app_length; lia).
      rewrite take_app, D. cbn [ok_or rbind]. f_equal. rewrite <- drop_drop. rewrite drop_app_alt by (by rewrite le_length). apply drop_app. }
    cbn [app] in E1, E2. rewrite E, Q in E1, E2. cbn [fst snd] in E1, E2.
    destruct (received_as_sent encode decode_msg max R msgs wire [] b s F S P) as (b' & s' & H & _). { by rewrite E2, app_nil_r. }
    cbn [Nat.add recv_times]. rewrite E1, H. done.
  Qed.
End C78.

(** With a limit, a sender sends exactly the messages within it, and a receiver refuses a longer one as soon as it has read the
    length, never waits with more than one frame of the allowed length, and hands out nothing else than what it decodes from so
    many bytes *)
Theorem C78_limit {Msg} (encode : Msg -> bytes) (decode_msg : bytes -> option Msg) max :
  (forall m, (exists b, send encode (Some max) m = Ok b) <-> (length (encode m) <= max)%nat) /\
  (forall size more reads, (max < N.to_nat size)%nat -> size < 2 ^ 32 ->
    recv decode_msg (Some max) (le 4 size ++ more) reads = (Err (TooLarge (N.to_nat size) max), le 4 size ++ more, reads)) /\
  (forall buffer rest, decode_frame decode_msg (Some max) buffer = (Ok None, rest) -> rest = buffer /\ (length buffer < 4 + max)%nat) /\
  (forall buffer m rest, decode_frame decode_msg (Some max) buffer = (Ok (Some m), rest) ->
    exists body, buffer = frame body ++ rest /\ (length body <= max)%nat /\ decode_msg body = Some m).
Proof.
  split_and!.
  - intros m. unfold send, check_size. destruct (Nat.ltb_spec max (length (encode m))) as [L|L]; cbn; split; intros H; try lia; [by destruct H|by eexists].
  - intros size more reads L B. assert (decode_frame decode_msg (Some max) (le 4 size ++ more) = (Err (TooLarge (N.to_nat size) max), le 4 size ++ more)) as D.
    { unfold decode_frame. rewrite (proj2 (Nat.ltb_ge (length (le 4 size ++ more)) 4)) by (rewrite app_length, le_length; lia).
      rewrite take_app_alt by (by rewrite le_length). rewrite of_le_le by done. unfold check_size. by rewrite (proj2 (Nat.ltb_lt max _) L). }
    destruct reads; cbn [recv]; by rewrite D.
  - intros buffer rest D. split; [by eapply decode_wait|by eapply waits_bounded].
  - intros buffer m rest. unfold decode_frame. destruct (Nat.ltb_spec (length buffer) 4) as [L|L]; [done|]. unfold check_size.
    destruct (Nat.ltb_spec max (N.to_nat (of_le (take 4 buffer)))) as [L'|L']; cbn [negb ensure]; [done|].
    destruct (Nat.ltb_spec (length (drop 4 buffer)) (N.to_nat (of_le (take 4 buffer)))) as [L2|L2]; [done|].
    set (n := N.to_nat (of_le (take 4 buffer))) in *. destruct (decode_msg (take n (drop 4 buffer))) as [m'|] eqn:D; [|done]. cbn [ok_or rbind]. intros [= -> <-].
    exists (take n (drop 4 buffer)). split_and!; [|rewrite take_length; lia|done].
    unfold frame. rewrite take_length, Nat.min_l by lia. unfold n at 1. rewrite N2Nat.id.
    replace (le 4 (of_le (take 4 buffer))) with (take 4 buffer).
    + change (drop (S (S (S (S n)))) buffer) with (drop (4 + n) buffer). rewrite <- app_assoc, <- drop_drop, !take_drop. done.
    + symmetry. replace 4%nat with (length (take 4 buffer)) at 1 by (rewrite take_length; lia). apply le_of_le.
Qed.
(** Nothing that arrives makes the receiver panic *)
(** Once the stream has ended nothing that might come after is read. *)
Theorem C78_nothing_after_the_end {Msg} (decode_msg : bytes -> option Msg) max buffer before after after' :
  (recv decode_msg max buffer (before ++ [] :: after)).1 = (recv decode_msg max buffer (before ++ [] :: after')).1.
Proof.
  revert buffer. induction before as [|c before IH]; intros buffer; cbn; destruct (decode_frame decode_msg max buffer) as [[[m|]| |] b]; try done.
  destruct c as [|x c]; [done|]. apply IH.
Qed.
Theorem C78_no_panic {Msg} (decode_msg : bytes -> option Msg) max buffer reads : (recv decode_msg max buffer reads).1.1 <> Panic.
Proof. apply recv_no_panic. Qed.

(** Without a limit, a message of 2^32 bytes arrives as another one: its length does not fit the four bytes in front of it *)
Theorem C78_received_as_sent_without_limit_refuted :
  ~ (forall (Msg : Type) (encode : Msg -> bytes) (decode_msg : bytes -> option Msg), (forall m, decode_msg (encode m) = Some m) ->
     forall m wire reads, send encode None m = Ok wire -> concat reads = wire -> open reads -> (recv decode_msg None [] reads).1.1 = Ok m).
Proof.
  intros H. set (m := replicate (N.to_nat (2 ^ 32)) x00).
  assert (length m = N.to_nat (2 ^ 32)) as L by apply replicate_length.
  assert (forall wire, wire = le 4 0 ++ m -> send (fun b => b) None m = Ok wire) as S.
  { intros wire ->. unfold send. cbn [check_size rbind]. rewrite L, N2Nat.id. reflexivity. }
  specialize (H bytes (fun b => b) Some (fun _ => eq_refl) m (le 4 0 ++ m) [le 4 0 ++ m] (S _ eq_refl)).
  clearbody m. cbn [concat] in H. rewrite app_nil_r in H. specialize (H eq_refl). assert (open [le 4 0 ++ m]) as O by (by repeat constructor). specialize (H O).
  assert ((recv Some None [] [le 4 0 ++ m]).1.1 = Ok ([] : bytes)) as E by reflexivity. rewrite E in H. injection H as <-.
  apply (f_equal N.of_nat) in L. rewrite N2Nat.id in L. done.
Qed.

(** Two messages arriving in three reads *)
Example C78_example : let msgs := [[x01; x02; x03]; [x04]] in
  send_all (send (fun b : bytes => b) (Some 3%nat)) msgs = Ok [x03; x00; x00; x00; x01; x02; x03; x01; x00; x00; x00; x04] /\
  Forall (fun m : bytes => N.of_nat (length m) < 2 ^ 32) msgs /\
  recv_times (recv Some (Some 3%nat)) 3 [] [[x03; x00]; [x00; x00; x01; x02; x03; x01; x00; x00]; [x00; x04]] = ([Ok [x01; x02; x03]; Ok [x04]; Err UnexpectedEof], [], []).
Proof. split; [done|]. split; [|done]. by repeat constructor. Qed.
(** A body that is not a message, followed by one that is *)
Example C78_example_bad : let dec b := if (length b =? 1)%nat then Some b else None in
  (recv_times (recv dec (Some 3%nat)) 2 [] [frame [x01; x02]; frame [x07]]).1.1 = [Err InvalidData; Ok [x07]].
Proof. done. Qed.

Print Assumptions C78_received_as_sent.
Print Assumptions C78_arrival_does_not_matter.
Print Assumptions C78_bad_message_is_passed_over.
Print Assumptions C78_limit.
Print Assumptions C78_no_panic.
Print Assumptions C78_received_as_sent_without_limit_refuted.
Print Assumptions C78_nothing_after_the_end.
