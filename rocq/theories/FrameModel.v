(** Model of how messages are cut out of a stream of bytes between two peers, from networking/src/transport/message_codec.rs and
    networking/src/transport/message_stream.rs. The messages and their encoding are parameters; a stream is what arrives with
    each read, in order; errors of the socket other than its end are not modelled. *)
From Coq Require Import Strings.Byte.
From Verif Require Import Base CodecModel.
Local Open Scope N_scope.

(** networking/src/error.rs 22-52 *)
Inductive frame_error := TooLarge (actual max : nat) | InvalidData | UnexpectedEof.

Section Frame.
  Context {Msg : Type} (encode : Msg -> bytes) (decode_msg : bytes -> option Msg) (max : option nat).

  (** message_codec.rs 44-56 *)
  Definition check_size (size : nat) : res frame_error unit :=
    match max with
    | Some m => ensure (negb (m <? size)%nat) (TooLarge size m)
    | None => Ok tt
    end.

  (** message_codec.rs 63-91: [decode]. Gives the result and what is left in the buffer. *)
  Definition decode_frame (src : bytes) : res frame_error (option Msg) * bytes :=
    if (length src <? 4)%nat then (Ok None, src)
    else
      let length_ := N.to_nat (of_le (take 4 src)) in
      match check_size length_ with
      | Ok _ =>
          if (length (drop 4 src) <? length_)%nat then (Ok None, src)
          else (let? m := ok_or (decode_msg (take length_ (drop 4 src))) InvalidData in Ok (Some m), drop (4 + length_) src)
      | Err e => (Err e, src)
      | Panic => (Panic, src)
      end.

  (** message_codec.rs 96-110: [encode]; the length is cut to 32 bits. message_stream.rs 111-117: [send] writes all of it *)
  Definition send (m : Msg) : res frame_error bytes :=
    check_size (length (encode m)) ;? Ok (le 4 (N.of_nat (length (encode m)) mod 2 ^ 32) ++ encode m).

  (** message_stream.rs 71-84: [recv]: the buffer, and what the next reads will give; a read of nothing is the end *)
  Fixpoint recv (buffer : bytes) (reads : list bytes) : res frame_error Msg * bytes * list bytes :=
    match decode_frame buffer with
    | (Ok (Some m), buffer) => (Ok m, buffer, reads)
    | (Ok None, buffer) =>
        match reads with
        | [] => (Err UnexpectedEof, buffer, [])
        | [] :: reads => (Err UnexpectedEof, buffer, reads)
        | c :: reads => recv (buffer ++ c) reads
        end
    | (Err e, buffer) => (Err e, buffer, reads)
    | (Panic, buffer) => (Panic, buffer, reads)
    end.
End Frame.
