(** Sending several messages and receiving several times. *)
From Coq Require Import Strings.Byte.
From Verif Require Import Base CodecModel FrameModel.
Local Open Scope N_scope.

(** Everything a sender puts on the wire for these messages *)
Fixpoint send_all {Msg} (send : Msg -> res frame_error bytes) (l : list Msg) : res frame_error bytes :=
  match l with [] => Ok [] | m :: l => let? b := send m in let? r := send_all send l in Ok (b ++ r) end.
(** The results of [n] calls of [recv], and what is left *)
Fixpoint recv_times {Msg} (recv : bytes -> list bytes -> res frame_error Msg * bytes * list bytes) (n : nat) (buffer : bytes) (reads : list bytes)
  : list (res frame_error Msg) * bytes * list bytes :=
  match n with
  | O => ([], buffer, reads)
  | S n => let '(r, b, s) := recv buffer reads in let '(l, b', s') := recv_times recv n b s in (r :: l, b', s')
  end.
(** What arrives is not empty as long as the connection is open *)
Definition open (reads : list bytes) : Prop := Forall (fun c => c <> []) reads.
(** A frame on the wire: the length in four bytes, lowest first, and as many bytes *)
Definition frame (body : bytes) : bytes := le 4 (N.of_nat (length body)) ++ body.
