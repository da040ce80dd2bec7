(** What it means that an encoding is lossless and unambiguous. *)
From Verif Require Import Base CodecModel.

(** Whatever follows it, an encoded value is read back, and nothing after it is touched *)
Definition reads_back {A} (valid : A -> Prop) (e : A -> bytes) (d : decoder A) :=
  forall a rest, valid a -> d (e a ++ rest) = Some (a, rest).
(** Only the encoding of a value is read as this value, and what is read is a possible value of its type *)
Definition only_encodings {A} (valid : A -> Prop) (e : A -> bytes) (d : decoder A) :=
  forall input a rest, d input = Some (a, rest) -> valid a /\ input = e a ++ rest.
Definition codec {A} (valid : A -> Prop) (e : A -> bytes) (d : decoder A) :=
  reads_back valid e d /\ only_encodings valid e d.

(** A vector whose elements are possible values; longer ones cannot be encoded (the codec crate refuses to) *)
Definition valid_vec {A} (valid : A -> Prop) (l : list A) : Prop := (N.of_nat (length l) < 2 ^ 32)%N /\ Forall valid l.
Definition valid_option {A} (valid : A -> Prop) (o : option A) : Prop := match o with None => True | Some a => valid a end.
