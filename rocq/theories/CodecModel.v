(** Model of the byte encoding of values (SCALE, as implemented by the parity-scale-codec crate which serialization/core/src/lib.rs
    18-25 re-exports; the crate is not part of the repository). Only the pieces the chain's types use are modelled: bytes,
    fixed-size arrays, little-endian integers, compact integers, vectors, options, enum indices and the tags of
    serialization/tagged/src/lib.rs. A decoder takes the input and gives the value and the rest of the input, or fails;
    error messages, the limits on nesting and memory, and reading errors of the input are not modelled. *)
From Coq Require Import Strings.Byte.
From Verif Require Import Base.
Local Open Scope N_scope.

Notation bytes := (list byte).
Definition decoder (A : Type) := bytes -> option (A * bytes).

Definition dret {A} (a : A) : decoder A := fun bs => Some (a, bs).
Definition dfail {A} : decoder A := fun _ => None.
Definition dbind {A B} (d : decoder A) (k : A -> decoder B) : decoder B :=
  fun bs => match d bs with Some (a, r) => k a r | None => None end.
Notation "'let!' x := d 'in' k" := (dbind d (fun x => k)) (at level 200, x name, d at level 100, k at level 200, right associativity).
Notation "d ;! k" := (dbind d (fun _ => k)) (at level 100, k at level 200, right associativity).
Definition dguard (b : bool) : decoder unit := if b then dret tt else dfail.

(** [Input::read_byte], [u8::decode] *)
Definition dec_byte : decoder byte := fun bs => match bs with b :: r => Some (b, r) | [] => None end.
(** [u8::encode] *)
Definition enc_byte (b : byte) : bytes := [b].

(** [[u8; n]::decode]: the array as it is *)
Definition dec_array (n : nat) : decoder bytes :=
  fun bs => if (n <=? length bs)%nat then Some (firstn n bs, skipn n bs) else None.
(** [[u8; n]::encode] *)
Definition enc_array (a : bytes) : bytes := a.

Definition byte_of (v : N) : byte := match Byte.of_N v with Some b => b | None => x00 end.
(** [to_le_bytes]: [n] bytes of [v], the lowest first *)
Fixpoint le (n : nat) (v : N) : bytes :=
  match n with O => [] | S n => byte_of (v mod 256) :: le n (v / 256) end.
(** [from_le_bytes] *)
Fixpoint of_le (bs : bytes) : N := match bs with [] => 0 | b :: r => Byte.to_N b + 256 * of_le r end.

(** [u16], [u32], [u64], [u128] without [codec(compact)]: [n] bytes *)
Definition enc_uint (n : nat) (v : N) : bytes := le n v.
Definition dec_uint (n : nat) : decoder N := let! a := dec_array n in dret (of_le a).

(** [Compact<T>::encode]: one, two or four bytes with the mode in the lowest two bits, or a length byte and as many bytes as
    the value needs *)
Definition bytes_needed (v : N) : nat := N.to_nat ((N.size v + 7) / 8).
Definition enc_compact (v : N) : bytes :=
  if v <? 2 ^ 6 then le 1 (4 * v)
  else if v <? 2 ^ 14 then le 2 (4 * v + 1)
  else if v <? 2 ^ 30 then le 4 (4 * v + 2)
  else byte_of (4 * (N.of_nat (bytes_needed v) - 4) + 3) :: le (bytes_needed v) v.

(** [Compact<T>::decode] for an integer of [w] bytes (4, 8 or 16): longer encodings than necessary are refused *)
Definition dec_compact (w : nat) : decoder N :=
  let! p := dec_byte in
  match Byte.to_N p mod 4 with
  | 0 => dret (Byte.to_N p / 4)
  | 1 => let! a := dec_array 1 in
         let v := of_le (p :: a) / 4 in
         dguard (2 ^ 6 <=? v) ;! dret v
  | 2 => let! a := dec_array 3 in
         let v := of_le (p :: a) / 4 in
         dguard (2 ^ 14 <=? v) ;! dret v
  | _ => let n := N.to_nat (Byte.to_N p / 4 + 4) in
         dguard (n <=? w)%nat ;!
         let! a := dec_array n in
         let v := of_le a in
         dguard (if (n =? 4)%nat then 2 ^ 30 <=? v else 256 ^ N.of_nat (n - 1) <=? v) ;! dret v
  end.

(** [Vec<T>]: the number of elements as a compact u32 and the elements *)
Definition enc_vec {A} (e : A -> bytes) (l : list A) : bytes := enc_compact (N.of_nat (length l)) ++ concat (map e l).
Fixpoint dec_times {A} (n : nat) (d : decoder A) : decoder (list A) :=
  match n with
  | O => dret []
  | S n => let! a := d in let! l := dec_times n d in dret (a :: l)
  end.
Definition dec_vec {A} (d : decoder A) : decoder (list A) := let! n := dec_compact 4 in dec_times (N.to_nat n) d.

(** [Option<T>] *)
Definition enc_option {A} (e : A -> bytes) (o : option A) : bytes := match o with None => [x00] | Some a => x01 :: e a end.
Definition dec_option {A} (d : decoder A) : decoder (option A) :=
  let! t := dec_byte in
  match t with x00 => dret None | x01 => let! a := d in dret (Some a) | _ => dfail end.

(** serialization/tagged/src/lib.rs 165-195: [Tag<N>] *)
Definition enc_tag (t : byte) : bytes := [t].
Definition dec_tag (t : byte) : decoder unit := let! b := dec_byte in dguard (Byte.eqb b t).

(** [DecodeAll::decode_all]: the whole input must be used *)
Definition decode_all {A} (d : decoder A) (bs : bytes) : option A :=
  match d bs with Some (a, []) => Some a | _ => None end.
