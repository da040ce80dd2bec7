(** Model of the filter that remembers the most recent items, from utils/src/bloom_filters. The positions an item is hashed to
    under a seed are a parameter (the crate probabilistic_collections computes them from the size and the wanted rate of false
    positives); rates of false positives are not modelled. Random numbers are arguments. *)
From Verif Require Import Base.

Section Bloom.
  Context {T Seed : Type} (positions : Seed -> T -> list nat).

  (** bloom_filter.rs 22-57: the bits that are set *)
  Record filter := { f_seed : Seed; f_bits : list nat }.
  (** bloom_filter.rs 28-41; a failed assertion is [Panic] *)
  Definition filter_new (size : nat) (s : Seed) : res unit filter := if (0 <? size)%nat then Ok {| f_seed := s; f_bits := [] |} else Panic.
  (** bloom_filter.rs 43-46 *)
  Definition filter_insert (f : filter) (x : T) : filter := {| f_seed := f_seed f; f_bits := positions (f_seed f) x ++ f_bits f |}.
  (** bloom_filter.rs 48-51 *)
  Definition filter_contains (f : filter) (x : T) : bool := forallb (fun p => existsb (Nat.eqb p) (f_bits f)) (positions (f_seed f) x).

  (** rolling_bloom_filter/mod.rs 29 *)
  Definition SUBFILTER_COUNT : nat := 3.
  (** rolling_bloom_filter/mod.rs 44-56 with cyclic_array.rs 17-20 *)
  Record rolling := { r_list : list filter; r_index : nat; r_count : nat; r_max : nat }.

  (** rolling_bloom_filter/mod.rs 65-89; cyclic_array.rs 23-28. A failed assertion is [Panic]. *)
  Definition rolling_new (size : nat) (s0 s1 s2 : Seed) : res unit rolling :=
    if (0 <? size)%nat then
      let mx := Nat.max 1 ((size + 1) / (SUBFILTER_COUNT - 1)) in
      let? a := filter_new mx s0 in let? b := filter_new mx s1 in let? c := filter_new mx s2 in
      Ok {| r_list := [a; b; c]; r_index := SUBFILTER_COUNT - 1; r_count := 0; r_max := mx |}
    else Panic.

  (** rolling_bloom_filter/mod.rs 92-108; cyclic_array.rs 31-39; [s] is the seed drawn when a subfilter is full. The debug assertion
      and an index out of range are [Panic]. *)
  Definition rolling_insert (r : rolling) (x : T) (s : Seed) : res unit rolling :=
    if (r_count r <? r_max r)%nat then
      match r_list r !! r_index r with
      | None => Panic
      | Some f =>
          let l := <[r_index r := filter_insert f x]> (r_list r) in
          let count := (r_count r + 1)%nat in
          if (count =? r_max r)%nat then
            let? n := filter_new (r_max r) s in
            let i := ((r_index r + 1) mod SUBFILTER_COUNT)%nat in
            if (i <? length l)%nat then Ok {| r_list := <[i := n]> l; r_index := i; r_count := 0; r_max := r_max r |} else Panic
          else Ok {| r_list := l; r_index := r_index r; r_count := count; r_max := r_max r |}
      end
    else Panic.

  (** rolling_bloom_filter/mod.rs 112-114 *)
  Definition rolling_contains (r : rolling) (x : T) : bool := existsb (fun f => filter_contains f x) (r_list r).
End Bloom.
Arguments filter : clear implicits.
Arguments rolling : clear implicits.
