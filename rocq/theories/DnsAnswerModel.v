(** Model of the choice of addresses for an answer of the dns server: dns-server/src/dns_server/mod.rs 294-354 [select_addresses].
    The random choice is a parameter [pick]: a sample of at most so many, shuffled. The number of addresses of the own version that is
    preferred is computed with floating point numbers; it is a parameter too. *)
From Verif Require Import Base.

Section DnsAnswer.
  Context (pick_same pick_other : nat -> list N -> list N).
  (** dns_server/mod.rs 294-354; an address and the software of its node; [None] is the overflow of [count - result.len()] *)
  Definition select_addresses (addrs : gmap N N) (own_version : N) (count preferred : nat) : option (list N) :=
    let same := (filter (fun av : N * N => av.2 = own_version) (map_to_list addrs)).*1 in
    let other := (filter (fun av : N * N => av.2 <> own_version) (map_to_list addrs)).*1 in
    let selected_same := pick_same count same in
    let selected_other := pick_other count other in
    let n1 := Nat.min preferred (length selected_same) in
    let result := take n1 selected_same in
    let selected_same := drop n1 selected_same in
    if decide (count < length result) then None
    else
      let n2 := Nat.min (count - length result) (length selected_other) in
      let result := result ++ take n2 selected_other in
      if decide (length result < count) then
        let n3 := Nat.min (count - length result) (length selected_same) in
        Some (result ++ take n3 selected_same)
      else Some result.
End DnsAnswer.

(** dns_server/mod.rs 319-335: the number of nodes of the own version that is preferred. [min_ratio] is in thousandths (per_thousand.rs 24-55).
    Computed exactly here, with floating point numbers in the code; without any address the share is not a number and [f64::max] ignores it. *)
Definition preferred_count (min_ratio : N) (count same all : N) : N :=
  let '(num, den) :=
    if (all =? 0)%N then (min_ratio, 1000%N)
    else if (same * 1000 <=? min_ratio * all)%N then (min_ratio, 1000%N) else (same, all) in
  ((2 * count * num + den) / (2 * den))%N.
