(** The tables that limit the number of peer addresses: p2p/src/peer_manager/peerdb/address_tables/table.rs and mod.rs.

    Addresses are numbers. The hashes (calc_hash64 of salt.rs, keyed with the salt of the table) are parameters. *)
From Verif Require Import Base.

Notation addr := N (only parsing).
Notation slot := (N * N)%type (only parsing).

(** What the table computes from addresses: the group of an address (address_groups.rs:24-60) and the three uses of
    [calc_hash64] in table.rs:75-97, the salt being fixed. *)
Record hashes := Hashes {
  group_of : addr -> Z;
  hash_addr : addr -> N;             (* calc_hash64(&(salt, addr)) *)
  hash_group : Z -> N -> N;          (* calc_hash64(&(salt, addr_group, k)) *)
  hash_pos : addr -> N -> N }.       (* calc_hash64(&(salt, addr, bucket_idx)) *)

(** table.rs:26-45: [Table]. An entry of the array [buckets] that holds [id_max] is one that is absent here. *)
Record table := Table {
  t_hashes : hashes; t_rows : N; t_cols : N; t_id_max : N;
  t_buckets : gmap (N * N) N;
  t_addresses : gmap N N }.

(** table.rs:24 *)
Definition BUCKETS_PER_GROUP : N := 8.
Definition U32_MAX : N := 4294967295.

(** table.rs:52-65: [new_generic]; [new] takes [EntryId::MAX] for [id_max]. *)
Definition new_generic (h : hashes) (rows cols id_max : N) : res unit table :=
  if (rows * cols <=? id_max)%N then Ok (Table h rows cols id_max ∅ ∅) else Panic.

Definition set_parts (t : table) b a : table := Table (t_hashes t) (t_rows t) (t_cols t) (t_id_max t) b a.

(** table.rs:77-87, 89-92, 94-98. The remainder by zero panics; it is excluded by the configuration. *)
Definition bucket_idx (t : table) (a : addr) : N :=
  (hash_group (t_hashes t) (group_of (t_hashes t) a) (hash_addr (t_hashes t) a mod BUCKETS_PER_GROUP) mod t_rows t)%N.
Definition bucket_pos (t : table) (a : addr) (i : N) : N := (hash_pos (t_hashes t) a i mod t_cols t)%N.
Definition bucket_coords (t : table) (a : addr) : slot := let i := bucket_idx t a in (i, bucket_pos t a i).

(** table.rs:101-107 *)
Definition entry (t : table) (a : addr) : option addr := t_buckets t !! bucket_coords t a ≫= fun id => t_addresses t !! id.

(** table.rs:221-223: one more than the greatest id. *)
Definition next_id (t : table) : N := map_fold (fun id _ m => N.max (id + 1) m) 0%N (t_addresses t).

(** table.rs:225-246: the ids become 0, 1, 2, ... The code takes the old ids in increasing order; here the order is that of
    [map_to_list]. *)
Definition rebuild_ids (t : table) : res unit table :=
  let l := map_to_list (t_addresses t) in
  let new_addresses := list_to_map (imap (fun i p => (N.of_nat i, p.2)) l) : gmap N N in
  let id_map := list_to_map (imap (fun i p => (p.1, N.of_nat i)) l) : gmap N N in
  let? b := rfold (fun (b : gmap (N * N) N) (p : (N * N) * N) => let? id := expect (id_map !! p.2) in Ok (<[p.1 := id]> b))
                  (map_to_list (t_buckets t)) ∅ in
  Ok (set_parts t b new_addresses).

(** table.rs:209-219 *)
Definition allocate_id (t : table) : res unit (table * N) :=
  if (t_id_max t <=? next_id t)%N then
    let? t := rebuild_ids t in
    if (next_id t <? t_id_max t)%N then Ok (t, next_id t) else Panic
  else Ok (t, next_id t).

(** table.rs:112-120: the id of the entry for the address, and the address found there. *)
Definition get_or_create_entry (t : table) (a : addr) : res unit (table * N * addr) :=
  let c := bucket_coords t a in
  let? (t, id) := match t_buckets t !! c with
                   | None => let? (t, id) := allocate_id t in Ok (set_parts t (<[c := id]> (t_buckets t)) (t_addresses t), id)
                   | Some id => Ok (t, id)
                   end in
  match t_addresses t !! id with
  | Some x => Ok (t, id, x)
  | None => Ok (set_parts t (t_buckets t) (<[id := a]> (t_addresses t)), id, a)
  end.

(** table.rs:122-139. The assertion of line 128: an entry whose id is below [id_max] is in [addresses]. *)
Definition remove (t : table) (a : addr) : res unit table :=
  let c := bucket_coords t a in
  match t_buckets t !! c with
  | None => Ok t
  | Some id => match t_addresses t !! id with
               | None => Panic
               | Some x => if decide (x = a) then Ok (set_parts t (delete c (t_buckets t)) (delete id (t_addresses t))) else Ok t
               end
  end.

(** table.rs:142-156 *)
Definition replace (t : table) (a : addr) : res unit (table * option addr) :=
  let? (t, id, x) := get_or_create_entry t a in
  if decide (x = a) then Ok (t, None) else Ok (set_parts t (t_buckets t) (<[id := a]> (t_addresses t)), Some x).

(** table.rs:162-184 *)
Definition replace_if (t : table) (a : addr) (can_replace : addr -> bool) : res unit (table * option addr) :=
  let? (t, id, x) := get_or_create_entry t a in
  if decide (x = a) then Ok (t, None)
  else if can_replace x then Ok (set_parts t (t_buckets t) (<[id := a]> (t_addresses t)), Some x)
  else Ok (t, Some a).

(** table.rs:281-283: [addr_iter]; the order (of the ids) only feeds random choices. *)
Definition table_addresses (t : table) : list addr := map snd (map_to_list (t_addresses t)).

(** * address_tables/mod.rs *)

(** mod.rs:51-54: [AddressTables]. *)
Record tables := Tables { new_table : table; tried_table : table }.

(** mod.rs:56-72: [new]. [hn] and [ht] are the hashes with the salts mixed with 'n' and 't'. *)
Definition tables_new (hn ht : hashes) (new_rows tried_rows cols : N) : res unit tables :=
  let? n := new_generic hn new_rows cols U32_MAX in
  let? t := new_generic ht tried_rows cols U32_MAX in
  Ok (Tables n t).

(** mod.rs:81-97: the address moved to "new", and the one discarded from there. *)
Definition move_to_tried (ts : tables) (a : addr) : res unit (tables * option (addr * option addr)) :=
  let? n := remove (new_table ts) a in
  let? (t, prev) := replace (tried_table ts) a in
  match prev with
  | Some p => let? (n, d) := replace n p in Ok (Tables n t, Some (p, d))
  | None => Ok (Tables n t, None)
  end.

Inductive move_outcome := Succeeded (prev : option addr) | Cancelled.
(** mod.rs:101-121 *)
Definition move_to_new (ts : tables) (a : addr) (can_replace : addr -> bool) : res unit (tables * move_outcome) :=
  let? t := remove (tried_table ts) a in
  let? (n, d) := replace_if (new_table ts) a can_replace in
  Ok (Tables n t, if decide (d = Some a) then Cancelled else Succeeded d).

(** mod.rs:123-131 *)
Definition force_add_to_new (ts : tables) (a : addr) : res unit tables :=
  let? (n, _) := replace (new_table ts) a in Ok (Tables n (tried_table ts)).
Definition force_add_to_tried (ts : tables) (a : addr) : res unit tables :=
  let? (t, _) := replace (tried_table ts) a in Ok (Tables (new_table ts) t).

(** mod.rs:145-148: [remove]. *)
Definition tables_remove (ts : tables) (a : addr) : res unit tables :=
  let? n := remove (new_table ts) a in
  let? t := remove (tried_table ts) a in
  Ok (Tables n t).
