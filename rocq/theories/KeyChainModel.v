(** Model of the chains of keys an account of the wallet hands addresses out from, how it recognises payments to them, and what of it is
    stored. wallet/src/key_chain/leaf_key_chain/mod.rs, wallet/src/key_chain/account_key_chain/mod.rs, wallet/types/src/keys.rs,
    wallet/src/account/mod.rs. Deriving a child key is a function of the purpose and the index that does not fail. The chain of VRF keys and
    the standalone keys added by the user are not modelled. *)
From Verif Require Import Base.
Local Open Scope N_scope.

Definition U31_TOP : N := 2147483647.
Definition U32_TOP : N := 4294967295.

(** key_chain/mod.rs [KeyChainError], the ones that can occur here *)
Inductive key_err := LookAheadExceeded | InvalidChildNumber.

(** wallet/types/src/keys.rs 75-84 *)
Record usage := Usage { last_used : option N; last_issued : option N }.
(** keys.rs 116-122 *)
Definition issued_up_to (i : N) (u : usage) : usage :=
  if match last_issued u with Some old => old <? i | None => true end then Usage (last_used u) (Some i) else u.
(** keys.rs 99-108 *)
Definition used_up_to (i : N) (u : usage) : usage :=
  if match last_used u with Some old => old <? i | None => true end then issued_up_to i (Usage (Some i) (last_issued u)) else u.

(** u31.rs 50-52 *)
Definition plus_one (i : N) : res key_err N := if i + 1 <=? U31_TOP then Ok (i + 1) else Err InvalidChildNumber.
(** Addition of 32-bit numbers *)
Definition u32_add (a b : N) : res key_err N := expect (checked_add U32_TOP a b).

Inductive purpose := ReceiveFunds | Change.
Global Instance purpose_eqdec : EqDecision purpose.
Proof. solve_decision. Defined.

Section KeyChain.
  (** Public keys, their hashes, the keys of the account's two chains and the hash function *)
  Context {K H : Type} `{Countable K, Countable H} (key : purpose -> N -> K) (hash : K -> H).

  Inductive dest := AnyoneCanSpend | PublicKeyHash (h : H) | PublicKey (k : K) | OtherDest.

  (** leaf_key_chain/mod.rs 38-68; an address is the hash of the key of the same index and is left out *)
  Record leaf := Leaf { derived : gmap N K; by_key : gmap K N; by_hash : gmap H N; use : usage }.
  (** What is stored for a chain: the keys (and addresses) and the usage state *)
  Record stored_leaf := Stored { d_keys : gmap N K; d_use : usage }.

  (** leaf_key_chain/mod.rs 71-88 and [save_usage_state] of a new account *)
  Definition new_leaf : leaf * stored_leaf := (Leaf ∅ ∅ ∅ (Usage None None), Stored ∅ (Usage None None)).
  (** leaf_key_chain/mod.rs 92-122 and 124-185: the indices are rebuilt from the stored keys *)
  Definition load_leaf (d : stored_leaf) : leaf :=
    let by_k : gmap K N := foldl (fun m (p : N * K) => <[snd p := fst p]> m) ∅ (map_to_list (d_keys d)) in
    let by_h : gmap H N := foldl (fun m (p : K * N) => <[hash (fst p) := snd p]> m) ∅ (map_to_list by_k) in
    Leaf (d_keys d) by_k by_h (d_use d).

  (** leaf_key_chain/mod.rs 295-350: the stored key, or a new one that is added everywhere *)
  Definition derive_and_add (p : purpose) (i : N) (s : leaf * stored_leaf) : K * (leaf * stored_leaf) :=
    let '(l, d) := s in
    match derived l !! i with
    | Some k => (k, s)
    | None => let k := key p i in
              (k, (Leaf (<[i := k]> (derived l)) (<[k := i]> (by_key l)) (<[hash k := i]> (by_hash l)) (use l), Stored (<[i := k]> (d_keys d)) (d_use d)))
    end.
  (** keys are ordered by index: the last one (leaf_key_chain/mod.rs 353-355) *)
  Definition last_derived (l : leaf) : option N := map_fold (fun i _ acc => Some (match acc with Some m => N.max i m | None => i end)) None (derived l).
  (** leaf_key_chain/mod.rs 375-380: derives from [i] on, [n] times; indices beyond the range are skipped *)
  Fixpoint derive_range (p : purpose) (n : nat) (i : N) (s : leaf * stored_leaf) : leaf * stored_leaf :=
    match n with
    | O => s
    | S n => derive_range p n (i + 1) (if i <=? U31_TOP then snd (derive_and_add p i s) else s)
    end.
  (** leaf_key_chain/mod.rs 359-383 *)
  Definition top_up (p : purpose) (lookahead : N) (s : leaf * stored_leaf) : res key_err (leaf * stored_leaf) :=
    let? from := match last_derived (fst s) with None => Ok 0 | Some i => u32_add i 1 end in
    let? to := match last_used (use (fst s)) with None => Ok lookahead | Some u => let? x := u32_add u lookahead in u32_add x 1 end in
    Ok (derive_range p (N.to_nat (to - from)) from s).

  Definition set_use (u : usage) (s : leaf * stored_leaf) : leaf * stored_leaf :=
    (Leaf (derived (fst s)) (by_key (fst s)) (by_hash (fst s)) u, Stored (d_keys (snd s)) u).

  (** leaf_key_chain/mod.rs 187-220 *)
  Definition next_unused (p : purpose) (s : leaf * stored_leaf) : res key_err (N * K * (leaf * stored_leaf)) :=
    let? i := match last_used (use (fst s)) with None => Ok 0 | Some u => plus_one u end in
    let '(k, s) := derive_and_add p i s in
    let u := use (fst s) in
    Ok (i, k, if decide (last_used u = last_issued u) then set_use (issued_up_to i u) s else s).
  (** leaf_key_chain/mod.rs 262-292 *)
  Definition new_index (lookahead : N) (u : usage) : res key_err N :=
    let? i := match last_issued u with None => Ok 0 | Some l => plus_one l end in
    let? exceeded := match last_used u with None => Ok (lookahead <=? i) | Some l => let? m := u32_add l lookahead in Ok (m <? i) end in
    ensure (negb exceeded) LookAheadExceeded ;? Ok i.
  (** leaf_key_chain/mod.rs 222-246 *)
  Definition issue_new (p : purpose) (lookahead : N) (s : leaf * stored_leaf) : res key_err (N * K * (leaf * stored_leaf)) :=
    let? i := new_index lookahead (use (fst s)) in
    let '(k, s) := derive_and_add p i s in
    Ok (i, k, set_use (issued_up_to i (use (fst s))) s).

  (** leaf_key_chain/mod.rs 404-427 *)
  Definition child_of (l : leaf) (d : dest) : option N :=
    match d with PublicKeyHash h => by_hash l !! h | PublicKey k => by_key l !! k | _ => None end.
  (** leaf_key_chain/mod.rs 385-401 *)
  Definition leaf_is_mine (l : leaf) (d : dest) : bool := match child_of l d with Some _ => true | None => false end.
  (** leaf_key_chain/mod.rs 438-476 *)
  Definition mark_used (p : purpose) (lookahead : N) (d : dest) (s : leaf * stored_leaf) : res key_err (bool * (leaf * stored_leaf)) :=
    match child_of (fst s) d with
    | Some i => let? s := top_up p lookahead (set_use (used_up_to i (use (fst s))) s) in Ok (true, s)
    | None => Ok (false, s)
    end.

  (** account_key_chain/mod.rs 44-75: the two chains *)
  Record account := Account { receive : leaf * stored_leaf; change : leaf * stored_leaf }.
  Definition chain (p : purpose) (a : account) : leaf * stored_leaf := match p with ReceiveFunds => receive a | Change => change a end.
  Definition set_chain (p : purpose) (s : leaf * stored_leaf) (a : account) : account := match p with ReceiveFunds => Account s (change a) | Change => Account (receive a) s end.
  (** account_key_chain/mod.rs 77-155 with 496-502 *)
  Definition new_account (lookahead : N) : res key_err account :=
    let? r := top_up ReceiveFunds lookahead new_leaf in
    let? c := top_up Change lookahead new_leaf in Ok (Account r c).
  (** account_key_chain/mod.rs 435-459 *)
  Definition is_mine (a : account) (d : dest) : bool := leaf_is_mine (fst (receive a)) d || leaf_is_mine (fst (change a)) d.
  (** account_key_chain/mod.rs 509-538 *)
  Definition mark_dest (lookahead : N) (d : dest) (a : account) : res key_err (bool * account) :=
    let? (f, r) := mark_used ReceiveFunds lookahead d (receive a) in
    if f then Ok (true, Account r (change a))
    else let? (f, c) := mark_used Change lookahead d (change a) in Ok (f, Account r c).

  (** wallet/src/account/mod.rs 2045-2078, for the destinations of an output (1946-1974), nothing being watched. Of the separate marking of
      the keys of a new stake pool (2082-2104), the VRF key is left out and the decommission key is an event of its own *)
  Fixpoint mark_seen (lookahead : N) (l : list dest) (a : account) : res key_err (bool * account) :=
    match l with
    | [] => Ok (false, a)
    | AnyoneCanSpend :: _ => Ok (false, a)
    | OtherDest :: l => mark_seen lookahead l a
    | d :: l => let? (f, a) := mark_dest lookahead d a in if f then Ok (true, a) else mark_seen lookahead l a
    end.

  (** account_key_chain/mod.rs 417-433: reading the keys back from what is stored *)
  Definition reload (a : account) : account := Account (load_leaf (snd (receive a)), snd (receive a)) (load_leaf (snd (change a)), snd (change a)).
  (** wallet/src/wallet/mod.rs 830-878: forgetting everything and starting again *)
  Definition reset (lookahead : N) : res key_err account :=
    let forget := Stored ∅ (Usage None None) in
    let? r := top_up ReceiveFunds lookahead (load_leaf forget, forget) in
    let? c := top_up Change lookahead (load_leaf forget, forget) in Ok (Account r c).

  (** What is asked of an account: to issue an address, for an unused address (for change), or to take note of an output *)
  Inductive event := Issue (p : purpose) | NextUnused (p : purpose) | Seen (l : list dest).
  (** The answers: an address with its index, whether the output is the account's, or a refusal *)
  Inductive answer := Address (p : purpose) (i : N) (k : K) | Found (b : bool) | Refused (e : key_err).
  Definition answered (r : res key_err (account * answer)) (a : account) : res key_err (account * answer) :=
    match r with Err e => Ok (a, Refused e) | _ => r end.
  Definition handle (lookahead : N) (e : event) (a : account) : res key_err (account * answer) :=
    match e with
    | Issue p => answered (let? (ik, s) := issue_new p lookahead (chain p a) in Ok (set_chain p s a, Address p (fst ik) (snd ik))) a
    | NextUnused p => answered (let? (ik, s) := next_unused p (chain p a) in Ok (set_chain p s a, Address p (fst ik) (snd ik))) a
    | Seen l => let? (f, a) := mark_seen lookahead l a in Ok (a, Found f)
    end.
  Fixpoint handle_all (lookahead : N) (es : list event) (a : account) : res key_err (account * list (event * answer)) :=
    match es with
    | [] => Ok (a, [])
    | e :: es => let? (a, r) := handle lookahead e a in
                 let? (a, rs) := handle_all lookahead es a in Ok (a, (e, r) :: rs)
    end.

  (** wallet/src/wallet/mod.rs 1176-1285: operations run in a transaction of the database, which is committed, or aborted when something
      fails, and then the keys are read back; a wallet that is opened again reads them too *)
  Inductive act := Committed (es : list event) | Aborted (es : list event) | Reopened.
  Definition step (lookahead : N) (x : act) (a : account) : res key_err (account * list (event * answer)) :=
    match x with
    | Committed es => handle_all lookahead es a
    | Aborted es => let? (a', _) := handle_all lookahead es a in
                    Ok (reload (Account (fst (receive a'), snd (receive a)) (fst (change a'), snd (change a))), [])
    | Reopened => Ok (reload a, [])
    end.
  (** The account after a history, and what it answered in it *)
  Fixpoint run (lookahead : N) (xs : list act) (a : account) : res key_err (account * list (event * answer)) :=
    match xs with
    | [] => Ok (a, [])
    | x :: xs => let? (a, r) := step lookahead x a in
                 let? (a, rs) := run lookahead xs a in Ok (a, r ++ rs)
    end.
End KeyChain.
