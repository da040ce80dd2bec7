(** Model of the wallet's cache of its transactions, from which its unspent outputs and balances are computed.
    wallet/src/account/output_cache/mod.rs, wallet/types/src/wallet_tx.rs, wallet/types/src/utxo_types.rs, wallet/src/account/mod.rs.
    Of a transaction (or a block with its reward) the outputs it spends and makes are modelled; the account inputs and the states of pools,
    delegations, tokens and orders kept beside are not. What depends on the content of an output (whose it is, its type and its lock) is a
    parameter. *)
From Verif Require Import Base.
Local Open Scope N_scope.

(** wallet_tx.rs 32-53 *)
Inductive txstate := Confirmed (height timestamp index : N) | InMempool (n : N) | Conflicted (block : N) | Inactive (n : N) | Abandoned.
Global Instance txstate_eqdec : EqDecision txstate.
Proof. solve_decision. Defined.
(** utxo_types.rs 33-39 and 60-68 *)
Inductive kind := KConfirmed | KInMempool | KConflicted | KInactive | KAbandoned.
Definition kind_of (s : txstate) : kind :=
  match s with Confirmed _ _ _ => KConfirmed | InMempool _ => KInMempool | Conflicted _ => KConflicted | Inactive _ => KInactive | Abandoned => KAbandoned end.
(** A set of states (utxo_types.rs 73-74) *)
Definition states := kind -> bool.

Inductive cache_err := ConfirmedTxAmongUnconfirmedDescendants | CannotChangeTransactionState | CannotFindTransactionWithId
  | CannotMarkTxAsConflictedIfInState | CannotFindDescendantTransactionWithId | CannotFindUtxo | ConsumedUtxo | LockedUtxo.

(** output_cache/mod.rs 1909-1922: -1, 0 and 1 for less, equal and greater *)
Definition wallet_tx_order (x y : txstate) : comparison :=
  match x, y with
  | Confirmed h1 _ i1, Confirmed h2 _ i2 => match h1 ?= h2 with Eq => i1 ?= i2 | c => c end
  | Confirmed _ _ _, _ => Lt
  | _, Confirmed _ _ _ => Gt
  | InMempool a, InMempool b | InMempool a, Inactive b | Inactive a, Inactive b | Inactive a, InMempool b => a ?= b
  | _, _ => Eq
  end.

Section Cache.
  (** Ids of transactions and blocks, and outputs *)
  Context {T Out : Type} `{Countable T}.
  Notation outpoint := (T * N)%type.
  Record tx := Tx { ins : list outpoint; outs : list Out }.

  (** output_cache/mod.rs 592-610 *)
  Record cache := Cache { txs : gmap T (tx * txstate); desc : gmap T (gset T); consumed : gmap outpoint txstate }.
  Definition empty : cache := Cache ∅ ∅ ∅.
  Definition set_txs (m : gmap T (tx * txstate)) (c : cache) : cache := Cache m (desc c) (consumed c).
  Definition set_desc (m : gmap T (gset T)) (c : cache) : cache := Cache (txs c) m (consumed c).
  Definition set_consumed (m : gmap outpoint txstate) (c : cache) : cache := Cache (txs c) (desc c) m.

  (** output_cache/mod.rs 1036-1042 *)
  Definition unconfirmed (s : txstate) : bool := match s with Confirmed _ _ _ => false | _ => true end.

  (** output_cache/mod.rs 1174-1192 (the inputs that are outputs of other transactions). The cache is returned also when it fails *)
  Fixpoint update_inputs (id : T) (st : txstate) (l : list outpoint) (c : cache) : cache * res cache_err unit :=
    match l with
    | [] => (c, Ok tt)
    | o :: l =>
        let c := set_consumed (<[o := st]> (consumed c)) c in
        match desc c !! fst o with
        | Some d => if unconfirmed st then update_inputs id st l (set_desc (<[fst o := {[id]} ∪ d]> (desc c)) c)
                    else (c, Err ConfirmedTxAmongUnconfirmedDescendants)
        | None => update_inputs id st l c
        end
    end.

  (** output_cache/mod.rs 1020-1030 *)
  Definition confirmed_or_same (old new : txstate) : bool :=
    match old, new with
    | Confirmed _ _ _, _ | Inactive _, Inactive _ | Abandoned, Abandoned | Conflicted _, Conflicted _ | InMempool _, InMempool _ => true
    | _, _ => false
    end.
  (** output_cache/mod.rs 1013-1066; tells whether anything changed *)
  Definition add_tx (id : T) (t : tx) (st : txstate) (c : cache) : cache * res cache_err bool :=
    if match txs c !! id with Some (_, old) => confirmed_or_same old st | None => false end then (c, Ok false)
    else
      let c := set_desc (if unconfirmed st then <[id := default ∅ (desc c !! id)]> (desc c) else delete id (desc c)) c in
      match update_inputs id st (ins t) c with
      | (c, Ok _) => (set_txs (<[id := (t, st)]> (txs c)) c, Ok true)
      | (c, Err e) => (c, Err e)
      | (c, Panic) => (c, Panic)
      end.

  (** output_cache/mod.rs 1659-1674 (the inputs that are outputs of other transactions) *)
  Definition rollback (t : tx) (c : cache) : cache := set_consumed (foldr (fun o m => delete o m) (consumed c) (ins t)) c.

  (** output_cache/mod.rs 1417-1435 *)
  Definition remove_confirmed_tx (id : T) (c : cache) : cache * res cache_err unit :=
    let after c := (c, ensure (negb (bool_decide (is_Some (desc c !! id)))) ConfirmedTxAmongUnconfirmedDescendants) in
    match txs c !! id with
    | Some (t, st) => if unconfirmed st then (set_txs (delete id (txs c)) c, Panic) else after (rollback t (set_txs (delete id (txs c)) c))
    | None => after c
    end.

  (** output_cache/mod.rs 1438-1446, wallet_tx.rs 95-107 *)
  Definition to_inactive (s : txstate) : txstate := match s with InMempool n => Inactive n | s => s end.
  Definition reset_inmempool (c : cache) : cache := Cache ((fun p => (fst p, to_inactive (snd p))) <$> txs c) (desc c) (to_inactive <$> consumed c).

  (** output_cache/mod.rs 1635-1655. The number of rounds is bounded by the number of links; that it suffices is proved *)
  Fixpoint walk (fuel : nat) (queue all : list T) (d : gmap T (gset T)) : list T * gmap T (gset T) :=
    match fuel, queue with
    | S fuel, x :: queue =>
        let all := if decide (x ∈ all) then all else all ++ [x] in
        match d !! x with
        | Some s => walk fuel (queue ++ elements s) all (delete x d)
        | None => walk fuel queue all d
        end
    | _, _ => (all, d)
    end.
  Definition links (d : gmap T (gset T)) : nat := map_fold (fun _ s n => (size s + n)%nat) 0%nat d.
  Definition remove_descendants (id : T) (c : cache) : list T * cache :=
    let '(all, d) := walk (S (links (desc c))) [id] [] (desc c) in (all, set_desc d c).

  (** Setting the state of some transactions: [allowed] says from which states, and whether what it spends is to be freed. Returns those
      that are *)
  Fixpoint mark (allowed : txstate -> option bool) (bad unknown : cache_err) (new : txstate) (l : list T) (c : cache) : cache * res cache_err (list tx) :=
    match l with
    | [] => (c, Ok [])
    | id :: l =>
        match txs c !! id with
        | Some (t, st) =>
            match allowed st with
            | Some free =>
                match mark allowed bad unknown new l (set_txs (<[id := (t, new)]> (txs c)) c) with
                | (c, Ok ts) => (c, Ok (if free then t :: ts else ts))
                | r => r
                end
            | None => (c, Err bad)
            end
        | None => (c, Err unknown)
        end
    end.

  (** output_cache/mod.rs 1789-1848 *)
  Definition may_abandon (s : txstate) : option bool := match s with Inactive _ => Some true | Conflicted _ => Some false | _ => None end.
  Definition abandon (id : T) (c : cache) : cache * res cache_err unit :=
    if match txs c !! id with Some (_, st) => match may_abandon st with Some _ => false | None => true end | None => false end
    then (c, Err CannotChangeTransactionState)
    else
      let '(all, c) := remove_descendants id c in
      match mark may_abandon CannotChangeTransactionState CannotFindTransactionWithId Abandoned all c with
      | (c, Ok ts) => (foldr rollback c ts, Ok tt)
      | (c, Err e) => (c, Err e)
      | (c, Panic) => (c, Panic)
      end.

  (** output_cache/mod.rs 899-957: marking the transactions found to be in conflict with a block, and their descendants. Finding them
      (788-898) is not modelled: they are given *)
  Definition may_conflict (s : txstate) : option bool := match s with Inactive _ | InMempool _ => Some true | _ => None end.
  Fixpoint mark_conflicts (block : N) (ids processed : list T) (c : cache) : cache * res cache_err unit :=
    match ids with
    | [] => (c, Ok tt)
    | id :: ids =>
        let '(all, c) := remove_descendants id c in
        let todo := filter (fun x => x ∉ processed) (rev all) in
        match mark may_conflict CannotMarkTxAsConflictedIfInState CannotFindDescendantTransactionWithId (Conflicted block) todo c with
        | (c, Ok ts) => mark_conflicts block ids (todo ++ processed) (foldl (fun c t => rollback t c) c ts)
        | (c, Err e) => (c, Err e)
        | (c, Panic) => (c, Panic)
        end
    end.

  (** output_cache/mod.rs 625-637, after sorting the stored transactions *)
  Fixpoint load (l : list (T * (tx * txstate))) (c : cache) : cache * res cache_err unit :=
    match l with
    | [] => (c, Ok tt)
    | (id, (t, st)) :: l =>
        match add_tx id t st c with
        | (c, Ok _) => load l c
        | (c, Err e) => (c, Err e)
        | (c, Panic) => (c, Panic)
        end
    end.

  (** output_cache/mod.rs 1448-1452 *)
  Definition is_consumed (which : states) (o : outpoint) (c : cache) : bool :=
    match consumed c !! o with Some s => which (kind_of s) | None => false end.
  (** output_cache/mod.rs 1525-1558; [ok] is the lock state, the exclusion of old tokens and the filter *)
  Definition utxos (ok : txstate -> outpoint -> Out -> bool) (which : states) (c : cache) : list (outpoint * Out) :=
    flat_map (fun '(id, (t, st)) =>
      if which (kind_of st) then
        filter (fun p => negb (is_consumed which (fst p) c) && ok st (fst p) (snd p)) (imap (fun i out => ((id, N.of_nat i), out)) (outs t))
      else []) (map_to_list (txs c)).
  (** output_cache/mod.rs 1454-1494 *)
  Definition live_kinds : states := fun k => match k with KConfirmed | KInMempool | KInactive => true | _ => false end.
  Definition find_unspent (ok : txstate -> outpoint -> Out -> bool) (o : outpoint) (c : cache) : res cache_err Out :=
    match txs c !! fst o with
    | None => Err CannotFindUtxo
    | Some (t, st) =>
        match outs t !! N.to_nat (snd o) with
        | None => Err CannotFindUtxo
        | Some out => ensure (negb (is_consumed live_kinds o c)) ConsumedUtxo ;? ensure (ok st o out) LockedUtxo ;? Ok out
        end
    end.

  (** What happens to the cache: a transaction is seen in a block, in the mempool or otherwise (account/mod.rs 2230-2284, 2301-2352,
      2455-2519); a transaction of a block that is no longer on the chain is removed (2191-2224); the mempool is forgotten (2406-2422); the
      user gives a transaction up (2550-2566); transactions conflict with a block; the wallet is opened again (output_cache/mod.rs 625-637) *)
  Inductive event := Add (id : T) (st : txstate) | Remove (id : T) | ResetMempool | Abandon (id : T) | Conflicts (ids : list T) (block : N) | Reopen (l : list (T * (tx * txstate))).
  (** The transactions by their ids *)
  Context (body : T -> tx).
  Definition discard {A} (r : cache * res cache_err A) : cache * res cache_err unit := (fst r, rmap (fun _ => tt) (snd r)).
  Definition step (e : event) (c : cache) : cache * res cache_err unit :=
    match e with
    | Add id st => discard (add_tx id (body id) st c)
    | Remove id => remove_confirmed_tx id c
    | ResetMempool => (reset_inmempool c, Ok tt)
    | Abandon id => abandon id c
    | Conflicts ids b => mark_conflicts b ids [] c
    | Reopen l => load l empty
    end.
End Cache.
Arguments tx : clear implicits.
Arguments cache T Out {_ _}.
Arguments event : clear implicits.
