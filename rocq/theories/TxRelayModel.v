(** Model of how a node tells one peer about transactions and takes transactions from it: p2p/src/sync/peer/transaction_manager.rs,
    p2p/src/sync/peer/requested_transactions.rs, p2p/src/sync/peer_common/known_transactions.rs and the parts of
    p2p/src/sync/mod.rs that keep track of the transactions of the node's own user. A transaction is its id. The clocks, the random
    delays and seeds, the contents of the mempool at each call and its verdicts are arguments of every step, so a theorem about all
    steps is about all of them. Not modelled: the closing of channels, failures of the subsystems (they stop the task), the additions
    to the clock that overflow, and the observer of the tests. *)
From Verif Require Import Base BloomModel.
From stdpp Require Import sorting.
Local Open Scope N_scope.

(** known_transactions.rs 21 *)
Definition FILTER_SIZE : nat := N.to_nat 50000.
(** requested_transactions.rs 25, in nanoseconds *)
Definition EXPIRY_PERIOD : N := 3600000000000.
(** requested_transactions.rs 27, in nanoseconds *)
Definition PURGE_INTERVAL : N := 5000000000.
(** error.rs 289: the score of an unexpected message *)
Definition UNEXPECTED_MESSAGE_SCORE : N := 20.

(** message.rs, [TransactionSyncMessage] and [TransactionResponse] *)
Inductive message := NewTransaction (id : N) | TransactionRequest (id : N) | Found (id : N) | NotFound (id : N).
(** What the loop of the peer waits for: transaction_manager.rs 55-64, 182-194 *)
Inductive event := Heard (m : message) | RelayableTx (id : N) | Reannouncement (ids : list N) | MaintenanceTick.
(** What it does that others can see: messages to the peer, transactions for the mempool, events for the peer manager (383-388 and
    peer_common/mod.rs 68-73) and notices for the sync manager (336-340) *)
Inductive output := Say (m : message) | ToMempool (id : N) | ValidReceived (id : N) | AdjustScore (n : N) | SentNotice (id : N).
(** mempool's [TxStatus], or an error with its score *)
Inductive verdict := InMempool | InMempoolDuplicate | InOrphanPool | InOrphanPoolDuplicate | Refused (score : N).

(** The order of [get_best_tx_ids_by_score_and_ancestry]: collect_txs.rs 269-360, by a rank that is arbitrary *)
Definition ranked (rank : N -> N) (a b : N) : Prop := rank a <= rank b.
Global Instance ranked_dec rank : RelDecision (ranked rank).
Proof. intros a b. unfold ranked. apply _. Defined.

Section Relay.
  Context {Seed : Type} (positions : Seed -> N -> list nat).

  (** transaction_manager.rs 78-107 with requested_transactions.rs 35-39 and the variable of [main_loop] *)
  Record peer := { t_known : rolling Seed; t_requested : gmap N N; t_purge : N; t_announce : gset N; t_next : N }.
  (** What the rest of the world decides during one turn of the loop *)
  Record env := {
    e_ibd : bool; (** [is_initial_block_download] *)
    e_pool : gset N; (** the mempool while the event is handled *)
    e_verdict : N -> verdict; (** [add_transaction_remote] *)
    e_time : N; (** the clock while the event is handled *)
    e_purge_time : N; (** the clock in [purge_if_needed] *)
    e_now : N; (** the monotonic clock after that *)
    e_pool_later : gset N; (** the mempool in [announce_transactions] *)
    e_rank : N -> N; (** the order of [get_best_tx_ids_by_score_and_ancestry] *)
    e_delay : N; (** [make_random_tx_announcement_delay] *)
    e_seed : Seed; e_seeds : N -> Seed (** the seeds of the filter, when a transaction is heard of and when one is announced *)
  }.

  Definition with_known (p : peer) k := {| t_known := k; t_requested := t_requested p; t_purge := t_purge p; t_announce := t_announce p; t_next := t_next p |}.
  Definition with_requested (p : peer) r := {| t_known := t_known p; t_requested := r; t_purge := t_purge p; t_announce := t_announce p; t_next := t_next p |}.
  Definition with_announce (p : peer) a := {| t_known := t_known p; t_requested := t_requested p; t_purge := t_purge p; t_announce := a; t_next := t_next p |}.

  (** transaction_manager.rs 115-151 and 178-179; requested_transactions.rs 42-55; known_transactions.rs 39-47 *)
  Definition peer_new (s0 s1 s2 : Seed) (time now delay : N) : res unit peer :=
    let? k := rolling_new FILTER_SIZE s0 s1 s2 in
    Ok {| t_known := k; t_requested := ∅; t_purge := time + EXPIRY_PERIOD; t_announce := ∅; t_next := now + delay |}.

  (** transaction_manager.rs 399-401; known_transactions.rs 49-51 *)
  Definition add_known_transaction (p : peer) (s : Seed) (id : N) : res unit peer :=
    let? k := rolling_insert positions (t_known p) id s in Ok (with_known p k).

  (** requested_transactions.rs 57-61 *)
  Definition requested_add (p : peer) (time id : N) : res unit peer :=
    match t_requested p !! id with
    | Some _ => Panic
    | None => Ok (with_requested p (<[id := time]> (t_requested p)))
    end.

  (** requested_transactions.rs 75-88; a time before the beginning of time is [Panic] *)
  Definition purge_if_needed (p : peer) (time : N) : res unit peer :=
    if t_purge p <=? time then
      let? min_time := expect (checked_sub time EXPIRY_PERIOD) in
      Ok {| t_known := t_known p; t_requested := filter (fun kt : N * N => min_time <= kt.2) (t_requested p);
            t_purge := time + PURGE_INTERVAL; t_announce := t_announce p; t_next := t_next p |}
    else Ok p.

  (** transaction_manager.rs 245-256 *)
  Definition enqueue_transactions_to_announce (service : bool) (p : peer) (ids : list N) : peer :=
    if service then
      fold_left (fun p id => if rolling_contains positions (t_known p) id then p else with_announce p ({[id]} ∪ t_announce p)) ids p
    else p.

  (** transaction_manager.rs 258-295. That [get_best_tx_ids_by_score_and_ancestry], asked for as many ids as it is given, returns
      all of them once and in some order, is how this part of the mempool is modelled. *)
  Definition announce_transactions (p : peer) (e : env) : res unit (peer * list output) :=
    let ids := elements (filter (fun id => id ∈ e_pool_later e) (t_announce p)) in
    let sorted := merge_sort (ranked (e_rank e)) ids in
    let? p' := rfold (fun p id => add_known_transaction p (e_seeds e id) id) sorted (with_announce p ∅) in
    Ok (p', map (fun id => Say (NewTransaction id)) sorted).

  (** transaction_manager.rs 314-343; the error is turned into a score in peer_common/mod.rs 46-85 *)
  Definition handle_transaction_request (service : bool) (p : peer) (e : env) (id : N) : peer * list output :=
    if negb service then (p, [AdjustScore UNEXPECTED_MESSAGE_SCORE])
    else if bool_decide (id ∈ e_pool e) then (p, [Say (Found id); SentNotice id]) else (p, [Say (NotFound id)]).

  (** transaction_manager.rs 345-397; the error of the mempool is turned into a score in peer_common/mod.rs 46-85 *)
  Definition handle_transaction_response (p : peer) (e : env) (id : N) (found : bool) : peer * list output :=
    match t_requested p !! id with
    | None => (p, [])
    | Some _ =>
      let p' := with_requested p (delete id (t_requested p)) in
      if found then
        match e_verdict e id with
        | InMempool => (p', [ToMempool id; ValidReceived id])
        | InMempoolDuplicate | InOrphanPool | InOrphanPoolDuplicate => (p', [ToMempool id])
        | Refused n => (p', if 0 <? n then [ToMempool id; AdjustScore n] else [ToMempool id])
        end
      else (p', [])
    end.

  (** transaction_manager.rs 403-470; [max] is [max_peer_tx_announcements] *)
  Definition handle_transaction_announcement (service : bool) (max : N) (p : peer) (e : env) (id : N) : res unit (peer * list output) :=
    let? p := add_known_transaction p (e_seed e) id in
    if e_ibd e then Ok (p, [])
    else if negb service then Ok (p, [AdjustScore UNEXPECTED_MESSAGE_SCORE])
    else match t_requested p !! id with
    | Some _ => Ok (p, [])
    | None =>
      if max <=? N.of_nat (size (t_requested p)) then Ok (p, [])
      else if bool_decide (id ∈ e_pool e) then Ok (p, [])
      else let? p := requested_add p (e_time e) id in Ok (p, [Say (TransactionRequest id)])
    end.

  (** transaction_manager.rs 225-243 and 297-312 *)
  Definition handle (service : bool) (max : N) (p : peer) (e : env) (ev : event) : res unit (peer * list output) :=
    match ev with
    | Heard (NewTransaction id) => handle_transaction_announcement service max p e id
    | Heard (TransactionRequest id) => Ok (handle_transaction_request service p e id)
    | Heard (Found id) => Ok (handle_transaction_response p e id true)
    | Heard (NotFound id) => Ok (handle_transaction_response p e id false)
    | RelayableTx id => Ok (enqueue_transactions_to_announce service p [id], [])
    | Reannouncement ids => Ok (enqueue_transactions_to_announce service p ids, [])
    | MaintenanceTick => Ok (p, [])
    end.

  (** transaction_manager.rs 181-209: one turn of the loop *)
  Definition turn (service : bool) (max : N) (p : peer) (e : env) (ev : event) : res unit (peer * list output) :=
    let? (p, out) := handle service max p e ev in
    let? p := purge_if_needed p (e_purge_time e) in
    if t_next p <=? e_now e then
      let? (p, said) := announce_transactions p e in
      Ok ({| t_known := t_known p; t_requested := t_requested p; t_purge := t_purge p; t_announce := t_announce p; t_next := e_now e + e_delay e |}, out ++ said)
    else Ok (p, out).
End Relay.
Arguments peer : clear implicits.
Arguments env : clear implicits.

(** * The sync manager and the transactions of the node's own user *)

(** mempool's [TransactionProcessedEvent]: sync/mod.rs 394-489 *)
Inductive origin := LocalOrigin | RemoteOrigin (peer : N).
Inductive processed := ProcessedNew | ProcessedDuplicate | ProcessedError (score : N).
(** sync/mod.rs 214-245: what the sync manager waits for, as far as transactions go; [RequeueDue] carries the mempool *)
Inductive sync_event := TxProcessed (id : N) (o : origin) (r : processed) (relay : bool) | TxSent (peer id : N) | RequeueDue (pool : gset N).
(** what it sends to the tasks of all peers, and to the peer manager *)
Inductive sync_output := RelayToPeers (id : N) | ReannounceToPeers (ids : list N) | ScorePeer (peer n : N).

(** sync/mod.rs 394-489; the release build, in which a duplicate that is not local is only logged (408-415) *)
Definition handle_transaction_processed (u : gset N) (id : N) (o : origin) (r : processed) (relay : bool) : gset N * list sync_output :=
  match r with
  | ProcessedNew | ProcessedDuplicate =>
    if relay then
      let need_relay := match r, o with ProcessedDuplicate, RemoteOrigin _ => false | _, _ => true end in
      if need_relay then
        (match o with LocalOrigin => {[id]} ∪ u | RemoteOrigin _ => u end, [RelayToPeers id])
      else (u, [])
    else (u, [])
  | ProcessedError n =>
    match o with
    | RemoteOrigin peer => (u, if 0 <? n then [ScorePeer peer n] else [])
    | LocalOrigin => (u, [])
    end
  end.

(** sync/mod.rs 254-279 *)
Definition requeue_unconfirmed_local_transactions (u pool : gset N) : gset N * list sync_output :=
  let u := filter (fun id => id ∈ pool) u in
  (u, if bool_decide (u = ∅) then [] else [ReannounceToPeers (elements u)]).

(** sync/mod.rs 196-247, 516-526 *)
Definition sync_turn (u : gset N) (ev : sync_event) : gset N * list sync_output :=
  match ev with
  | TxProcessed id o r relay => handle_transaction_processed u id o r relay
  | TxSent _ id => (u ∖ {[id]}, [])
  | RequeueDue pool => requeue_unconfirmed_local_transactions u pool
  end.
