(** Model of how a node downloads the chain of a peer: both ends of one connection and the messages between them.
    p2p/src/sync/peer/block_manager.rs, p2p/src/sync/peer_common/mod.rs. One end asks and the other one answers; the requests of the
    answering end, announcements of new tips, timeouts, clock differences and the initial block download mode are not modelled.
    A header and a block are represented by the index the answering node stores. The chainstate of the asking node is a tree of
    blocks; what [process_block] makes of it is a parameter of the step, and so is what other peers make of it. *)
From Verif Require Import Base StatusModel StatusSpec BlockTreeModel SyncModel.
Local Open Scope N_scope.

Inductive msg :=
| HeaderListRequest (locator : list N)
| BlockListRequest (ids : list N)
| HeaderList (headers : list bindex)
| BlockResponse (b : bindex).

(** p2p/src/error.rs [ProtocolError], [SyncError] and errors of chainstate queries *)
Inductive p2p_err :=
| LocatorSizeExceeded | ZeroBlocksInRequest | BlocksRequestLimitExceeded | DuplicatedBlockRequest | UnknownBlockRequested
| HeadersLimitExceeded | DisconnectedHeaders | BlocksReceivedInWrongOrder | UnsolicitedBlockReceived
| UnexpectedMessage | BlockMissingInSendBlock | ParentNotFound | QueryErr (e : sync_err).

(** block_manager.rs 99-109: the asking end; the chainstate is [c_tree] *)
Record client := Client { c_tree : tree; c_pending : list bindex; c_requested : list N; c_peer_best : option N }.
(** block_manager.rs 111-119: the answering end *)
Record server := Server { v_queue : list N; v_best_sent : option bindex }.

Section Download.
  (** [msg_header_count_limit], [max_request_blocks_count], [msg_max_locator_count] of the protocol configuration *)
  Context (cf : tree_cfg) (header_limit block_limit locator_limit : N).

  (** chainstate query.rs 151-158: genesis is always stored *)
  Definition persisted_gen (s : tree) (id : N) : option gindex :=
    if id =? genesis_id cf then Some Genesis else Block <$> persisted_index s id.
  (** peer_common/mod.rs 122-156 *)
  Definition choose_best (s : tree) (old new : option N) : option N :=
    match old ≫= persisted_gen s, new ≫= persisted_gen s with
    | None, None => None
    | Some g, None | None, Some g => Some (gen_id cf g)
    | Some g, Some g' => if gen_trust g <=? gen_trust g' then Some (gen_id cf g') else Some (gen_id cf g)
    end.

  (** block_manager.rs 342-407 *)
  Definition request_headers (c : client) : res p2p_err msg :=
    rmap HeaderListRequest (rmap_err QueryErr
      match c_peer_best c with
      | Some id => if id =? genesis_id cf then get_locator_from_best_block cf (c_tree c) else get_locator_from_block_id cf (c_tree c) id
      | None => get_locator_from_best_block cf (c_tree c)
      end).
  (** block_manager.rs 920-948 *)
  Definition request_blocks (c : client) (headers : list bindex) : client * msg :=
    let '(now, later) := if block_limit <? N.of_nat (length headers) then (take (N.to_nat block_limit) headers, drop (N.to_nat block_limit) headers) else (headers, c_pending c) in
    (Client (c_tree c) later (bi_id <$> now) (c_peer_best c), BlockListRequest (bi_id <$> now)).

  (** block_manager.rs 650-657 *)
  Fixpoint connected (headers : list bindex) : bool :=
    match headers with
    | h :: (h' :: _) as r => (bi_id h =? bi_prev h') && connected r
    | _ => true
    end.

  (** block_manager.rs 631-750; waiting for the clock and the preliminary check of the headers of blocks that are valid are left out *)
  Definition handle_header_list (c : client) (headers : list bindex) : res p2p_err (client * option msg) :=
    match headers with
    | [] => Ok (c, None)
    | first :: _ =>
        if header_limit <? N.of_nat (length headers) then Err HeadersLimitExceeded
        else if negb (connected headers) then Err DisconnectedHeaders
        else
          let? _ := ok_or (get_gen cf (t_idx (c_tree c)) (bi_prev first)) DisconnectedHeaders in
          let may_have_more := N.of_nat (length headers) =? header_limit in
          let '(existing, new) := split_known (c_tree c) headers in
          let c := Client (c_tree c) (c_pending c) (c_requested c) (choose_best (c_tree c) (c_peer_best c) (bi_id <$> last existing)) in
          match c_requested c with
          | _ :: _ => Ok (Client (c_tree c) new (c_requested c) (c_peer_best c), None)
          | [] =>
              match new with
              | [] => if may_have_more then let? m := request_headers c in Ok (c, Some m) else Ok (c, None)
              | _ => let '(c, m) := request_blocks c new in Ok (c, Some m)
              end
          end
    end.

  (** block_manager.rs 752-914; [after] is the chainstate after [process_block] of a block that is new. Of the checks of a new block only
      the one that its parent is there is modelled: the blocks of the answering node are taken to be valid. *)
  Definition handle_block_response (c : client) (b : bindex) (after : tree) : res p2p_err (client * option msg) :=
    match c_requested c with
    | id :: requested =>
        if id =? bi_id b then
          let? t := match persisted_index (c_tree c) (bi_id b) with
                    | Some _ => Ok (c_tree c)
                    | None => let? _ := ok_or (persisted_gen (c_tree c) (bi_prev b)) ParentNotFound in Ok after
                    end in
          (* the index of the old best block is looked up before the new block is processed *)
          let old := c_peer_best c ≫= persisted_gen (c_tree c) in
          let new := Block <$> persisted_index t (bi_id b) in
          let best := match old, new with
                      | None, None => None
                      | Some g, None | None, Some g => Some (gen_id cf g)
                      | Some g, Some g' => if gen_trust g <=? gen_trust g' then Some (gen_id cf g') else Some (gen_id cf g)
                      end in
          match requested with
          | _ :: _ => Ok (Client t (c_pending c) requested best, None)
          | [] =>
              let taken := Client t [] [] best in
              match snd (split_known t (c_pending c)) with
              | [] => let? m := request_headers taken in Ok (taken, Some m)
              | headers => let '(c, m) := request_blocks taken headers in Ok (c, Some m)
              end
          end
        else if existsb (N.eqb (bi_id b)) requested then Err BlocksReceivedInWrongOrder else Err UnsolicitedBlockReceived
    | [] => Err UnsolicitedBlockReceived
    end.

  (** The chain of the answering node *)
  Context (s : tree).

  (** block_manager.rs 431-492; what the answering end notes about the asking one is left out *)
  Definition handle_header_request (locator : list N) : res p2p_err msg :=
    if locator_limit <? N.of_nat (length locator) then Err LocatorSizeExceeded
    else rmap HeaderList (rmap_err QueryErr (get_mainchain_headers_by_locator cf s locator header_limit)).

  (** block_manager.rs 547-574 *)
  Fixpoint check_request (best_sent : option bindex) (ids : list N) : res p2p_err unit :=
    match ids with
    | [] => Ok tt
    | id :: ids =>
        let? b := ok_or (persisted_index s id) UnknownBlockRequested in
        match best_sent with
        | Some p => if (bi_height b <=? bi_height p) && bool_decide (t_main s !! bi_height p = Some (bi_id p)) then Err DuplicatedBlockRequest else check_request best_sent ids
        | None => check_request best_sent ids
        end
    end.
  (** block_manager.rs 495-591 *)
  Definition handle_block_request (v : server) (ids : list N) : res p2p_err server :=
    match ids with
    | [] => Err ZeroBlocksInRequest
    | _ =>
        if block_limit <? N.of_nat (length ids) + N.of_nat (length (v_queue v)) then Err BlocksRequestLimitExceeded
        else if existsb (fun id => existsb (N.eqb id) (v_queue v)) ids then Err DuplicatedBlockRequest
        else check_request (v_best_sent v) ids ;? Ok (Server (v_queue v ++ ids) (v_best_sent v))
    end.
  (** block_manager.rs 950-984 with 199-203 *)
  Definition send_block (v : server) (id : N) (queue : list N) : res p2p_err (server * msg) :=
    let? b := ok_or (persisted_index s id) BlockMissingInSendBlock in
    let best := choose_best s (bi_id <$> v_best_sent v) (Some id) in
    Ok (Server queue (if decide (best = Some id) then Some b else v_best_sent v), BlockResponse b).

  (** A connection: both ends and the messages on their way, oldest first *)
  Record conn := Conn { n_client : client; n_server : server; to_server : list msg; to_client : list msg }.
  Definition push (o : option msg) (l : list msg) : list msg := match o with Some m => l ++ [m] | None => l end.

  Inductive action :=
  | Answer               (* the answering end takes a message *)
  | SendBlock            (* the answering end sends a block it was asked for *)
  | Receive (t : tree)   (* the asking end takes a message; [t]: its chainstate after a new block is processed *)
  | Elsewhere (t : tree) (* the chainstate of the asking node changes for other reasons *).

  (** block_manager.rs 190-218 and 409-428; [None]: there is nothing to do for that action *)
  Definition act (a : action) (n : conn) : option (res p2p_err conn) :=
    match a with
    | Answer =>
        match to_server n with
        | [] => None
        | HeaderListRequest l :: q => Some (let? m := handle_header_request l in Ok (Conn (n_client n) (n_server n) q (to_client n ++ [m])))
        | BlockListRequest ids :: q => Some (let? v := handle_block_request (n_server n) ids in Ok (Conn (n_client n) v q (to_client n)))
        | _ => Some (Err UnexpectedMessage)
        end
    | SendBlock =>
        match v_queue (n_server n) with
        | [] => None
        | id :: queue => Some (let? (v, m) := send_block (n_server n) id queue in Ok (Conn (n_client n) v (to_server n) (to_client n ++ [m])))
        end
    | Receive t =>
        match to_client n with
        | [] => None
        | HeaderList hs :: q => Some (let? (c, o) := handle_header_list (n_client n) hs in Ok (Conn c (n_server n) (push o (to_server n)) q))
        | BlockResponse b :: q => Some (let? (c, o) := handle_block_response (n_client n) b t in Ok (Conn c (n_server n) (push o (to_server n)) q))
        | _ => Some (Err UnexpectedMessage)
        end
    | Elsewhere t => Some (Ok (Conn (Client t (c_pending (n_client n)) (c_requested (n_client n)) (c_peer_best (n_client n))) (n_server n) (to_server n) (to_client n)))
    end.

  (** block_manager.rs 179-186: a new connection: the asking end has sent its first request *)
  Definition start (t : tree) : res p2p_err conn :=
    let c := Client t [] [] None in
    let? m := request_headers c in Ok (Conn c (Server [] None) [m] []).
End Download.
