(** Model of the synchronisation of a wallet with its node: wallet/wallet-controller/src/sync/mod.rs, the scanning of blocks by the accounts
    (wallet/src/account/mod.rs, wallet/src/wallet/mod.rs) and the answers of the node it uses (chainstate/src/detail/query.rs,
    chainstate/src/interface/chainstate_interface_impl.rs, chainstate/src/detail/chainstateref/mod.rs).
    The node may change at any time: every call sees the node as it is at that moment, and may fail. Storing a scanned account may fail.
    The median time, the log and the events sent to the user interface are left out, and so is what the wallet knows of unconfirmed transactions. *)
From Verif Require Import Base.

(** sync/mod.rs 105-113 [FetchBlockError] and controller lib.rs [ControllerError], as far as they arise here. [WalletError] is tagged with the
    call that failed. [Interrupted] is no error of the code: the wallet is stopped here, before the next round of the loop. *)
Inductive whose := OfAccount | OfUnusedAccount.
Inductive sync_err := NodeCallError | NoNewBlocksFound | InvalidPrevBlockId | InvalidStartingBlockHeight | WalletError (w : whose) | Interrupted.
(** sync/mod.rs 121-124 *)
Inductive in_sync := Synced | NodeOutOfSync.
(** sync/mod.rs 115-119 *)
Inductive account_type := UsedAccount (i : nat) | UnusedAccount.

(** sync/mod.rs 34 *)
Definition MAX_FETCH_BLOCK_COUNT : nat := 100.

Section WalletSync.
  (** Blocks, their identifiers and their parents; identifiers are 256 bit numbers *)
  Context {B : Type} (bid prev : B -> N) (genesis : N).
  (** account/mod.rs 2226-2300 [add_wallet_tx_if_relevant]: whether the account with this index, with these blocks on record, puts a block on
      record. What is stored of a block (its relevant transactions) is represented by the block. *)
  Context (concerns : nat -> list (nat * B) -> B -> bool).
  (** The greatest index of an account, u31.rs 30 *)
  Context (max_index : nat).

  (** A block chain, from the first block after genesis *)
  Notation chain := (list B).
  Definition tip (c : chain) : N := match last c with Some b => bid b | None => genesis end.

  (** ** The node: its main chain and the other branches it knows *)
  Record node := Node { main : chain; others : list chain }.

  (** chainstate/src/interface/chainstate_interface_impl.rs [info]: identifier and height of the best block *)
  Definition chainstate_info (n : node) : N * nat := (tip (main n), length (main n)).
  (** query.rs 102-135 *)
  Definition get_mainchain_blocks (from count : nat) (n : node) : res sync_err (list B) :=
    match from with
    | O => Err InvalidStartingBlockHeight
    | S k => Ok (take count (drop k (main n)))
    end.
  (** The branch that ends in the block, if the block is on the branch *)
  Fixpoint prefix_to (id : N) (c : chain) : option chain :=
    match c with
    | [] => None
    | b :: c' => if (bid b =? id)%N then Some [b] else cons b <$> prefix_to id c'
    end.
  (** [get_gen_block_index]: the chain of the block, if the node knows it *)
  Definition known_chain (id : N) (n : node) : option chain :=
    if (id =? genesis)%N then Some [] else foldr (fun c o => match prefix_to id c with Some p => Some p | None => o end) None (main n :: others n).
  (** chainstateref/mod.rs 343-354: both at height [h], going back together *)
  Fixpoint in_lockstep (h : nat) (p q : chain) : nat :=
    if (tip (take h p) =? tip (take h q))%N then h else match h with O => O | S h' => in_lockstep h' p q end.
  (** chainstateref/mod.rs 324-342: first the higher one goes back to the height of the other *)
  Definition common_height (p q : chain) : nat := in_lockstep (Nat.min (length p) (length q)) p q.
  (** chainstate_interface_impl.rs 480-500 *)
  Definition last_common_ancestor_by_id (a b : N) (n : node) : option (N * nat) :=
    match known_chain a n, known_chain b n with
    | Some p, Some q => let h := common_height p q in Some (tip (take h p), h)
    | _, _ => None
    end.

  (** ** The wallet *)
  (** An account: identifier and height of its best block, and the blocks on record with their heights *)
  Record account := Account { best : N * nat; records : list (nat * B) }.
  (** wallet.rs 331-342: the accounts by index, and the next one, which is not yet used; its index is their number *)
  Record wallet := Wallet { accounts : list account; unused : account }.

  (** What may go wrong and when: the node as it is seen by a call at a time ([None]: the call fails), whether a scan can be stored, and whether
      an account can be created (not if the wallet is locked) *)
  Record world := World { seen : nat -> option node; stored : nat -> bool; unlocked : nat -> bool }.
  Context (W : world).
  (** The wallet, and the time *)
  Notation st := (wallet * nat)%type.

  (** account/mod.rs 2191-2224 *)
  Definition reset_to_height (h : nat) (r : list (nat * B)) : list (nat * B) := filter (fun x => (x.1 <= h)%nat) r.
  (** account/mod.rs 2320-2350: the new records, and whether there are any *)
  Fixpoint take_in (i h : nat) (r : list (nat * B)) (bs : list B) : list (nat * B) * bool :=
    match bs with
    | [] => (r, false)
    | b :: bs' => if concerns i r b then ((take_in i (S h) (r ++ [(h, b)]) bs').1, true) else take_in i (S h) r bs'
    end.
  (** account/mod.rs 2301-2360 *)
  Definition account_scan (i : nat) (common : nat) (bs : list B) (a : account) : res sync_err (account * bool) :=
    match last bs with
    | None => Panic
    | Some b =>
        if (common <=? (best a).2)%nat then
          let r := if (common <? (best a).2)%nat then reset_to_height common (records a) else records a in
          let t := take_in i (S common) r bs in
          Ok (Account (bid b, common + length bs)%nat t.1, t.2)
        else Panic
    end.

  (** wallet.rs 2703-2717 and 1196-1210 [for_account_rw]: one transaction of the database *)
  Definition scan_blocks (i common : nat) (bs : list B) (s : st) : st * res sync_err unit :=
    let (w, t) := s in
    if stored W t then
      match accounts w !! i with
      | None => ((w, S t), Err (WalletError OfAccount))
      | Some a => match account_scan i common bs a with
                  | Ok (a', _) => ((Wallet (<[i := a']> (accounts w)) (unused w), S t), Ok tt)
                  | Err e => ((w, S t), Err e)
                  | Panic => ((w, S t), Panic)
                  end
      end
    else ((w, S t), Err (WalletError OfAccount)).
  (** wallet.rs 1128-1179: the unused account becomes a used one; the next one is taken to be as far as it is *)
  Definition create_next_account (s : st) : st * res sync_err unit :=
    let (w, t) := s in
    match last (accounts w) with
    | None => ((w, t), Panic)
    | Some a =>
        if bool_decide (records a = []) then ((w, t), Err (WalletError OfUnusedAccount))
        else if (length (accounts w) <? max_index)%nat && unlocked W t
        then ((Wallet (accounts w ++ [unused w]) (Account (best (unused w)) []), S t), Ok tt)
        else ((w, S t), Err (WalletError OfUnusedAccount))
    end.
  (** wallet.rs 2725-2754; [room] is the number of indices left, the loop cannot go on without one *)
  Fixpoint scan_blocks_for_unused_account (room common : nat) (bs : list B) (s : st) : st * res sync_err unit :=
    let (w, t) := s in
    if stored W t then
      match account_scan (length (accounts w)) common bs (unused w) with
      | Ok (a', false) => ((Wallet (accounts w) a', S t), Ok tt)
      | Ok (a', true) =>
          sbind (create_next_account (Wallet (accounts w) a', S t))
                (fun s' _ => match room with
                             | O => (s', Err (WalletError OfUnusedAccount))
                             | S room' => scan_blocks_for_unused_account room' common bs s'
                             end)
      | Err e => ((w, S t), Err e)
      | Panic => ((w, S t), Panic)
      end
    else ((w, S t), Err (WalletError OfUnusedAccount)).

  (** ** The synchronisation *)
  (** A call of the node *)
  Definition call {A} (f : node -> res sync_err A) (s : st) : st * res sync_err A :=
    ((s.1, S s.2), match seen W s.2 with Some n => f n | None => Err NodeCallError end).

  (** sync/mod.rs 94-98 [NextBlockInfo] *)
  Notation info := (N * nat)%type.
  (** sync/mod.rs 379-418 *)
  Definition get_common_block_info (node_best wallet_best : N * nat) (s : st) : st * res sync_err info :=
    if (node_best.1 =? wallet_best.1)%N then (s, Panic)
    else if (node_best.2 <? wallet_best.2)%nat then (s, Panic)
    else call (fun n => Ok (match last_common_ancestor_by_id wallet_best.1 node_best.1 n with Some c => c | None => (genesis, 0%nat) end)) s.

  (** sync/mod.rs 341-352: accounts by best block, in the order of the best blocks *)
  Definition key_eqb (a b : N * nat) : bool := (a.1 =? b.1)%N && (a.2 =? b.2)%nat.
  Definition key_ltb (a b : N * nat) : bool := (a.1 <? b.1)%N || (a.1 =? b.1)%N && (a.2 <? b.2)%nat.
  Fixpoint group_push (k : N * nat) (x : account_type) (g : list ((N * nat) * list account_type)) : list ((N * nat) * list account_type) :=
    match g with
    | [] => [(k, [x])]
    | (k', l) :: g' => if key_eqb k k' then (k', l ++ [x]) :: g' else if key_ltb k k' then (k, [x]) :: g else (k', l) :: group_push k x g'
    end.
  Definition grouped (w : wallet) : list ((N * nat) * list account_type) :=
    group_push (best (unused w)) UnusedAccount (foldl (fun g x => group_push (best x.2) (UsedAccount x.1) g) [] (imap (fun i a => (i, a)) (accounts w))).
  (** sync/mod.rs 354-368 *)
  Fixpoint with_common_blocks (node_best : N * nat) (g : list ((N * nat) * list account_type)) (s : st)
    : st * res sync_err (list (info * list account_type)) :=
    match g with
    | [] => (s, Ok [])
    | (k, l) :: g' =>
        sbind (get_common_block_info node_best k s) (fun s c =>
          sbind (with_common_blocks node_best g' s) (fun s r => (s, Ok ((c, l) :: r))))
    end.
  (** [sort_by_key] on the height, highest first; a stable sort *)
  Fixpoint sorted_insert (x : info * list account_type) (l : list (info * list account_type)) : list (info * list account_type) :=
    match l with
    | [] => [x]
    | y :: l' => if (y.1.2 <=? x.1.2)%nat then x :: l else y :: sorted_insert x l'
    end.
  Definition sort_by_height (l : list (info * list account_type)) : list (info * list account_type) := foldr sorted_insert [] l.
  (** sync/mod.rs 331-374 *)
  Definition group_accounts_by_mainchain_blocks (node_best : N * nat) (s : st) : st * res sync_err (list (info * list account_type)) :=
    sbind (with_common_blocks node_best (grouped s.1) s) (fun s g => (s, Ok (sort_by_height g))).

  (** sync/mod.rs 299-325 *)
  Definition fetch_next_blocks (current : info) (count : nat) (s : st) : st * res sync_err (list B) :=
    call (fun n => let? bs := get_mainchain_blocks (S current.2) count n in
                   match bs with
                   | [] => Err NoNewBlocksFound
                   | b :: _ => if (prev b =? current.1)%N then Ok bs else Err InvalidPrevBlockId
                   end) s.
  (** sync/mod.rs 257-297 *)
  Definition scan_new_blocks (common : nat) (bs : list B) (s : st) (x : account_type) : st * res sync_err unit :=
    match x with
    | UsedAccount i => scan_blocks i common bs s
    | UnusedAccount => scan_blocks_for_unused_account (max_index - length (accounts s.1)) common bs s
    end.
  (** sync/mod.rs 225-255 *)
  Definition fetch_and_sync (g : info * list account_type) (count : nat) (s : st) : st * res sync_err unit :=
    sbind (fetch_next_blocks g.1 count s) (fun s bs => try_fold (scan_new_blocks g.1.2 bs) g.2 s).
  (** sync/mod.rs 205-223 *)
  Definition fetch_and_sync_to_next_group (current next : info * list account_type) (s : st) : st * res sync_err (info * list account_type) :=
    if (next.1.2 <? current.1.2)%nat then (s, Panic)
    else sbind (fetch_and_sync current (next.1.2 - current.1.2) s) (fun s _ => (s, Ok (next.1, next.2 ++ current.2))).
  (** sync/mod.rs 174-202: the groups that are left, the lowest first *)
  Fixpoint sync_groups (current : info * list account_type) (rest : list (info * list account_type)) (s : st) : st * res sync_err unit :=
    match rest with
    | [] => fetch_and_sync current MAX_FETCH_BLOCK_COUNT s
    | next :: rest' => sbind (fetch_and_sync_to_next_group current next s) (fun s g => sync_groups g rest' s)
    end.

  Definition best_blocks (w : wallet) : list (N * nat) := map best (accounts w) ++ [best (unused w)].
  (** sync/mod.rs 126-203; the loop is cut off after [fuel] rounds *)
  Fixpoint sync_once (fuel : nat) (s : st) : st * res sync_err in_sync :=
    match fuel with
    | O => (s, Err Interrupted)
    | S fuel' =>
        sbind (call (fun n => Ok (chainstate_info n)) s) (fun s i =>
          if forallb (fun b => (b.1 =? i.1)%N) (best_blocks s.1) then (s, Ok Synced)
          else if existsb (fun b => (i.2 <? b.2)%nat) (best_blocks s.1) then (s, Ok NodeOutOfSync)
          else sbind (group_accounts_by_mainchain_blocks i s) (fun s g =>
            match rev g with
            | [] => (s, Panic)
            | current :: rest => sbind (sync_groups current rest s) (fun s _ => sync_once fuel' s)
            end))
    end.
End WalletSync.
