(** Model of the scanner of the API server, as far as the balances and unspent outputs of addresses are concerned:
    api-server/scanner-lib/src/blockchain_state/mod.rs, api-server/scanner-lib/src/sync/mod.rs and the tables it writes
    (api-server/api-server-common/src/storage/impls/in_memory/mod.rs, storage_api/mod.rs).
    Left out: fees, pools, delegations, orders, statistics, token data, the lists of transactions of addresses and tokens, amounts of the old
    tokens ([TokenV0]), decimals, and failures of the database (a failed call commits nothing). An address is the text of a destination:
    destinations are taken for it. *)
From Verif Require Import Base.
From Verif Require BlockTreeModel WalletSyncModel.
Local Open Scope N_scope.

(** common/src/primitives/coin_or_token_id.rs *)
Inductive currency := Coin | TokenId (t : N).
Global Instance currency_eqdec : EqDecision currency.
Proof. solve_decision. Defined.
Global Instance currency_countable : Countable currency.
Proof. refine (inj_countable' (fun c => match c with Coin => None | TokenId t => Some t end) (fun o => match o with None => Coin | Some t => TokenId t end) _). by intros []. Defined.
(** common/src/chain/transaction/utxo_outpoint.rs *)
Inductive source := Transaction (id : N) | BlockReward (id : N).
Global Instance source_eqdec : EqDecision source.
Proof. solve_decision. Defined.
Global Instance source_countable : Countable source.
Proof.
  refine (inj_countable' (fun s => match s with Transaction i => inl i | BlockReward i => inr i end) (fun o => match o with inl i => Transaction i | inr i => BlockReward i end) _).
  by intros [].
Defined.
Notation outpoint := (source * N)%type.
(** common/src/chain/transaction/output/timelock.rs *)
Inductive timelock := UntilHeight (h : N) | UntilTime (t : N) | ForBlockCount (n : N) | ForSeconds (n : N).
(** common/src/chain/transaction/output/mod.rs; values are a currency and an amount *)
Inductive output :=
| Transfer (v : currency * N) (d : N)
| LockThenTransfer (v : currency * N) (d : N) (l : timelock)
| Htlc (v : currency * N) (spend refund : N)
| IssueNft (t : N) (d : N)
| CreateStakePool (pool decommission : N)
| ProduceBlockFromStake (d pool : N)
| CreateDelegationId (d pool : N)
| DelegateStaking (amount delegation : N)
| IssueFungibleToken
| Burn (v : currency * N)
| DataDeposit
| CreateOrder.
(** Of the inputs of a transaction only the outputs it spends matter here *)
Record tx := Tx { tx_id : N; spends : list outpoint; outs : list output }.
(** [kernel]: the kernel inputs of a proof-of-stake block *)
Record block := Block { block_id : N; prev_id : N; timestamp : N; txs : list tx; reward : list output; kernel : list outpoint }.
(** common/src/chain/genesis.rs *)
Record genesis := Genesis { genesis_id : N; genesis_time : N; genesis_outs : list output }.

(** storage_api/mod.rs [UtxoLock] *)
Inductive until := LockedUntilHeight (h : N) | LockedUntilTime (t : N).

(** * Tables: for each key the values at the heights where they changed, the highest first. in_memory/mod.rs keeps them in a sorted map *)
Notation table K V := (gmap K (list (N * V))).
Section Tables.
  Context {K V : Type} `{Countable K}.
  Fixpoint put (h : N) (v : V) (l : list (N * V)) : list (N * V) :=
    match l with
    | [] => [(h, v)]
    | (h', v') :: l' => if h' <? h then (h, v) :: l else if h' =? h then (h, v) :: l' else (h', v') :: put h v l'
    end.
  Definition set_at (h : N) (k : K) (v : V) (t : table K V) : table K V := <[k := put h v (default [] (t !! k))]> t.
  Definition latest (k : K) (t : table K V) : option V := snd <$> (t !! k ≫= head).
  (** in_memory/mod.rs 855-891, 1203-1237, 1284-1294 [del_..._above_height]: a key without values is dropped; of locked balances it is kept without them *)
  Definition versions_up_to (h : N) (l : list (N * V)) : option (list (N * V)) :=
    match filter (fun x => x.1 <= h) l with [] => None | l' => Some l' end.
  Definition del_above (h : N) (t : table K V) : table K V := omap (versions_up_to h) t.
End Tables.

(** in_memory/mod.rs 62-88. [utxo_of], [locked_utxo_of]: which outputs belong to which addresses. [main]: the main chain with the times of its
    blocks, the highest first *)
Record db := Db {
  balance : table (N * currency) N;
  locked_balance : table (N * currency) N;
  utxo : table outpoint (output * option N);
  utxo_of : gset (N * outpoint);
  locked_utxo : table outpoint (output * until);
  locked_utxo_of : gset (N * outpoint);
  nft : table N (option N);
  main : list (N * (N * N)) }.
Definition set_balance x d := Db x (locked_balance d) (utxo d) (utxo_of d) (locked_utxo d) (locked_utxo_of d) (nft d) (main d).
Definition set_locked_balance x d := Db (balance d) x (utxo d) (utxo_of d) (locked_utxo d) (locked_utxo_of d) (nft d) (main d).
Definition set_utxo_tables x y d := Db (balance d) (locked_balance d) x y (locked_utxo d) (locked_utxo_of d) (nft d) (main d).
Definition set_locked_utxo_tables x y d := Db (balance d) (locked_balance d) (utxo d) (utxo_of d) x y (nft d) (main d).
Definition set_nft x d := Db (balance d) (locked_balance d) (utxo d) (utxo_of d) (locked_utxo d) (locked_utxo_of d) x (main d).
Definition set_main x d := Db (balance d) (locked_balance d) (utxo d) (utxo_of d) (locked_utxo d) (locked_utxo_of d) (nft d) x.
Definition empty_db : db := Db ∅ ∅ ∅ ∅ ∅ ∅ ∅ [].

(** * Reading *)
(** in_memory/mod.rs 122-134 *)
Definition get_address_balance (a : N) (k : currency) (d : db) : option N := latest (a, k) (balance d).
(** in_memory/mod.rs 169-183 *)
Definition get_address_locked_balance (a : N) (k : currency) (d : db) : option N := latest (a, k) (locked_balance d).
(** in_memory/mod.rs 602-608 *)
Definition get_utxo (o : outpoint) (d : db) : option (output * option N) := latest o (utxo d).
(** in_memory/mod.rs 610-632 *)
Definition get_address_available_utxos (a : N) (d : db) : res unit (list (outpoint * output)) :=
  foldr (fun (p : N * outpoint) r =>
    let? l := r in
    if p.1 =? a then let? u := expect (get_utxo p.2 d) in Ok (match u.2 with None => (p.2, u.1) :: l | Some _ => l end) else Ok l)
    (Ok []) (elements (utxo_of d)).
(** in_memory/mod.rs 634-663 *)
Definition get_address_all_utxos (a : N) (d : db) : res unit (list (outpoint * output)) :=
  foldr (fun (p : N * outpoint) r =>
    let? l := r in
    if p.1 =? a then
      match get_utxo p.2 d with
      | Some u => Ok (match u.2 with None => (p.2, u.1) :: l | Some _ => l end)
      | None => let? u := expect (latest p.2 (locked_utxo d)) in Ok ((p.2, u.1) :: l)
      end
    else Ok l)
    (Ok []) (elements (utxo_of d ∪ locked_utxo_of d)).
(** in_memory/mod.rs 727-735: the owner *)
Definition get_nft_owner (t : N) (d : db) : option (option N) := latest t (nft d).
(** in_memory/mod.rs 334-347: identifier and height *)
Definition get_best_block (g : genesis) (d : db) : N * N := match main d with [] => (genesis_id g, 0) | (h, (i, _)) :: _ => (i, h) end.
(** in_memory/mod.rs 349-364; the median of more than eleven is that of the first eleven, median_time.rs 38-44 *)
Definition get_latest_blocktimestamps (g : genesis) (d : db) : list N :=
  take BlockTreeModel.MEDIAN_TIME_SPAN (map (fun x => x.2.2) (main d) ++ [genesis_time g]).
Definition median (l : list N) : res unit N := match BlockTreeModel.median_of_times l with Ok m => Ok m | _ => Panic end.
(** in_memory/mod.rs 665-683 *)
Definition opens (h prev new : N) (u : until) : bool :=
  match u with LockedUntilHeight x => x =? h | LockedUntilTime t => (prev <? t) && (t <=? new) end.
Definition get_locked_utxos_until_now (h prev new : N) (d : db) : list (outpoint * output) :=
  omap (fun x => match head x.2 with Some (_, (out, u)) => if opens h prev new u then Some (x.1, out) else None | None => None end) (map_to_list (locked_utxo d)).

(** * Writing *)
(** in_memory/mod.rs 948-970 *)
Definition update_nft_owner (k : currency) (amount a h : N) (d : db) : db :=
  match k with
  | Coin => d
  | TokenId t => match nft d !! t with
                 | None => d
                 | Some _ => set_nft (set_at h t (if 0 <? amount then Some a else None) (nft d)) d
                 end
  end.
(** in_memory/mod.rs 927-946 *)
Definition set_address_balance_at_height (a amount : N) (k : currency) (h : N) (d : db) : db :=
  update_nft_owner k amount a h (set_balance (set_at h (a, k) amount (balance d)) d).
(** in_memory/mod.rs 972-989 *)
Definition set_address_locked_balance_at_height (a amount : N) (k : currency) (h : N) (d : db) : db :=
  update_nft_owner k amount a h (set_locked_balance (set_at h (a, k) amount (locked_balance d)) d).
(** in_memory/mod.rs 1166-1181 *)
Definition set_utxo_at_height (o : outpoint) (u : output * option N) (addresses : list N) (h : N) (d : db) : db :=
  set_utxo_tables (set_at h o u (utxo d)) (list_to_set (map (fun a => (a, o)) addresses) ∪ utxo_of d) d.
(** in_memory/mod.rs 1183-1201 *)
Definition set_locked_utxo_at_height (o : outpoint) (u : output * until) (addresses : list N) (h : N) (d : db) : db :=
  set_locked_utxo_tables (set_at h o u (locked_utxo d)) (list_to_set (map (fun a => (a, o)) addresses) ∪ locked_utxo_of d) d.
(** in_memory/mod.rs 1249-1270: a second issuance is a panic *)
Definition set_nft_token_issuance (t h owner : N) (d : db) : res unit db :=
  match nft d !! t with None => Ok (set_nft (<[t := [(h, Some owner)]]> (nft d)) d) | Some _ => Panic end.
(** in_memory/mod.rs 1025-1048; a block stored before at another height is not modelled *)
Definition set_mainchain_block (id time h : N) (d : db) : db := set_main (put h (id, time) (main d)) d.

(** blockchain_state/mod.rs 2082-2101 *)
Definition increase_address_amount (a amount : N) (k : currency) (h : N) (d : db) : res unit db :=
  let? x := expect (checked_add U128_MAX (default 0 (get_address_balance a k d)) amount) in Ok (set_address_balance_at_height a x k h d).
(** blockchain_state/mod.rs 2103-2122 *)
Definition increase_locked_address_amount (a amount : N) (k : currency) (h : N) (d : db) : res unit db :=
  let? x := expect (checked_add U128_MAX (default 0 (get_address_locked_balance a k d)) amount) in Ok (set_address_locked_balance_at_height a x k h d).
(** blockchain_state/mod.rs 2124-2148 *)
Definition decrease_address_amount (a amount : N) (k : currency) (h : N) (d : db) : res unit db :=
  let? x := expect (checked_sub (default 0 (get_address_balance a k d)) amount) in Ok (set_address_balance_at_height a x k h d).
(** blockchain_state/mod.rs 2150-2174 *)
Definition decrease_address_locked_amount (a amount : N) (k : currency) (h : N) (d : db) : res unit db :=
  let? x := expect (checked_sub (default 0 (get_address_locked_balance a k d)) amount) in Ok (set_address_locked_balance_at_height a x k h d).
(** blockchain_state/mod.rs 2200-2215 *)
Definition get_tx_output_destination (out : output) : option N :=
  match out with
  | Transfer _ d | LockThenTransfer _ d _ | CreateDelegationId d _ | IssueNft _ d | ProduceBlockFromStake d _ => Some d
  | CreateStakePool _ decommission => Some decommission
  | Htlc _ spend _ => Some spend
  | IssueFungibleToken | Burn _ | DelegateStaking _ _ | DataDeposit | CreateOrder => None
  end.
(** blockchain_state/mod.rs 2176-2198 *)
Definition set_utxo (o : outpoint) (out : output) (h : N) (spent : bool) (d : db) : db :=
  match get_tx_output_destination out with
  | Some a => set_utxo_at_height o (out, if spent then Some h else None) [a] h d
  | None => d
  end.

(** * Scanning *)
(** blockchain_state/mod.rs 247-318 *)
Definition unlock (h : N) (d : db) (x : outpoint * output) : res unit db :=
  match x.2 with
  | LockThenTransfer (k, amount) a _ =>
      let? d := increase_address_amount a amount k h d in
      let? d := decrease_address_locked_amount a amount k h d in
      Ok (set_utxo_at_height x.1 (x.2, None) [a] h d)
  | _ => Panic
  end.
Definition update_locked_amounts_for_current_block (h prev new : N) (d : db) : res unit db :=
  rfold (unlock h) (get_locked_utxos_until_now h prev new d) d.

(** blockchain_state/mod.rs 320-332 *)
Definition previous_and_new_median_time (g : genesis) (time : N) (d : db) : res unit (N * N) :=
  let times := get_latest_blocktimestamps g d in
  let? prev := median times in let? new := median (time :: times) in Ok (prev, new).

(** blockchain_state/mod.rs 400-548: of the reward of a block, or the outputs of genesis *)
Definition scan_reward_output (id h : N) (d : db) (x : nat * output) : res unit db :=
  let o := (BlockReward id, N.of_nat x.1) in
  match x.2 with
  | ProduceBlockFromStake _ _ | CreateStakePool _ _ => Ok (set_utxo o x.2 h false d)
  | Transfer (k, amount) a | LockThenTransfer (k, amount) a _ =>
      let? d := increase_address_amount a amount k h d in Ok (set_utxo o x.2 h false d)
  | Burn _ | CreateDelegationId _ _ | DataDeposit | DelegateStaking _ _ | IssueFungibleToken | IssueNft _ _ | Htlc _ _ _ | CreateOrder => Ok d
  end.
Definition update_tables_from_block_reward (id h : N) (l : list output) (d : db) : res unit db := rfold (scan_reward_output id h) (imap pair l) d.

(** blockchain_state/mod.rs 904-934, the kernel inputs *)
Definition scan_kernel_input (h : N) (d : db) (o : outpoint) : res unit db :=
  let? u := expect (get_utxo o d) in Ok (set_utxo o u.1 h true d).

(** blockchain_state/mod.rs 1345-1536, the outputs spent *)
Definition scan_input (h : N) (d : db) (o : outpoint) : res unit db :=
  let? u := expect (get_utxo o d) in
  let d := set_utxo o u.1 h true d in
  match o.1 with
  | BlockReward _ => Ok d
  | Transaction _ =>
      match u.1 with
      | IssueNft t a => decrease_address_amount a 1 (TokenId t) h d
      | Transfer (k, amount) a | LockThenTransfer (k, amount) a _ => decrease_address_amount a amount k h d
      | _ => Ok d
      end
  end.

(** mintscript/src/checker/timelock.rs 72-92, at the height and time of the block the output is made in *)
Definition check_timelock (l : timelock) (source_height source_time height time : N) : bool :=
  match l with
  | UntilHeight h => h <=? height
  | UntilTime t => t <=? time
  | ForBlockCount n => if n <=? Z.to_N I64_MAX then match checked_add U64_MAX source_height n with Some h => h <=? height | None => false end else false
  | ForSeconds n => match checked_add U64_MAX source_time n with Some t => t <=? time | None => false end
  end.
(** storage_api/mod.rs 342-358 *)
Definition from_output_lock (l : timelock) (time h : N) : res unit until :=
  match l with
  | UntilTime t => Ok (LockedUntilTime t)
  | UntilHeight x => Ok (LockedUntilHeight x)
  | ForSeconds n => let? t := expect (checked_add U64_MAX time n) in Ok (LockedUntilTime t)
  | ForBlockCount n => let? x := expect (checked_add U64_MAX h n) in Ok (LockedUntilHeight x)
  end.
(** blockchain_state/mod.rs 1564-2038 *)
Definition scan_output (id h time median_time : N) (d : db) (x : nat * output) : res unit db :=
  let o := (Transaction id, N.of_nat x.1) in
  match x.2 with
  | Transfer (k, amount) a =>
      let? d := increase_address_amount a amount k h d in Ok (set_utxo_at_height o (x.2, None) [a] h d)
  | LockThenTransfer (k, amount) a l =>
      if check_timelock l h time h median_time then
        let? d := increase_address_amount a amount k h d in Ok (set_utxo_at_height o (x.2, None) [a] h d)
      else
        let? d := increase_locked_address_amount a amount k h d in
        let? u := from_output_lock l time h in Ok (set_locked_utxo_at_height o (x.2, u) [a] h d)
  | Htlc _ spend refund => Ok (set_utxo_at_height o (x.2, None) [spend; refund] h d)
  | IssueNft t a =>
      let? d := set_nft_token_issuance t h a d in
      let? d := increase_address_amount a 1 (TokenId t) h d in Ok (set_utxo o x.2 h false d)
  | CreateStakePool _ _ => Ok (set_utxo o x.2 h false d)
  | ProduceBlockFromStake _ _ | CreateDelegationId _ _ | DelegateStaking _ _ | IssueFungibleToken | Burn _ | DataDeposit | CreateOrder => Ok d
  end.
(** blockchain_state/mod.rs 661-678, 772-778, 891-902: for its fee the outputs a transaction spends are looked up first *)
Definition fetch_utxos (l : list outpoint) (d : db) : res unit unit := if forallb (fun o => bool_decide (is_Some (get_utxo o d))) l then Ok tt else Panic.
(** blockchain_state/mod.rs 164-192, 1012-1042 *)
Definition scan_tx (h time median_time : N) (d : db) (x : tx) : res unit db :=
  fetch_utxos (spends x) d ;?
  let? d := rfold (scan_input h) (spends x) d in
  rfold (scan_output (tx_id x) h time median_time) (imap pair (outs x)) d.

(** blockchain_state/mod.rs 132-238, one block *)
Definition connect_block (g : genesis) (d : db) (h : N) (b : block) : res unit db :=
  let? (prev, new) := previous_and_new_median_time g (timestamp b) d in
  let? d := update_locked_amounts_for_current_block h prev new d in
  let? d := rfold (scan_tx h (timestamp b) new) (txs b) d in
  let d := set_mainchain_block (block_id b) (timestamp b) h d in
  let? d := update_tables_from_block_reward (block_id b) h (reward b) d in
  rfold (scan_kernel_input h) (kernel b) d.

(** blockchain_state/mod.rs 334-368, in_memory/mod.rs 855-891, 1102-1115, 1203-1237, 1284-1294; the outputs of an address are dropped with their last version *)
Definition disconnect_tables_above_height (h : N) (d : db) : db :=
  let u := del_above h (utxo d) in
  let l := del_above h (locked_utxo d) in
  Db (del_above h (balance d)) (del_above h (locked_balance d))
     u (filter (fun p => is_Some (u !! p.2)) (utxo_of d)) l (filter (fun p => is_Some (l !! p.2)) (locked_utxo_of d))
     (del_above h (nft d)) (filter (fun x => x.1 <= h) (main d)).

(** blockchain_state/mod.rs 88-105 *)
Definition scan_genesis (g : genesis) : res unit db := update_tables_from_block_reward (genesis_id g) 0 (genesis_outs g) empty_db.
(** blockchain_state/mod.rs 118-244: one transaction of the database *)
Definition scan_blocks (g : genesis) (common : N) (bs : list block) (d : db) : res unit db :=
  rfold (fun d x => connect_block g d (common + N.of_nat x.1 + 1) x.2) (imap pair bs) (disconnect_tables_above_height common d).

(** * Following the node: api-server/scanner-lib/src/sync/mod.rs. The node may change between any two calls, and a call may fail *)
Inductive sync_err := RemoteNode | NoNewBlocksFound | InvalidPrevBlockId | NotEnoughBlockHeight | Interrupted.
(** sync/mod.rs 25 *)
Definition MAX_FETCH_BLOCK_COUNT : nat := 100.
Section Sync.
  Context (g : genesis).
  Notation node := (@WalletSyncModel.node block).
  Notation node_info := (WalletSyncModel.chainstate_info block_id (genesis_id g)).
  Notation common_ancestor := (WalletSyncModel.last_common_ancestor_by_id block_id (genesis_id g)).
  Context (seen : nat -> option node).
  Definition ask {A} (f : node -> A) (t : nat) : res sync_err A := match seen t with Some n => Ok (f n) | None => Err RemoteNode end.
  (** sync/mod.rs 125-191; two calls of the node from time [t] on *)
  Definition fetch_new_blocks (node_best best : N) (t : nat) : res sync_err (list block * nat) :=
    let? c := ask (common_ancestor best node_best) t in
    let '(common_id, common) := match c with Some c => c | None => (genesis_id g, O) end in
    let? r := ask (WalletSyncModel.get_mainchain_blocks (S common) MAX_FETCH_BLOCK_COUNT) (S t) in
    match r with
    | Ok (b :: bs) => if prev_id b =? common_id then Ok (b :: bs, common) else Err InvalidPrevBlockId
    | Ok [] => Err NoNewBlocksFound
    | Err _ => Err RemoteNode
    | Panic => Panic
    end.
  (** sync/mod.rs 55-123; the loop is cut off after [fuel] rounds *)
  Fixpoint sync_once (fuel : nat) (d : db) (t : nat) : (db * nat) * res sync_err unit :=
    match fuel with
    | O => ((d, t), Err Interrupted)
    | S fuel' =>
        match ask node_info t with
        | Err e => ((d, S t), Err e)
        | Panic => ((d, S t), Panic)
        | Ok (node_best, node_height) =>
            let '(best, height) := get_best_block g d in
            if node_best =? best then ((d, S t), Ok tt)
            else if N.of_nat node_height <? height then ((d, S t), Err NotEnoughBlockHeight)
            else match fetch_new_blocks node_best best (S t) with
                 | Err e => ((d, S (S (S t))), Err e)
                 | Panic => ((d, S (S (S t))), Panic)
                 | Ok (bs, common) => match scan_blocks g (N.of_nat common) bs d with
                                      | Ok d' => sync_once fuel' d' (S (S (S t)))
                                      | _ => ((d, S (S (S t))), Panic)
                                      end
                 end
        end
    end.
End Sync.
