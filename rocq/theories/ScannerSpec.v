(** What is said about the scanner of the API server: the outputs made and spent on a chain of blocks, and what they are worth to an address. *)
From Verif Require Import Base ScannerModel.
From Verif Require WalletSyncModel WalletSyncSpec.
Local Open Scope N_scope.

(** * The outputs of a chain *)
(** An output: where it is, what it is, and the height and time of the block that made it *)
Record made := Made { place : outpoint; what : output; born : N; born_time : N }.
Definition made_by_tx (h time : N) (x : tx) : list made := imap (fun i out => Made (Transaction (tx_id x), N.of_nat i) out h time) (outs x).
Definition made_by_txs (h time : N) (l : list tx) : list made := concat (map (made_by_tx h time) l).
Definition made_by_reward (id h time : N) (l : list output) : list made := imap (fun i out => Made (BlockReward id, N.of_nat i) out h time) l.
Definition made_by_block (h : N) (b : block) : list made :=
  made_by_txs h (timestamp b) (txs b) ++ made_by_reward (block_id b) h (timestamp b) (reward b).
Definition height (c : list block) : N := N.of_nat (length c).
(** A chain is a list of blocks, without genesis; the first has height 1 *)
Definition made_on (g : genesis) (c : list block) : list made :=
  made_by_reward (genesis_id g) 0 (genesis_time g) (genesis_outs g) ++ concat (imap (fun i b => made_by_block (N.of_nat i + 1) b) c).
Definition spent_by_txs (l : list tx) : list outpoint := concat (map spends l).
Definition spent_on (c : list block) : list outpoint := concat (map (fun b => spent_by_txs (txs b) ++ kernel b) c).
(** The times of the blocks, the last first; the median of the last eleven *)
Definition times (g : genesis) (c : list block) : list N := rev (genesis_time g :: map timestamp c).
Definition median_at (g : genesis) (c : list block) : N := match median (times g c) with Ok m => m | _ => 0 end.

(** * Locks: the chain's rule, without bounds on the numbers *)
Definition lock_open (l : timelock) (born born_time h m : N) : bool :=
  match l with
  | UntilHeight x => x <=? h
  | UntilTime t => t <=? m
  | ForBlockCount n => born + n <=? h
  | ForSeconds n => born_time + n <=? m
  end.
Definition is_open (h m : N) (e : made) : bool :=
  match what e with LockThenTransfer _ _ l => lock_open l (born e) (born_time e) h m | _ => true end.

(** * What an output is worth to an address, in a currency. Contracts (HTLC), pools and the like are not counted *)
Definition value (a : N) (k : currency) (out : output) : N :=
  match out with
  | Transfer (k', n) d | LockThenTransfer (k', n) d _ => if bool_decide (k' = k ∧ d = a) then n else 0
  | IssueNft t d => if bool_decide (TokenId t = k ∧ d = a) then 1 else 0
  | _ => 0
  end.
Definition total {A} (f : A -> N) (l : list A) : N := foldr (fun e n => f e + n) 0 l.
(** An output of a block's reward, or of genesis *)
Definition is_reward (e : made) : bool := match (place e).1 with BlockReward _ => true | Transaction _ => false end.
(** The outputs not spent and open at the end of the chain; those not spent and still locked there *)
Definition free_on (g : genesis) (c : list block) (e : made) : Prop :=
  e ∈ made_on g c ∧ place e ∉ spent_on c ∧ is_open (height c) (median_at g c) e = true.
Definition locked_on (g : genesis) (c : list block) (e : made) : Prop :=
  e ∈ made_on g c ∧ place e ∉ spent_on c ∧ is_open (height c) (median_at g c) e = false.
(** What the address may spend, and what is locked *)
Definition funds (g : genesis) (c : list block) (a : N) (k : currency) : N :=
  total (fun e => if bool_decide (place e ∉ spent_on c) && is_open (height c) (median_at g c) e then value a k (what e) else 0) (made_on g c).
Definition locked_funds (g : genesis) (c : list block) (a : N) (k : currency) : N :=
  total (fun e => if bool_decide (place e ∉ spent_on c) && negb (is_open (height c) (median_at g c) e) then value a k (what e) else 0) (made_on g c).

(** * Outputs that can be spent, and the addresses they are listed for *)
Definition spendable (out : output) : bool :=
  match out with Transfer _ _ | LockThenTransfer _ _ _ | Htlc _ _ _ | IssueNft _ _ | CreateStakePool _ _ | ProduceBlockFromStake _ _ => true | _ => false end.
Definition owners (out : output) : list N :=
  match out with
  | Transfer _ d | LockThenTransfer _ d _ | IssueNft _ d | ProduceBlockFromStake d _ => [d]
  | CreateStakePool _ d => [d]
  | Htlc _ spend refund => [spend; refund]
  | _ => []
  end.

(** * Chains a node accepts, as far as it matters here *)
(** Rewards and genesis have no other outputs than these; a block is only made from stake in a reward *)
Definition proper_reward (out : output) : Prop :=
  match out with Transfer _ _ | LockThenTransfer _ _ _ | CreateStakePool _ _ | ProduceBlockFromStake _ _ => True | _ => False end.
Definition proper_output (out : output) : Prop := match out with ProduceBlockFromStake _ _ => False | _ => True end.
(** An output made before, not yet spent and open may be spent *)
Definition may_spend (l : list made) (spent : list outpoint) (h m : N) (o : outpoint) : Prop :=
  ∃ e, e ∈ l ∧ place e = o ∧ o ∉ spent ∧ spendable (what e) = true ∧ is_open h m e = true.
(** A block is made with the output of a pool *)
Definition may_stake (l : list made) (spent : list outpoint) (o : outpoint) : Prop :=
  ∃ e, e ∈ l ∧ place e = o ∧ o ∉ spent ∧ match what e with CreateStakePool _ _ | ProduceBlockFromStake _ _ => True | _ => False end.
(** A block after a chain: its time is not before the median time; locks are judged by the median time of its parent *)
Record valid_block (g : genesis) (c : list block) (b : block) : Prop := {
  valid_time : median_at g c <= timestamp b;
  valid_reward : Forall proper_reward (reward b);
  valid_outputs : ∀ x, x ∈ txs b -> Forall proper_output (outs x);
  valid_spends : ∀ l x l', txs b = l ++ x :: l' -> NoDup (spends x) ∧
    ∀ o, o ∈ spends x ->
      may_spend (made_on g c ++ made_by_txs (height c + 1) (timestamp b) l) (spent_on c ++ spent_by_txs l) (height c + 1) (median_at g c) o;
  valid_kernel : NoDup (kernel b) ∧
    ∀ o, o ∈ kernel b ->
      may_stake (made_on g c ++ made_by_txs (height c + 1) (timestamp b) (txs b)) (spent_on c ++ spent_by_txs (txs b)) o }.
Record valid_chain (g : genesis) (c : list block) : Prop := {
  valid_places : NoDup (map place (made_on g c));
  valid_genesis : Forall proper_reward (genesis_outs g);
  valid_blocks : ∀ c1 b c2, c = c1 ++ b :: c2 -> valid_block g c1 b }.

(** * Numbers that fit *)
(** What would be shown for an address if nothing were locked, after these outputs were made and those spent *)
Definition turnover (l : list made) (spent : list outpoint) (a : N) (k : currency) : N :=
  total (fun e => if is_reward e || bool_decide (place e ∉ spent) then value a k (what e) else 0) l.
(** After every transaction, and after every block, this fits *)
Definition amounts_fit (g : genesis) (c : list block) : Prop :=
  (∀ c1 c2 a k, c = c1 ++ c2 -> turnover (made_on g c1) (spent_on c1) a k <= U128_MAX) ∧
  ∀ c1 b c2 l l' a k, c = c1 ++ b :: c2 -> txs b = l ++ l' ->
    turnover (made_on g c1 ++ made_by_txs (height c1 + 1) (timestamp b) l) (spent_on c1 ++ spent_by_txs l) a k <= U128_MAX.
(** The height or time to which an output is locked fits *)
Definition lock_fits (e : made) : Prop :=
  match what e with
  | LockThenTransfer _ _ (ForBlockCount n) => born e + n <= U64_MAX
  | LockThenTransfer _ _ (ForSeconds n) => born_time e + n <= U64_MAX
  | _ => True
  end.
Definition locks_fit (g : genesis) (c : list block) : Prop := ∀ e, e ∈ made_on g c -> is_reward e = false -> lock_fits e.
(** No token is issued twice *)
Definition nft_of (e : made) : option N := match what e with IssueNft t _ => Some t | _ => None end.
Definition tokens_unique (g : genesis) (c : list block) : Prop := NoDup (omap nft_of (made_on g c)).

(** * Scanning a chain from genesis on *)
Definition scan_chain (g : genesis) (c : list block) : res unit db := let? d := scan_genesis g in scan_blocks g 0 c d.

(** The states of the scanner: after genesis, and after a call that puts blocks on a part of the chain it had before *)
Inductive history (g : genesis) : list block -> db -> Prop :=
| history_genesis d : scan_genesis g = Ok d -> history g [] d
| history_blocks c d k bs d' : history g c d -> (k <= length c)%nat -> valid_chain g (take k c ++ bs) ->
    scan_blocks g (N.of_nat k) bs d = Ok d' -> history g (take k c ++ bs) d'.
(** Rewards that are shown as funds although they were spent, or are locked *)
Definition excess (g : genesis) (c : list block) (a : N) (k : currency) : N :=
  total (fun e => if is_reward e && negb (bool_decide (place e ∉ spent_on c) && is_open (height c) (median_at g c) e) then value a k (what e) else 0) (made_on g c).
(** Locked rewards, which are not shown as locked *)
Definition locked_rewards (g : genesis) (c : list block) (a : N) (k : currency) : N :=
  total (fun e => if is_reward e && (bool_decide (place e ∉ spent_on c) && negb (is_open (height c) (median_at g c) e)) then value a k (what e) else 0) (made_on g c).

(** * Nodes *)
(** The blocks there are: no two of them have the same identifier, and none has that of genesis *)
Definition distinct (g : genesis) (exists_ : block -> Prop) : Prop :=
  (∀ a b, exists_ a -> exists_ b -> block_id a = block_id b -> a = b) ∧ ∀ b, exists_ b -> block_id b ≠ genesis_id g.
(** A branch: every block is the child of the one before *)
Definition branch (g : genesis) (exists_ : block -> Prop) (c : list block) : Prop :=
  WalletSyncSpec.linked block_id prev_id (genesis_id g) c ∧ Forall exists_ c.
Record sound_chain (g : genesis) (exists_ : block -> Prop) (c : list block) : Prop := {
  sound_branch : branch g exists_ c;
  sound_valid : valid_chain g c;
  sound_amounts : amounts_fit g c;
  sound_locks : locks_fit g c;
  sound_tokens : tokens_unique g c }.
Definition sound_node (g : genesis) (exists_ : block -> Prop) (n : @WalletSyncModel.node block) : Prop :=
  sound_chain g exists_ (WalletSyncModel.main n) ∧ ∀ c, c ∈ WalletSyncModel.others n -> branch g exists_ c.
