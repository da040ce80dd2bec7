(** What a script means, and who may spend what. *)
From Verif Require Import Base AmountModel PrimModel OrdersModel TokensModel PosModel ChainModel UtxoModel ScriptModel.
Local Open Scope N_scope.

(** The sub-scripts of a threshold that are declared to be satisfied *)
Definition declared (conds : list (condition script)) : list script :=
  omap (fun c => match c with Satisfied s => Some s | Dissatisfied => None end) conds.
(** A script is true when its leaf checks pass and every threshold has exactly the required number of declared conditions, all of
    which are true *)
Inductive holds (sig : N -> witness -> Prop) (lock : timelock -> Prop) (hash : hash_challenge -> bytes -> Prop) : script -> Prop :=
| holds_signature d w : sig d w -> holds sig lock hash (Signature d w)
| holds_timelock t : lock t -> holds sig lock hash (Timelock t)
| holds_hashlock c p : hash c p -> holds sig lock hash (HashLock c p)
| holds_threshold n conds : N.of_nat (length (declared conds)) = n -> Forall (holds sig lock hash) (declared conds) -> holds sig lock hash (Threshold n conds).
(** Scripts that the public constructors can produce: no threshold asks for more conditions than it has *)
Inductive buildable : script -> Prop :=
| buildable_signature d w : buildable (Signature d w)
| buildable_timelock t : buildable (Timelock t)
| buildable_hashlock c p : buildable (HashLock c p)
| buildable_threshold n conds : n <= N.of_nat (length conds) -> Forall buildable (declared conds) -> buildable (Threshold n conds).
(** The recursive reading of a script for a checker with state: leaves from left to right, a threshold is counted before its
    conditions are looked at *)
Definition reading {St SE TE HE} (v : visitor St SE TE HE) : script -> St -> St * res (script_err SE TE HE) unit :=
  fix go s st :=
    match s with
    | Signature d w => let (st, r) := visit_signature v d w st in (st, rmap_err SignatureErr r)
    | Timelock t => let (st, r) := visit_timelock v t st in (st, rmap_err TimelockErr r)
    | HashLock c p => let (st, r) := visit_hashlock v c p st in (st, rmap_err HashlockErr r)
    | Threshold n conds =>
        let have := N.of_nat (length (declared conds)) in
        if N.of_nat (length conds) <? n then (st, Panic)
        else if have <? n then (st, Err (ThresholdErr Insufficient))
        else if n <? have then (st, Err (ThresholdErr Excessive))
        else (fix all conds st := match conds with
                                  | [] => (st, Ok tt)
                                  | Satisfied s :: rest => sbind (go s st) (fun st _ => all rest st)
                                  | Dissatisfied :: rest => all rest st
                                  end) conds st
    end.

(** ** Who may spend what *)
(** Who has to sign and with which witness, until when the coins are locked, and which secret has to be shown *)
Record requirement := Requirement { rq_signer : option (N * witness); rq_lock : option timelock; rq_secret : option (N * bytes) }.
Section Requirements.
  Context (anyone : N) (from_data : bytes -> option htlc_spend) (lk : lookups).
  Definition signed_by (d : N) (w : witness) : requirement := Requirement (Some (d, w)) None None.
  (** Spending in a transaction *)
  Inductive tx_requires : input_info -> witness -> requirement -> Prop :=
  | rq_transfer v d src w : tx_requires (InfoUtxo (OTransfer v d) src) w (signed_by d w)
  | rq_lock_then_transfer v d t src w : tx_requires (InfoUtxo (OLockThenTransfer v d t) src) w (Requirement (Some (d, w)) (Some t) None)
  | rq_new_pool p data src w : tx_requires (InfoUtxo (OCreateStakePool p data) src) w (signed_by (sp_decommission data) w)
  | rq_pool d p key src w : pool_decommission lk p = Ok (Some key) -> tx_requires (InfoUtxo (OProduceBlockFromStake d p) src) w (signed_by key w)
  | rq_htlc_secret v h src ty raw secret sig : from_data raw = Some (HtlcSpend secret sig) ->
      tx_requires (InfoUtxo (OHtlc v h) src) (Standard ty raw) (Requirement (Some (hl_spend_key h, Standard ty sig)) None (Some (hl_secret_hash h, secret)))
  | rq_htlc_refund v h src ty raw sig : from_data raw = Some (HtlcRefund sig) ->
      tx_requires (InfoUtxo (OHtlc v h) src) (Standard ty raw) (Requirement (Some (hl_refund_key h, Standard ty sig)) (Some (hl_refund_lock h)) None)
  | rq_nft id data d src w : tx_requires (InfoUtxo (OIssueNft id data d) src) w (signed_by d w)
  | rq_delegation del a key w : delegation_spend lk del = Ok (Some key) -> tx_requires (InfoAccount del a) w (signed_by key w)
  | rq_token c id key w : command_account c = AccToken id -> token_authority lk id = Ok (Some key) -> tx_requires (InfoCommand c) w (signed_by key w)
  | rq_conclude_v0 id key w : order_conclude lk id = Ok (Some key) -> tx_requires (InfoCommand (CmdConcludeOrder id)) w (signed_by key w)
  | rq_fill_v0 id a d w : tx_requires (InfoCommand (CmdFillOrder id a d)) w (Requirement None None None)
  | rq_fill id a w : tx_requires (InfoOrder (OcFill id a)) w (signed_by anyone w)
  | rq_conclude id key w : order_conclude lk id = Ok (Some key) -> tx_requires (InfoOrder (OcConclude id)) w (signed_by key w)
  | rq_freeze id key w : order_conclude lk id = Ok (Some key) -> tx_requires (InfoOrder (OcFreeze id)) w (signed_by key w).
  (** Spending in a block reward: only to stake again, with the staking key *)
  Inductive reward_requires : input_info -> witness -> requirement -> Prop :=
  | rr_pool d p src w : reward_requires (InfoUtxo (OProduceBlockFromStake d p) src) w (signed_by d w)
  | rr_new_pool p data src w : reward_requires (InfoUtxo (OCreateStakePool p data) src) w (signed_by (sp_staker data) w).
End Requirements.
(** Height and time at which the output of an input was made, seen from the spending block: an output of the mempool counts as
    made now *)
Definition made_height (cx : chain_ctx) (info : input_info) (h : N) : Prop :=
  exists o, info = InfoUtxo o (Some (InChain h)) \/ (info = InfoUtxo o (Some InMempool) /\ h = cx_height cx).
Definition made_time (cx : chain_ctx) (info : input_info) (t : N) : Prop :=
  exists o, (exists h, info = InfoUtxo o (Some (InChain h)) /\ cx_time_at cx h = Some t) \/ (info = InfoUtxo o (Some InMempool) /\ t = cx_time cx).
Definition lock_open (cx : chain_ctx) (info : input_info) (lock : timelock) : Prop :=
  match lock with
  | UntilHeight h => h <= cx_height cx
  | UntilTime t => t <= cx_time cx
  | ForBlockCount n => exists h, made_height cx info h /\ h + n <= cx_height cx
  | ForSeconds n => exists t, made_time cx info t /\ t + n <= cx_time cx
  end.
(** Heights and times of the spending block that the code can handle *)
Definition ctx_in_range (cx : chain_ctx) : Prop := (Z.of_N (cx_height cx) <= I64_MAX)%Z /\ cx_time cx <= U64_MAX.
Definition signer_ok {SE} (sig : N -> witness -> res SE unit) (r : requirement) : Prop := forall d w, rq_signer r = Some (d, w) -> sig d w = Ok tt.
Definition lock_ok (cx : chain_ctx) (info : input_info) (r : requirement) : Prop := forall t, rq_lock r = Some t -> lock_open cx info t.
Definition secret_ok (hash160 : bytes -> N) (r : requirement) : Prop := forall h p, rq_secret r = Some (h, p) -> hash160 p = h.
(** The destination given to a check of signatures only is the one the views give *)
Definition is_owner (lk : lookups) (i : tx_input) (u : option tx_output) (d : N) : Prop :=
  match i with
  | InUtxo _ => forall x p, u = Some (OProduceBlockFromStake x p) -> pool_decommission lk p = Ok (Some d)
  | InAccount _ del _ => delegation_spend lk del = Ok (Some d)
  | InCommand _ c => match command_account c with AccToken id => token_authority lk id = Ok (Some d) | AccOrder id => order_conclude lk id = Ok (Some d) | AccDelegation _ => True end
  | InOrder c => match c with OcFill _ _ => True | OcFreeze id | OcConclude id => order_conclude lk id = Ok (Some d) end
  end.
