(** What the transaction pool is supposed to hold, in terms of the list of the transactions in it, oldest first. *)
From stdpp Require Import relations.
From Verif Require Import Base AmountModel DeltaModel LayeredModel TokensModel OrdersModel PosModel PrimModel ChainModel MempoolModel.
Local Open Scope N_scope.

Section spec.
Context (mk : id_makers).

(** ** What a transaction uses up, what it asks for and what it creates *)
(** things that only one transaction can use: outputs of transactions and account nonces *)
Inductive uses_up (tx : transaction) : consumed_dep -> Prop :=
| uses_output t i : InUtxo (FromTx t, i) ∈ tx_inputs tx -> uses_up tx (CdOutput t i)
| uses_delegation_nonce n d a : InAccount n d a ∈ tx_inputs tx -> uses_up tx (CdDelegationSpending d n)
| uses_token_nonce n c t : InCommand n c ∈ tx_inputs tx -> command_token c = Some t -> uses_up tx (CdTokenManagement t n).

(** things other than outputs that must be there before the transaction *)
Inductive asks_for (tx : transaction) : provided_dep -> Prop :=
| asks_pool d p : OCreateDelegationId d p ∈ tx_outputs tx -> asks_for tx (PvPool p)
| asks_delegation_to_stake a d : ODelegateStaking a d ∈ tx_outputs tx -> asks_for tx (PvDelegation d)
| asks_delegation_to_spend a d : InAccount 0 d a ∈ tx_inputs tx -> asks_for tx (PvDelegation d)
| asks_delegation_nonce n d a : InAccount n d a ∈ tx_inputs tx -> asks_for tx (PvDelegationSpending d n)
| asks_token c t : InCommand 0 c ∈ tx_inputs tx -> command_token c = Some t -> asks_for tx (PvToken t)
| asks_token_nonce n c t : InCommand n c ∈ tx_inputs tx -> command_token c = Some t -> asks_for tx (PvTokenManagement t n)
| asks_order c : InOrder c ∈ tx_inputs tx -> asks_for tx (PvOrder (command_order c)).

Inductive creates (tx : transaction) : provided_dep -> Prop :=
| creates_pool p x : OCreateStakePool p x ∈ tx_outputs tx -> creates tx (PvPool p)
| creates_delegation d p k :
    OCreateDelegationId d p ∈ tx_outputs tx -> first_spent (tx_inputs tx) = Some k -> creates tx (PvDelegation (mk_delegation mk k))
| creates_delegation_nonce n d a : InAccount n d a ∈ tx_inputs tx -> n < U64_MAX -> creates tx (PvDelegationSpending d (n + 1))
| creates_token i k :
    OIssueFungibleToken i ∈ tx_outputs tx -> first_spent (tx_inputs tx) = Some k -> creates tx (PvToken (mk_token mk k))
| creates_token_nonce n c t :
    InCommand n c ∈ tx_inputs tx -> command_token c = Some t -> n < U64_MAX -> creates tx (PvTokenManagement t (n + 1))
| creates_order x k :
    OCreateOrder x ∈ tx_outputs tx -> first_spent (tx_inputs tx) = Some k -> creates tx (PvOrder (mk_order mk k)).

Definition builds_on (child parent : transaction) : Prop :=
  (exists i, InUtxo (FromTx (tx_id parent), i) ∈ tx_inputs child) \/ (exists d, asks_for child d /\ creates parent d).

(** ** Parents, ancestors, descendants and clusters *)
Notation pool := (list tx_entry).
Definition ids (l : pool) : list N := map te_id l.
(** [p] was in the pool when [c] came and [c] builds on it *)
Definition parent (l : pool) (p c : N) : Prop :=
  exists ep ec, [ep; ec] `sublist_of` l /\ te_id ep = p /\ te_id ec = c /\ builds_on (te_tx ec) (te_tx ep).
Definition ancestor (l : pool) : N -> N -> Prop := tc (parent l).
Definition related (l : pool) (x y : N) : Prop := parent l x y \/ parent l y x.
Definition same_cluster (l : pool) : N -> N -> Prop := rtc (related l).

Definition sum_of (f : tx_entry -> N) (l : pool) : N := fold_right (fun e n => f e + n) 0 l.
(** number, fees and bytes of those entries of the pool that satisfy [P] *)
Definition totals (l : pool) (P : N -> Prop) (count fees bytes : N) : Prop :=
  exists ds, NoDup ds /\ (forall x, x ∈ ds <-> x ∈ l /\ P (te_id x)) /\
             count = N.of_nat (length ds) /\ fees = sum_of te_fee ds /\ bytes = sum_of te_size ds.

(** ** What the store holds for a pool *)
(** coins per 1000 bytes *)
Definition rate (fee size : N) : N := fee * 1000 / size.
Record entry_exact (l : pool) (e : tx_entry) (m : mentry) : Prop := {
  ee_entry : me_entry m = e;
  ee_parents : forall p, p ∈ me_parents m <-> parent l p (te_id e);
  ee_children : forall c, c ∈ me_children m <-> parent l (te_id e) c;
  ee_descendants : totals l (fun x => x = te_id e \/ ancestor l (te_id e) x) (me_count_d m) (me_fees_d m) (me_size_d m);
  ee_ancestors : totals l (fun x => x = te_id e \/ ancestor l x (te_id e)) (me_count_a m) (me_fees_a m) (me_size_a m);
}.
(** Which transactions have been in the pool for longer is told by their numbers. *)
Record store_exact (l : pool) (s : store) : Prop := {
  se_ids : forall id, is_Some (st_txs s !! id) <-> id ∈ ids l;
  se_entries : forall e, e ∈ l -> exists m, st_txs s !! te_id e = Some m /\ entry_exact l e m;
  se_by_descendants : forall r id, (r, id) ∈ st_by_descendants s <->
    exists m, st_txs s !! id = Some m /\ r = N.max (rate (me_fees_d m) (me_size_d m)) (rate (me_fee m) (me_size m));
  se_by_ancestors : forall r id, (r, id) ∈ st_by_ancestors s <->
    exists m, st_txs s !! id = Some m /\ r = N.min (rate (me_fees_a m) (me_size_a m)) (rate (me_fee m) (me_size m));
  se_by_time : forall t id, (t, id) ∈ st_by_time s <-> exists e, e ∈ l /\ te_id e = id /\ te_time e = t;
  se_spenders : forall c id, st_spenders s !! c = Some id <-> exists e, e ∈ l /\ te_id e = id /\ uses_up (te_tx e) c;
  se_providers : forall d id, st_providers s !! d = Some id <-> exists e, e ∈ l /\ te_id e = id /\ creates (te_tx e) d;
  se_seqs : forall id n, st_seqs s !! id = Some n <-> st_by_seq s !! n = Some id;
  se_numbered : forall id, is_Some (st_seqs s !! id) <-> id ∈ ids l;
  se_order : forall e1 e2 n1 n2, [e1; e2] `sublist_of` l -> st_seqs s !! te_id e1 = Some n1 -> st_seqs s !! te_id e2 = Some n2 -> n1 < n2;
  se_next : forall id n, st_seqs s !! id = Some n -> n < st_next s;
}.

(** ** Histories of a pool *)
(** What the checks that come before the store guarantee of a transaction: it is new, it does not use up or create anything twice or
    anything that a transaction of the pool uses up or creates, and all fees and sizes together are in range. *)
Record admissible (l : pool) (e : tx_entry) : Prop := {
  ad_new : te_id e ∉ ids l;
  ad_size : 0 < te_size e;
  ad_uses_once : NoDup (consumed_deps (te_tx e));
  ad_creates_once : NoDup (provided_deps mk (te_tx e));
  ad_no_conflict : forall x c, x ∈ l -> uses_up (te_tx x) c -> uses_up (te_tx e) c -> False;
  ad_no_clash : forall x d, x ∈ l -> creates (te_tx x) d -> creates (te_tx e) d -> False;
  ad_fees : sum_of te_fee (l ++ [e]) * 1000 <= U128_MAX;
  ad_bytes : sum_of te_size (l ++ [e]) <= U64_MAX;
}.
(** The transactions in the cluster of [x], listed without repetition, are within the limits on their number and their bytes. *)
Definition cluster_fits (cfg : pool_cfg) (l : pool) (x : N) : Prop :=
  forall ds, NoDup ds -> (forall y, y ∈ ds -> y ∈ l /\ same_cluster l x (te_id y)) ->
    N.of_nat (length ds) <= pc_max_count cfg /\ sum_of te_size ds <= pc_max_bytes cfg.

Inductive pool_op := OpAdd (e : tx_entry) | OpEvict (id : N) (r : reason).
(** What an operation does to the pool: a transaction is taken in exactly if its cluster stays within the limits, and a transaction is
    thrown out together with its descendants. *)
Inductive evolves (cfg : pool_cfg) (l : pool) : pool_op -> pool -> Prop :=
| ev_add e : admissible l e -> cluster_fits cfg (l ++ [e]) (te_id e) -> evolves cfg l (OpAdd e) (l ++ [e])
| ev_refuse e : admissible l e -> ~ cluster_fits cfg (l ++ [e]) (te_id e) -> evolves cfg l (OpAdd e) l
| ev_evict id r l' :
    l' `sublist_of` l -> (forall x, x ∈ l' <-> x ∈ l /\ te_id x <> id /\ ~ ancestor l id (te_id x)) ->
    evolves cfg l (OpEvict id r) l'.
Inductive history (cfg : pool_cfg) : list pool_op -> pool -> Prop :=
| hist_empty : history cfg [] []
| hist_step ops l op l' : history cfg ops l -> evolves cfg l op l' -> history cfg (ops ++ [op]) l'.
End spec.

(** ** The same operations on the store *)
Section run.
Context (iter : gset N -> list N) (mk : id_makers) (cfg : pool_cfg).
(** a refused transaction leaves whatever store it leaves; only a panic ends the history *)
Definition do_op (s : store) (op : pool_op) : option store :=
  match op with
  | OpAdd e => match add_transaction iter mk cfg s e with (_, Panic) => None | (s', _) => Some s' end
  | OpEvict id r => match drop_tx_and_descendants iter mk s id r with Ok (s', _) => Some s' | _ => None end
  end.
Fixpoint do_ops (s : store) (ops : list pool_op) : option store :=
  match ops with
  | [] => Some s
  | op :: ops' => match do_op s op with Some s' => do_ops s' ops' | None => None end
  end.
End run.
