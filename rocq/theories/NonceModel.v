(** Model of the account nonces kept by the transaction verifier:
    chainstate/tx-verifier/src/transaction_verifier/{mod,hierarchy,flush}.rs, common/src/chain/transaction/account_nonce.rs,
    chainstate/src/detail/chainstateref/tx_verifier_storage.rs. *)
From Verif Require Import Base ChainModel UndoCacheModel.
Local Open Scope N_scope.

(** mod.rs: the three nonce errors of ConnectTransactionError *)
Inductive nonce_err :=
| FailedToIncrementAccountNonce
| NonceIsNotIncremental (a : account_type) (expected got : N)
| MissingTransactionNonce (a : account_type).

(** mod.rs 132: the field [account_nonce] of a verifier: the nonce last used *)
Notation nonce_cache := (gmap account_type (cop N)).

(** hierarchy.rs 133-145: from the verifier's own map, or from below *)
Definition get_nonce (P : account_type -> option N) (c : nonce_cache) (a : account_type) : option N :=
  match c !! a with Some o => op_get o | None => P a end.

(** mod.rs 271-294, with [increment] of account_nonce.rs 46-48 *)
Definition spend_account (P : account_type -> option N) (c : nonce_cache) (nonce : N) (a : account_type) : res nonce_err nonce_cache :=
  let? expected := match get_nonce P c a with
                   | Some n => ok_or (checked_add U64_MAX n 1) FailedToIncrementAccountNonce
                   | None => Ok 0
                   end in
  ensure (expected =? nonce) (NonceIsNotIncremental a expected nonce) ;?
  Ok (<[a := OpWrite nonce]> c).

(** mod.rs 296-308, with [decrement] of account_nonce.rs 50-52 *)
Definition unspend_account (P : account_type -> option N) (c : nonce_cache) (a : account_type) : res nonce_err nonce_cache :=
  let? n := ok_or (get_nonce P c a) (MissingTransactionNonce a) in
  Ok (<[a := match checked_sub n 1 with Some m => OpWrite m | None => OpErase end]> c).

(** flush.rs 123-130 into a verifier (hierarchy.rs 318-333): entries replace entries, [Read] ones are skipped *)
Definition flush_nonces (child parent : nonce_cache) : nonce_cache :=
  merge (fun o p => match o with Some (OpRead _) | None => p | Some o => Some o end) child parent.

(** flush.rs 123-130 into the database (tx_verifier_storage.rs 361-380) *)
Definition store_nonces (child : nonce_cache) (db : gmap account_type N) : gmap account_type N :=
  merge (fun o p => match o with Some (OpRead _) | None => p | Some (OpWrite n) => Some n | Some OpErase => None end) child db.

(** The verifiers that are open, innermost first, over the database (of the chainstate; the mempool reads it through a
    handle and never writes it). *)
Record nonce_stack := NonceStack { ns_caches : list nonce_cache; ns_db : gmap account_type N }.

(** What the verifiers [cs] read *)
Fixpoint nonce_view (cs : list nonce_cache) (db : gmap account_type N) (a : account_type) : option N :=
  match cs with [] => db !! a | c :: cs' => get_nonce (nonce_view cs' db) c a end.

Inductive nonce_call :=
| NSpend (a : account_type) (n : N)   (* connecting an input that spends from or commands the account *)
| NUnspend (a : account_type)         (* disconnecting it *)
| NDerive | NFlush | NDrop.

(** One call on the innermost verifier *)
Definition nonce_run (st : nonce_stack) (k : nonce_call) : res nonce_err nonce_stack :=
  let db := ns_db st in
  match k, ns_caches st with
  | NDerive, cs => Ok (NonceStack (∅ :: cs) db)
  | _, [] => Panic
  | NSpend a n, c :: cs => let? c' := spend_account (nonce_view cs db) c n a in Ok (NonceStack (c' :: cs) db)
  | NUnspend a, c :: cs => let? c' := unspend_account (nonce_view cs db) c a in Ok (NonceStack (c' :: cs) db)
  | NFlush, c :: p :: cs => Ok (NonceStack (flush_nonces c p :: cs) db)
  | NFlush, [c] => Ok (NonceStack [] (store_nonces c db))
  | NDrop, _ :: cs => Ok (NonceStack cs db)
  end.
