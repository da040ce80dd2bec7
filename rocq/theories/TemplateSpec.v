(** What is asked of the transactions picked for a block. *)
From stdpp Require Import relations.
From Verif Require Import Base AmountModel DeltaModel LayeredModel TokensModel OrdersModel PosModel PrimModel ChainModel MempoolModel MempoolSpec TemplateModel.
Local Open Scope N_scope.

(** Transactions handed to the verifier one after the other *)
Section tries.
Context {V : Type} (connect : V -> transaction -> V * bool).
(** its state after them, whether it accepted them or not *)
Definition after (v : V) (txs : list transaction) : V := fold_left (fun v tx => fst (connect v tx)) txs v.
Definition accepts (v : V) (tx : transaction) : bool := snd (connect v tx).
(** those it accepted *)
Fixpoint accepted (v : V) (l : list tx_entry) : list tx_entry :=
  match l with
  | [] => []
  | e :: l' => (if accepts v (te_tx e) then [e] else []) ++ accepted (after v [te_tx e]) l'
  end.
(** all of them are accepted, each after those before it *)
Fixpoint all_accepted (v : V) (txs : list transaction) : Prop :=
  match txs with [] => True | tx :: txs' => accepts v tx = true /\ all_accepted (after v [tx]) txs' end.
End tries.

Section template.
Context {V : Type} (connect : V -> transaction -> V * bool) (unlocked : transaction -> bool) (mk : id_makers) (l : list tx_entry).

Definition bytes_of (x : list (transaction * N)) : N := fold_right (fun p n => snd p + n) 0 x.
Definition txs_of (a : accum) : list transaction := map fst (ac_txs a).
Definition tx_ids (a : accum) : list N := map tx_id (txs_of a).
(** what a block producer starts with: some transactions of its own, counted *)
Record accum_ok (a : accum) : Prop := {
  ak_once : NoDup (tx_ids a);
  ak_size : ac_size a = bytes_of (ac_txs a);
}.
(** Encoded size of a list of transactions *)
Definition encoded_size (a : accum) : N := compact_size (N.of_nat (length (ac_txs a))) + bytes_of (ac_txs a).

(** The lower of a transaction's own fee rate and that of it with its ancestors *)
Definition worth (x : N) (r : N) : Prop :=
  exists e n fees bytes, e ∈ l /\ te_id e = x /\ totals l (fun y => y = x \/ ancestor mk l y x) n fees bytes /\
    r = N.min (rate fees bytes) (rate (te_fee e) (te_size e)).

(** [x] may be tried after [before]: it is in the pool, unlocked, not there yet, and all it builds on is there. *)
Definition can_come (own : list N) (v : V) (before : list tx_entry) (x : tx_entry) : Prop :=
  x ∈ l /\ unlocked (te_tx x) = true /\ te_id x ∉ own /\ te_id x ∉ ids before /\
  (forall q, parent mk l q (te_id x) -> q ∈ own \/ q ∈ ids (accepted connect v before)).
(** Those the picking is about: the whole pool if space is to be filled, and the transactions asked for with what they build on. *)
Definition wanted (given : list N) (p : packing) (x : tx_entry) : Prop :=
  p = FillSpace \/ te_id x ∈ given \/ exists g, g ∈ given /\ ancestor mk l (te_id x) g.
(** Each one tried is one that could come next and, if none is asked for, none that could come next is worth more. *)
Definition tried_best_first (own : list N) (v : V) (given : list N) (p : packing) (tries : list tx_entry) : Prop :=
  forall before x rest, tries = before ++ x :: rest ->
    can_come own v before x /\ wanted given p x /\
    (given = [] -> forall y r r', can_come own v before y -> worth (te_id y) r -> worth (te_id x) r' -> r <= r').
End template.
(** [a] with more transactions *)
Definition with_picks (a : accum) (x : list tx_entry) (done : bool) : accum :=
  Accum (ac_txs a ++ map (fun e => (te_tx e, te_size e)) x) (ac_size a + sum_of te_size x) (ac_target a) done (ac_fees a + sum_of te_fee x) (ac_tip a).
