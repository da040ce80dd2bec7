(** C09-C13: orders. *)
From Verif Require Import Base AmountModel DeltaModel LayeredModel LayeredSpec LayeredProofs OrdersModel OrdersSpec OrdersProofs.
Local Open Scope N_scope.

(** Sample orders and runs. Order 1 asks 10 coins for 21 tokens; order 2 asks 7 tokens for 3 coins. *)
Definition order1 := OrderData 5 (OvCoin 10) (OvToken 9 21) false.
Definition order2 := OrderData 6 (OvToken 8 7) (OvCoin 3) false.
Definition empty_db : ord_db := OrdDb ∅ ∅ ∅.
Definition empty_book : ord_state := OrdState (fun _ => None) (fun _ => 0) (fun _ => 0).
Definition sample_run : list (command ord_op) :=
  [Push; Do (CreateOrder 1 order1); Push; Do (CreateOrder 2 order2); Do (FillOrder 1 4 OrdersV1); Flush; Do (FreezeOrder 2)].
Definition sample_fills : list (command ord_op) :=
  [Push; Do (FillOrder 1 1 OrdersV1); Do (FillOrder 1 9 OrdersV1); Flush; Do (FillOrder 2 1 OrdersV1); Flush; Push; Do (FillOrder 1 3 OrdersV0)].
Definition sample_neutral : list (command ord_op) :=
  [Push; Do (FillOrder 1 3 OrdersV0); Flush; Push; Do (ConcludeOrder 1); UndoLast; UndoLast].

Lemma empty_db_is : ord_db_is empty_db empty_book.
Proof. repeat split; cbn; try discriminate; try (intros id; rewrite lookup_empty; discriminate). Qed.
Lemma sample_fits : fits_all ord_step ord_fits ((empty_book, []), []) (sample_run ++ sample_fills).
Proof. apply (fits_allb_sound _ _ _ ord_fitsb_sound). vm_compute. reflexivity. Qed.
Lemma sample_fits_neutral : fits_all ord_step ord_fits ((empty_book, []), []) (sample_run ++ sample_neutral).
Proof. apply (fits_allb_sound _ _ _ ord_fitsb_sound). vm_compute. reflexivity. Qed.

(** C09. At any time every existing order can be read, still asks at most what it asked, still gives at most what was put
    in, and what is left to give covers what is left to ask at the original price. *)
Theorem C09_order_balances_within_original db s0 cs :
  ord_db_is db s0 -> fits_all ord_step ord_fits ((s0, []), []) cs ->
  let v := ord_machine_view (ord_exec_all ((db, []), []) cs).1 in
  forall id d, ov_data v id = Ok (Some d) ->
  exists ask0 give0 ask give, side_amount (od_ask d) = Some ask0 /\ side_amount (od_give d) = Some give0 /\
    ov_ask v id = Ok ask /\ ov_give v id = Ok give /\ ask <= ask0 /\ give <= give0 /\ give0 * ask <= give * ask0.
Proof. exact (orders_bounded db s0 cs). Qed.
Print Assumptions C09_order_balances_within_original.

Example C09_bounds_example :
  let v := ord_machine_view (ord_exec_all ((empty_db, []), []) sample_run).1 in
  ov_data v 1 = Ok (Some order1) /\ ov_ask v 1 = Ok 6 /\ ov_give v 1 = Ok 13.
Proof. vm_compute. repeat split; reflexivity. Qed.

(** C09. Between two moments of an order's life: what it asks has gone down by exactly what was paid into it by accepted
    fills, what it gives has not grown, and its sides have not changed. *)
Theorem C09_fills_account_exactly db s0 cs fs :
  ord_db_is db s0 -> fits_all ord_step ord_fits ((s0, []), []) (cs ++ fs) -> Forall forward fs ->
  let m1 := (ord_exec_all ((db, []), []) cs).1 in
  let m2 := ord_exec_all m1 fs in
  let v1 := ord_machine_view m1 in let v2 := ord_machine_view m2.1 in
  let done := accepted fs m2.2 in
  forall id d, ov_data v1 id = Ok (Some d) -> Forall (fun o => ~ concludes id o) done ->
  exists d' ask1 give1 ask2 give2, ov_ask v1 id = Ok ask1 /\ ov_give v1 id = Ok give1 /\
    ov_ask v2 id = Ok ask2 /\ ov_give v2 id = Ok give2 /\
    ov_data v2 id = Ok (Some d') /\ od_ask d' = od_ask d /\ od_give d' = od_give d /\
    ask2 + paid_into id done = ask1 /\ give2 <= give1.
Proof. exact (fills_account_exactly db s0 cs fs). Qed.
Print Assumptions C09_fills_account_exactly.

Example C09_account_example :
  let m1 := (ord_exec_all ((empty_db, []), []) sample_run).1 in
  let m2 := ord_exec_all m1 sample_fills in
  m2.2 = [Done; Done; Refused OrderOverbid; Done; Refused AttemptedFillFrozenOrder; Done; Done; Done] /\
  paid_into 1 (accepted sample_fills m2.2) = 4 /\
  ov_ask (ord_machine_view m2.1) 1 = Ok 2 /\ ov_give (ord_machine_view m2.1) 1 = Ok 5.
Proof. vm_compute. repeat split; reflexivity. Qed.

(** C10. Exactly when a fill is accepted, and exactly what it pays. New rules: the share of the original offer, rounded
    down, at least one unit. Old rules: the share of what is left. A refused fill changes no answer. *)
Theorem C10_fill_pays_floor_of_share db s0 cs id fill ver :
  ord_db_is db s0 -> fits_all ord_step ord_fits ((s0, []), []) cs ->
  let m1 := (ord_exec_all ((db, []), []) cs).1 in
  m1.2 <> [] ->
  let v := ord_machine_view m1 in
  let v' := ord_machine_view (ord_exec m1 (Do (FillOrder id fill ver))).1 in
  forall d ask0 give0 ask give, ov_data v id = Ok (Some d) -> side_amount (od_ask d) = Some ask0 -> side_amount (od_give d) = Some give0 ->
    ov_ask v id = Ok ask -> ov_give v id = Ok give ->
  let p := payout ver ask0 give0 ask give fill in
  let ok := od_frozen d = false /\ fill <= ask /\ match ver with OrdersV0 => 0 < ask | OrdersV1 => 0 < p end in
  ((ord_exec m1 (Do (FillOrder id fill ver))).2 = Done <-> ok) /\
  (ok -> p <= give /\ ov_ask v' id = Ok (ask - fill) /\ ov_give v' id = Ok (give - p) /\ ov_data v' id = Ok (Some d)) /\
  (~ ok -> ord_answers_agree v v').
Proof. exact (next_fill db s0 cs id fill ver). Qed.
Print Assumptions C10_fill_pays_floor_of_share.

(** C10. Rounding is in the maker's favour and loses less than one unit. *)
Theorem C10_payout_is_exact_share_rounded_down ver ask0 give0 ask give fill :
  0 < ask0 -> 0 < ask ->
  let p := payout ver ask0 give0 ask give fill in
  match ver with
  | OrdersV1 => p * ask0 <= give0 * fill < (p + 1) * ask0
  | OrdersV0 => p * ask <= give * fill < (p + 1) * ask
  end.
Proof. exact (payout_floor ver ask0 give0 ask give fill). Qed.
Print Assumptions C10_payout_is_exact_share_rounded_down.

Example C10_fill_example :
  let m1 := (ord_exec_all ((empty_db, []), []) sample_run).1 in
  length m1.2 = 1%nat /\ payout OrdersV1 10 21 6 13 3 = 6 /\
  (ord_exec m1 (Do (FillOrder 1 3 OrdersV1))).2 = Done /\
  ov_give (ord_machine_view (ord_exec m1 (Do (FillOrder 1 3 OrdersV1))).1) 1 = Ok 7 /\
  (ord_exec m1 (Do (FillOrder 1 7 OrdersV1))).2 = Refused OrderOverbid /\
  (ord_exec m1 (Do (FillOrder 1 0 OrdersV1))).2 = Refused OrderUnderbid.
Proof. vm_compute. repeat split; reflexivity. Qed.

(** C10. However a payment is split over fills, by whomever, under whichever mix of rules, the takers together never get
    more than the whole payment would have bought at the start; and under the new rules never more than it buys at the
    original price. *)
Theorem C10_splitting_never_yields_more db s0 cs fs :
  ord_db_is db s0 -> fits_all ord_step ord_fits ((s0, []), []) (cs ++ fs) -> Forall forward fs ->
  let m1 := (ord_exec_all ((db, []), []) cs).1 in
  let m2 := ord_exec_all m1 fs in
  let v1 := ord_machine_view m1 in let v2 := ord_machine_view m2.1 in
  let done := accepted fs m2.2 in
  forall id d ask0 give0 ask1 give1 give2,
  ov_data v1 id = Ok (Some d) -> side_amount (od_ask d) = Some ask0 -> side_amount (od_give d) = Some give0 ->
  Forall (fun o => ~ concludes id o) done ->
  ov_ask v1 id = Ok ask1 -> ov_give v1 id = Ok give1 -> ov_give v2 id = Ok give2 ->
  let received := give1 - give2 in let paid := paid_into id done in
  received <= payout OrdersV0 ask0 give0 ask1 give1 paid /\
  (Forall (new_rules id) done -> received <= payout OrdersV1 ask0 give0 ask1 give1 paid).
Proof. exact (splitting_no_gain db s0 cs fs). Qed.
Print Assumptions C10_splitting_never_yields_more.

Example C10_split_example :
  let m1 := (ord_exec_all ((empty_db, []), []) sample_run).1 in
  let m2 := ord_exec_all m1 [Do (FillOrder 1 1 OrdersV1); Do (FillOrder 1 1 OrdersV1); Do (FillOrder 1 3 OrdersV1)] in
  m2.2 = [Done; Done; Done] /\ ov_give (ord_machine_view m1) 1 = Ok 13 /\ ov_give (ord_machine_view m2.1) 1 = Ok 3 /\
  payout OrdersV0 10 21 6 13 5 = 10 /\ payout OrdersV1 10 21 6 13 5 = 10.
Proof. vm_compute. repeat split; reflexivity. Qed.

(** C11. Undoing everything, latest first, with caches opened and flushed in between, restores every answer. *)
Theorem C11_order_undo_restores db s0 cs ns :
  ord_db_is db s0 -> fits_all ord_step ord_fits ((s0, []), []) (cs ++ ns) -> neutral ns ->
  let m1 := (ord_exec_all ((db, []), []) cs).1 in
  Forall (fun o => o = Done) (ord_exec_all m1 ns).2 ->
  ord_answers_agree (ord_machine_view m1) (ord_machine_view (ord_exec_all m1 ns).1).
Proof. exact (undo_restores_orders db s0 cs ns). Qed.
Print Assumptions C11_order_undo_restores.

Example C11_example : neutral sample_neutral /\
  Forall (fun o => o = Done) (ord_exec_all (ord_exec_all ((empty_db, []), []) sample_run).1 sample_neutral).2.
Proof.
  split.
  - change sample_neutral with ([Push] ++ (Do (FillOrder 1 3 OrdersV0) ::
      ([Flush] ++ [Push] ++ (Do (ConcludeOrder 1) :: [] ++ [UndoLast])) ++ [UndoLast])).
    repeat constructor.
  - vm_compute. repeat constructor.
Qed.

(** C11. Undoing and flushing are never refused and nothing crashes. *)
Theorem C11_order_undo_never_refused db s0 cs :
  ord_db_is db s0 -> fits_all ord_step ord_fits ((s0, []), []) cs ->
  Forall2 expected cs (ord_exec_all ((db, []), []) cs).2.
Proof. exact (ord_never_stuck db s0 cs). Qed.
Print Assumptions C11_order_undo_never_refused.

(** C11. A refused operation changes no answer. *)
Theorem C11_refused_order_op_changes_nothing db s0 cs o e :
  ord_db_is db s0 -> fits_all ord_step ord_fits ((s0, []), []) cs ->
  let m1 := (ord_exec_all ((db, []), []) cs).1 in
  (forall s, ord_reads (ord_machine_view m1) s -> ord_fits s o) -> (ord_exec m1 (Do o)).2 = Refused e ->
  ord_answers_agree (ord_machine_view m1) (ord_machine_view (ord_exec m1 (Do o)).1).
Proof. exact (refused_changes_nothing db s0 cs o e). Qed.
Print Assumptions C11_refused_order_op_changes_nothing.

(** The range condition is needed for that: creating an order whose given amount does not fit in a signed 128-bit number
    is refused, but leaves a readable order behind in the cache. *)
Theorem C11_refused_create_leaves_order_refuted :
  exists id d e, let m1 := (ord_exec_all ((empty_db, []), []) [Push]).1 in
    (ord_exec m1 (Do (CreateOrder id d))).2 = Refused e /\
    ov_data (ord_machine_view m1) id = Ok None /\
    ov_data (ord_machine_view (ord_exec m1 (Do (CreateOrder id d))).1) id = Ok (Some d) /\
    ov_ask (ord_machine_view (ord_exec m1 (Do (CreateOrder id d))).1) id = Ok 1.
Proof.
  exists 1, (OrderData 5 (OvCoin 1) (OvToken 9 U128_MAX) false), (OrdAccounting ToSignedFailed).
  vm_compute. repeat split; reflexivity.
Qed.
Print Assumptions C11_refused_create_leaves_order_refuted.

(** C12. A stack of order caches over a database is indistinguishable from a stack of plain order books: operations are
    accepted or refused alike with the same errors, all queries (including the list of order ids) answer as the top
    book, and flushing changes no answer. *)
Theorem C12_order_caches_refine_books db s0 cs :
  ord_db_is db s0 -> fits_all ord_step ord_fits ((s0, []), []) cs ->
  let (m, os) := ord_exec_all ((db, []), []) cs in
  let (sm, sos) := sexec_all ord_step ((s0, []), []) cs in
  os = sos /\ ord_reads (ord_machine_view m) (top sm) /\ (m.2 = [] -> ord_db_is m.1.1 (top sm)).
Proof. exact (ord_layered db s0 cs). Qed.
Print Assumptions C12_order_caches_refine_books.

Example C12_example : ord_db_is empty_db empty_book /\ fits_all ord_step ord_fits ((empty_book, []), []) (sample_run ++ sample_fills) /\
  (ord_exec_all ((empty_db, []), []) sample_run).2 = [Done; Done; Done; Done; Done; Done; Done].
Proof. split; [exact empty_db_is|]. split; [exact sample_fits|]. vm_compute. reflexivity. Qed.

(** C13. Concluding succeeds exactly for existing orders (frozen or not); afterwards the order is gone: no record, nothing
    asked, nothing given, not listed. *)
Theorem C13_conclude_removes_order db s0 cs id :
  ord_db_is db s0 -> fits_all ord_step ord_fits ((s0, []), []) cs ->
  let m1 := (ord_exec_all ((db, []), []) cs).1 in
  m1.2 <> [] ->
  let m2 := (ord_exec m1 (Do (ConcludeOrder id))).1 in
  let v2 := ord_machine_view m2 in
  ((exists d, ov_data (ord_machine_view m1) id = Ok (Some d)) <-> (ord_exec m1 (Do (ConcludeOrder id))).2 = Done) /\
  ((ord_exec m1 (Do (ConcludeOrder id))).2 = Done ->
   ov_data v2 id = Ok None /\ ov_ask v2 id = Ok 0 /\ ov_give v2 id = Ok 0 /\ exists ids, ov_ids v2 = Ok ids /\ id ∉ ids).
Proof. exact (next_conclude db s0 cs id). Qed.
Print Assumptions C13_conclude_removes_order.

(** C13. An order that is not there has no balances and cannot be filled, frozen or concluded. *)
Theorem C13_absent_order_refuses db s0 cs id o :
  ord_db_is db s0 -> fits_all ord_step ord_fits ((s0, []), []) cs ->
  let m1 := (ord_exec_all ((db, []), []) cs).1 in
  m1.2 <> [] -> on_order id o -> ov_data (ord_machine_view m1) id = Ok None ->
  ov_ask (ord_machine_view m1) id = Ok 0 /\ ov_give (ord_machine_view m1) id = Ok 0 /\
  (exists e, (ord_exec m1 (Do o)).2 = Refused e) /\ ord_answers_agree (ord_machine_view m1) (ord_machine_view (ord_exec m1 (Do o)).1).
Proof. exact (absent_refuses db s0 cs id o). Qed.
Print Assumptions C13_absent_order_refuses.

(** C13. A frozen order can be neither filled nor frozen again. *)
Theorem C13_frozen_order_refuses db s0 cs id o d :
  ord_db_is db s0 -> fits_all ord_step ord_fits ((s0, []), []) cs ->
  let m1 := (ord_exec_all ((db, []), []) cs).1 in
  m1.2 <> [] -> fill_or_freeze id o -> ov_data (ord_machine_view m1) id = Ok (Some d) -> od_frozen d = true ->
  (exists e, (ord_exec m1 (Do o)).2 = Refused e) /\ ord_answers_agree (ord_machine_view m1) (ord_machine_view (ord_exec m1 (Do o)).1).
Proof. exact (frozen_refuses db s0 cs id o d). Qed.
Print Assumptions C13_frozen_order_refuses.

(** C13. Until it is concluded a frozen order stays exactly as it is. *)
Theorem C13_frozen_order_stays db s0 cs fs :
  ord_db_is db s0 -> fits_all ord_step ord_fits ((s0, []), []) (cs ++ fs) -> Forall forward fs ->
  let m1 := (ord_exec_all ((db, []), []) cs).1 in
  let m2 := ord_exec_all m1 fs in
  let v1 := ord_machine_view m1 in let v2 := ord_machine_view m2.1 in
  forall id d, ov_data v1 id = Ok (Some d) -> od_frozen d = true -> Forall (fun o => ~ concludes id o) (accepted fs m2.2) ->
  ov_data v2 id = ov_data v1 id /\ ov_ask v2 id = ov_ask v1 id /\ ov_give v2 id = ov_give v1 id.
Proof. exact (frozen_stays db s0 cs fs). Qed.
Print Assumptions C13_frozen_order_stays.

Example C13_example :
  let m1 := (ord_exec_all ((empty_db, []), []) sample_run).1 in
  ov_data (ord_machine_view m1) 2 = Ok (Some (OrderData 6 (OvToken 8 7) (OvCoin 3) true)) /\
  (ord_exec_all m1 [Do (FillOrder 2 7 OrdersV1); Do (FreezeOrder 2); Do (ConcludeOrder 2); Do (FillOrder 2 7 OrdersV1);
                    Do (FreezeOrder 2); Do (ConcludeOrder 2)]).2 =
    [Refused AttemptedFillFrozenOrder; Refused AttemptedFreezeAlreadyFrozenOrder; Done; Refused OrderDataNotFound;
     Refused AttemptedFreezeNonexistingOrder; Refused AttemptedConcludeNonexistingOrder].
Proof. vm_compute. repeat split; reflexivity. Qed.
