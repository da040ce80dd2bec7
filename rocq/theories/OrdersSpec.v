(** What orders are supposed to do: for each order its record and what is still asked and still given. *)
From Verif Require Import Base AmountModel LayeredModel OrdersModel.
Local Open Scope N_scope.

Record ord_state := OrdState {
  os_data : order_id -> option order_data; os_ask : order_id -> amount; os_give : order_id -> amount }.

Definition put_order (s : ord_state) (id : order_id) (d : option order_data) (ask give : amount) : ord_state :=
  OrdState (fun k => if decide (id = k) then d else os_data s k)
           (fun k => if decide (id = k) then ask else os_ask s k)
           (fun k => if decide (id = k) then give else os_give s k).

(** The amount of an order side; none for the obsolete token kind. *)
Definition side_amount (v : output_value) : option amount :=
  match v with OvCoin a | OvToken _ a => Some a | OvTokenV0 => None end.

(** What a taker paying [fill] receives: at the current ratio of what is left (old rules) or at the original ratio of the
    order (new rules), rounded down. *)
Definition payout (ver : orders_version) (ask0 give0 ask give fill : amount) : amount :=
  match ver with OrdersV0 => give * fill / ask | OrdersV1 => give0 * fill / ask0 end.

Definition ord_step (s : ord_state) (o : ord_op) : res ord_err ord_state :=
  match o with
  | CreateOrder id d =>
      match os_data s id, side_amount (od_ask d), side_amount (od_give d) with
      | Some _, _, _ => Err OrderAlreadyExists
      | None, None, _ | None, _, None => Err UnsupportedTokenVersion
      | None, Some a, Some g => if decide (a = 0 \/ g = 0) then Err OrderWithZeroValue
                                else Ok (put_order s id (Some d) a g)
      end
  | ConcludeOrder id =>
      match os_data s id with
      | None => Err AttemptedConcludeNonexistingOrder
      | Some _ => Ok (put_order s id None 0 0)
      end
  | FillOrder id fill ver =>
      match os_data s id with
      | None => Err OrderDataNotFound
      | Some d =>
          if od_frozen d then Err AttemptedFillFrozenOrder
          else if decide (os_ask s id < fill) then Err OrderOverbid
          else match ver, side_amount (od_ask d), side_amount (od_give d) with
               | OrdersV0, _, _ =>
                   if decide (os_ask s id = 0) then Err OrderOverflow
                   else Ok (put_order s id (Some d) (os_ask s id - fill) (os_give s id - os_give s id * fill / os_ask s id))
               | OrdersV1, Some a0, Some g0 =>
                   if decide (g0 * fill / a0 = 0) then Err OrderUnderbid
                   else Ok (put_order s id (Some d) (os_ask s id - fill) (os_give s id - g0 * fill / a0))
               | OrdersV1, _, _ => Err UnsupportedTokenVersion
               end
      end
  | FreezeOrder id =>
      match os_data s id with
      | None => Err AttemptedFreezeNonexistingOrder
      | Some d => if od_frozen d then Err AttemptedFreezeAlreadyFrozenOrder
                  else Ok (put_order s id (Some (OrderData (od_key d) (od_ask d) (od_give d) true)) (os_ask s id) (os_give s id))
      end
  end.

(** Order amounts must be representable as signed 128-bit deltas. *)
Definition ord_fits (s : ord_state) (o : ord_op) : Prop :=
  match o with
  | CreateOrder id d => forall s', ord_step s o = Ok s' ->
      (Z.of_N (os_ask s' id) <= I128_MAX)%Z /\ (Z.of_N (os_give s' id) <= I128_MAX)%Z
  | _ => True
  end.

(** All queries succeed and answer as the tables; the id listing is exactly the existing orders. *)
Definition ord_reads (v : ord_view) (s : ord_state) : Prop :=
  (forall id, ov_data v id = Ok (os_data s id) /\ ov_ask v id = Ok (os_ask s id) /\ ov_give v id = Ok (os_give s id)) /\
  exists ids, ov_ids v = Ok ids /\ forall id, id ∈ ids <-> is_Some (os_data s id).

(** Books that can arise: no balances without an order; an order was created with two positive amounts, holds at most
    those, and its give side has never been sold above the original price. *)
Definition sound_order (d : option order_data) (ask give : amount) : Prop :=
  match d with
  | None => ask = 0 /\ give = 0
  | Some d => exists a0 g0, side_amount (od_ask d) = Some a0 /\ side_amount (od_give d) = Some g0 /\
      0 < a0 /\ 0 < g0 /\ ask <= a0 /\ give <= g0 /\ g0 * ask <= give * a0
  end.
Definition sound_book (s : ord_state) : Prop := forall id, sound_order (os_data s id) (os_ask s id) (os_give s id).

(** A database standing for such tables. *)
Definition ord_db_is (db : ord_db) (s : ord_state) : Prop :=
  (forall id, odb_data db !! id = os_data s id) /\
  (forall id, default 0 (odb_ask db !! id) = os_ask s id) /\ (forall id, odb_ask db !! id <> Some 0) /\
  (forall id, default 0 (odb_give db !! id) = os_give s id) /\ (forall id, odb_give db !! id <> Some 0) /\
  (forall id, (Z.of_N (os_ask s id) <= I128_MAX)%Z) /\ (forall id, (Z.of_N (os_give s id) <= I128_MAX)%Z) /\
  sound_book s.

(** Sum of the amounts paid into order [id] by a list of operations. *)
Fixpoint paid_into (id : order_id) (ops : list ord_op) : N :=
  match ops with
  | [] => 0
  | FillOrder i f _ :: ops' => (if decide (i = id) then f else 0) + paid_into id ops'
  | _ :: ops' => paid_into id ops'
  end.
Definition concludes (id : order_id) (o : ord_op) : Prop := match o with ConcludeOrder i => i = id | _ => False end.
(** All fills of [id] follow the newer rules. *)
Definition new_rules (id : order_id) (o : ord_op) : Prop := match o with FillOrder i _ OrdersV0 => i <> id | _ => True end.

(** Two views give the same (successful) answers. *)
Definition ord_answers_agree (v w : ord_view) : Prop :=
  (forall id, ov_data v id = ov_data w id /\ ov_ask v id = ov_ask w id /\ ov_give v id = ov_give w id /\
    is_ok (ov_data v id) /\ is_ok (ov_ask v id) /\ is_ok (ov_give v id)) /\
  exists i j, ov_ids v = Ok i /\ ov_ids w = Ok j /\ forall id, id ∈ i <-> id ∈ j.

(** Operations on an existing order. *)
Definition on_order (id : N) (o : ord_op) : Prop :=
  match o with ConcludeOrder i | FillOrder i _ _ | FreezeOrder i => i = id | CreateOrder _ _ => False end.
Definition fill_or_freeze (id : N) (o : ord_op) : Prop :=
  match o with FillOrder i _ _ | FreezeOrder i => i = id | _ => False end.

