(** What staking accounting is supposed to do, over plain tables. *)
From Verif Require Import Base AmountModel LayeredModel PosModel.
Local Open Scope N_scope.

Record pos_state := PosState {
  ps_pool : pool_id -> option pool_data; ps_pool_balance : pool_id -> amount;
  ps_deleg : delegation_id -> option deleg_data; ps_deleg_balance : delegation_id -> amount;
  ps_share : pool_id * delegation_id -> amount }.

Definition put {K} `{EqDecision K} {V} (f : K -> V) (k : K) (v : V) : K -> V := fun k' => if decide (k = k') then v else f k'.

Definition set_pool (s : pos_state) p v := PosState (put (ps_pool s) p v) (ps_pool_balance s) (ps_deleg s) (ps_deleg_balance s) (ps_share s).
Definition set_pool_balance (s : pos_state) p v := PosState (ps_pool s) (put (ps_pool_balance s) p v) (ps_deleg s) (ps_deleg_balance s) (ps_share s).
Definition set_deleg (s : pos_state) d v := PosState (ps_pool s) (ps_pool_balance s) (put (ps_deleg s) d v) (ps_deleg_balance s) (ps_share s).
Definition set_deleg_balance (s : pos_state) d v := PosState (ps_pool s) (ps_pool_balance s) (ps_deleg s) (put (ps_deleg_balance s) d v) (ps_share s).
Definition set_share (s : pos_state) k v := PosState (ps_pool s) (ps_pool_balance s) (ps_deleg s) (ps_deleg_balance s) (put (ps_share s) k v).

Definition with_rewards (x : pool_data) (r : amount) : pool_data :=
  PoolData (pd_dest x) (pd_pledge x) r (pd_vrf x) (pd_margin x) (pd_cost x).

Definition pos_step (s : pos_state) (o : pos_op) : res pos_err pos_state :=
  match o with
  | CreatePool p x =>
      match ps_pool s p with
      | Some _ => Err PoolDataAlreadyExists
      | None => if decide (0 < ps_pool_balance s p) then Err PoolBalanceAlreadyExists
                else Ok (set_pool (set_pool_balance s p (pd_pledge x)) p (Some x))
      end
  | DecommissionPool p =>
      match ps_pool s p with
      | None => Err DecommissionNonexistingPool
      | Some _ => Ok (set_pool (set_pool_balance s p 0) p None)
      end
  | IncreaseRewards p a =>
      match ps_pool s p with
      | None => Err IncreaseRewardsOfNonexistingPool
      | Some x => Ok (set_pool (set_pool_balance s p (ps_pool_balance s p + a)) p (Some (with_rewards x (pd_rewards x + a))))
      end
  | CreateDelegation p d key =>
      match ps_pool s p, ps_deleg s d with
      | None, _ => Err DelegationPoolDoesNotExist
      | Some _, Some _ => Err DelegationIdAlreadyExists
      | Some _, None => Ok (set_deleg s d (Some (DelegData key p)))
      end
  | DeleteDelegation d =>
      match ps_deleg s d with
      | None => Err DelegationIdDoesNotExist
      | Some x => if decide (0 < ps_deleg_balance s d) then Err DelegationBalanceNonZero
                  else match ps_pool s (dd_pool x) with
                       | Some _ => Err DelegationPoolStillExists
                       | None => Ok (set_deleg s d None)
                       end
      end
  | Delegate d a =>
      match ps_deleg s d with
      | None => Err DelegateToNonexistingId
      | Some x => let p := dd_pool x in
          Ok (set_share (set_pool_balance (set_deleg_balance s d (ps_deleg_balance s d + a)) p (ps_pool_balance s p + a))
                (p, d) (ps_share s (p, d) + a))
      end
  | SpendShare d a =>
      match ps_deleg s d with
      | None => Err SpendingShareOfNonexistingDelegation
      | Some x => let p := dd_pool x in
          let s1 := set_share s (p, d) (ps_share s (p, d) - a) in
          let s2 := match ps_pool s p with Some _ => set_pool_balance s1 p (ps_pool_balance s p - a) | None => s1 end in
          Ok (set_deleg_balance s2 d (ps_deleg_balance s d - a))
      end
  end.

(** The conditions under which callers use the operations: sums of coins stay below 2^127; pool ids are fresh (they are
    hashes of inputs, which can be spent once) and pools start without rewards; no more is withdrawn from a delegation
    than it holds (checked by the transaction verifier before the operation is run). *)
Definition pos_fits (s : pos_state) (o : pos_op) : Prop :=
  match o with
  | CreatePool p x => ps_pool s p = None ->
      (Z.of_N (pd_pledge x) <= I128_MAX)%Z /\ pd_rewards x = 0 /\ forall d, ps_share s (p, d) = 0
  | IncreaseRewards p a => is_Some (ps_pool s p) -> (Z.of_N (ps_pool_balance s p + a) <= I128_MAX)%Z
  | Delegate d a => forall x, ps_deleg s d = Some x ->
      (Z.of_N (ps_deleg_balance s d + a) <= I128_MAX)%Z /\ (Z.of_N (ps_pool_balance s (dd_pool x) + a) <= I128_MAX)%Z
  | SpendShare d a => a <= ps_deleg_balance s d
  | _ => True
  end.

(** All queries succeed and answer as the tables; the listing of a pool's shares shows exactly its non-zero shares (and
    possibly some zero ones). *)
Definition shown (o : option (gmap delegation_id amount)) (d : delegation_id) : amount := default 0 (default ∅ o !! d).
Definition pos_reads (v : pos_view) (s : pos_state) : Prop :=
  (forall p, pv_pool v p = Ok (ps_pool s p) /\ pv_pool_balance v p = Ok (ps_pool_balance s p) /\
             exists o, pv_shares v p = Ok o /\ forall d, shown o d = ps_share s (p, d)) /\
  (forall d, pv_deleg v d = Ok (ps_deleg s d) /\ pv_deleg_balance v d = Ok (ps_deleg_balance s d)) /\
  (forall p d, pv_share v p d = Ok (ps_share s (p, d))).

(** The sum of a function over a list of keys, and the total of a listing. *)
Definition sum_over {K} (f : K -> N) (l : list K) : N := foldr (fun k acc => f k + acc) 0 l.
Definition total (o : option (gmap delegation_id amount)) : N := foldr N.add 0 (map_to_list (default ∅ o)).*2.

(** [total_of f n]: [f] is zero outside some finite set of keys and sums to [n]. *)
Definition total_of (f : delegation_id -> N) (n : N) : Prop :=
  exists l, NoDup l /\ (forall d, d ∉ l -> f d = 0) /\ n = sum_over f l.

(** Books that can arise. *)
Definition sound_stakes (s : pos_state) : Prop :=
  (forall p x, ps_pool s p = Some x ->
     exists n, total_of (fun d => ps_share s (p, d)) n /\ ps_pool_balance s p = pd_pledge x + pd_rewards x + n) /\
  (forall d x, ps_deleg s d = Some x ->
     ps_share s (dd_pool x, d) = ps_deleg_balance s d /\ forall p, p <> dd_pool x -> ps_share s (p, d) = 0) /\
  (forall d, ps_deleg s d = None -> ps_deleg_balance s d = 0 /\ forall p, ps_share s (p, d) = 0).

Definition below_2_127 {K} (f : K -> N) : Prop := forall k, (Z.of_N (f k) <= I128_MAX)%Z.
Definition no_zeroes {K} `{Countable K} (m : gmap K N) : Prop := forall k, m !! k <> Some 0.

(** A database standing for such tables. *)
Definition pos_db_is (db : pos_db) (s : pos_state) : Prop :=
  (forall p, pdb_pool db !! p = ps_pool s p) /\ (forall d, pdb_deleg db !! d = ps_deleg s d) /\
  ((forall p, default 0 (pdb_pool_balance db !! p) = ps_pool_balance s p) /\ no_zeroes (pdb_pool_balance db) /\ below_2_127 (ps_pool_balance s)) /\
  ((forall d, default 0 (pdb_deleg_balance db !! d) = ps_deleg_balance s d) /\ no_zeroes (pdb_deleg_balance db) /\ below_2_127 (ps_deleg_balance s)) /\
  ((forall k, default 0 (pdb_share db !! k) = ps_share s k) /\ no_zeroes (pdb_share db) /\ below_2_127 (ps_share s)) /\
  sound_stakes s.

(** Two views give the same (successful) answers. *)
Definition pos_answers_agree (v w : pos_view) : Prop :=
  (forall p, pv_pool v p = pv_pool w p /\ pv_pool_balance v p = pv_pool_balance w p /\
     is_ok (pv_pool v p) /\ is_ok (pv_pool_balance v p) /\
     exists o o', pv_shares v p = Ok o /\ pv_shares w p = Ok o' /\ forall d, shown o d = shown o' d) /\
  (forall d, pv_deleg v d = pv_deleg w d /\ pv_deleg_balance v d = pv_deleg_balance w d /\
     is_ok (pv_deleg v d) /\ is_ok (pv_deleg_balance v d)) /\
  (forall p d, pv_share v p d = pv_share w p d /\ is_ok (pv_share v p d)).
