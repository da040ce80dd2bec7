(** What tokens are supposed to do: a table of token records and a table of circulating supplies, and the rules of
    each operation on them. Independent of caches, deltas, undo records and databases. *)
From Verif Require Import Base AmountModel TokensModel.
Local Open Scope N_scope.

Record tok_state := TokState { ts_data : token_id -> option token_data; ts_supply : token_id -> amount }.

Definition put_token (s : tok_state) (id : token_id) (t : token_data) : tok_state :=
  TokState (fun k => if decide (id = k) then Some t else ts_data s k) (ts_supply s).
Definition put_supply (s : tok_state) (id : token_id) (a : amount) : tok_state :=
  TokState (ts_data s) (fun k => if decide (id = k) then a else ts_supply s k).

(** Frozen tokens admit nothing but unfreezing; locked supplies do not change; a fixed supply has a cap. *)
Definition tok_step (s : tok_state) (o : tok_op) : res tok_err tok_state :=
  match o with
  | IssueToken id d =>
      match ts_data s id with
      | Some _ => Err TokenAlreadyExists
      | None => if decide (ts_supply s id = 0) then Ok (put_token s id d) else Err TokenAlreadyExists
      end
  | MintTokens id a =>
      match ts_data s id with
      | None => Err TokenDataNotFound
      | Some d => match tk_frozen d, tk_supply d with
                  | Frozen _, _ => Err CannotMintFrozenToken
                  | NotFrozen _, Fixed cap =>
                      if decide (U128_MAX < ts_supply s id + a) then Err TokAmountOverflow
                      else if decide (ts_supply s id + a <= cap) then Ok (put_supply s id (ts_supply s id + a))
                      else Err MintExceedsSupplyLimit
                  | NotFrozen _, Lockable =>
                      if tk_locked d then Err CannotMintFromLockedSupply else Ok (put_supply s id (ts_supply s id + a))
                  | NotFrozen _, Unlimited => Ok (put_supply s id (ts_supply s id + a))
                  end
      end
  | UnmintTokens id a =>
      match ts_data s id with
      | None => Err TokenDataNotFound
      | Some d => match tk_locked d, tk_frozen d with
                  | true, _ => Err CannotUnmintFromLockedSupply
                  | false, Frozen _ => Err CannotUnmintFrozenToken
                  | false, NotFrozen _ => if decide (a <= ts_supply s id) then Ok (put_supply s id (ts_supply s id - a))
                                          else Err NotEnoughCirculatingSupplyToUnmint
                  end
      end
  | LockSupply id =>
      match ts_data s id with
      | None => Err TokenDataNotFound
      | Some d => match tk_locked d, tk_frozen d, tk_supply d with
                  | true, _, _ => Err SupplyIsAlreadyLocked
                  | false, Frozen _, _ => Err CannotLockFrozenToken
                  | false, NotFrozen f, Lockable =>
                      Ok (put_token s id (TokenData (tk_ticker d) (tk_decimals d) (tk_uri d) Lockable true (NotFrozen f) (tk_authority d)))
                  | false, NotFrozen _, _ => Err CannotLockNotLockableSupply
                  end
      end
  | FreezeToken id u =>
      match ts_data s id with
      | None => Err TokenDataNotFound
      | Some d => match tk_frozen d with
                  | Frozen _ => Err TokenIsAlreadyFrozen
                  | NotFrozen false => Err CannotFreezeNotFreezableToken
                  | NotFrozen true =>
                      Ok (put_token s id (TokenData (tk_ticker d) (tk_decimals d) (tk_uri d) (tk_supply d) (tk_locked d) (Frozen u) (tk_authority d)))
                  end
      end
  | UnfreezeToken id =>
      match ts_data s id with
      | None => Err TokenDataNotFound
      | Some d => match tk_frozen d with
                  | NotFrozen _ => Err CannotUnfreezeTokenThatIsNotFrozen
                  | Frozen false => Err CannotUnfreezeNotUnfreezableToken
                  | Frozen true =>
                      Ok (put_token s id (TokenData (tk_ticker d) (tk_decimals d) (tk_uri d) (tk_supply d) (tk_locked d) (NotFrozen true) (tk_authority d)))
                  end
      end
  | ChangeAuthority id a =>
      match ts_data s id with
      | None => Err TokenDataNotFound
      | Some d => match tk_frozen d with
                  | Frozen _ => Err CannotChangeAuthorityForFrozenToken
                  | NotFrozen f =>
                      Ok (put_token s id (TokenData (tk_ticker d) (tk_decimals d) (tk_uri d) (tk_supply d) (tk_locked d) (NotFrozen f) a))
                  end
      end
  | ChangeMetadataUri id uri =>
      match ts_data s id with
      | None => Err TokenDataNotFound
      | Some d => match tk_frozen d with
                  | Frozen _ => Err CannotChangeMetadataUriForFrozenToken
                  | NotFrozen f =>
                      Ok (put_token s id (TokenData (tk_ticker d) (tk_decimals d) uri (tk_supply d) (tk_locked d) (NotFrozen f) (tk_authority d)))
                  end
      end
  end.

(** Minting must not take a supply above what signed 128-bit deltas can carry, and tokens are issued unlocked (the
    record always comes from [from_issuance], data.rs 258-272). *)
Definition tok_fits (s : tok_state) (o : tok_op) : Prop :=
  match o with
  | IssueToken _ d => tk_locked d = false
  | MintTokens id a => forall s', tok_step s o = Ok s' -> (Z.of_N (ts_supply s' id) <= I128_MAX)%Z
  | _ => True
  end.

(** All queries of a view succeed and answer as the table. *)
Definition tok_reads (v : tok_view) (s : tok_state) : Prop :=
  forall id, tv_data v id = Ok (ts_data s id) /\ tv_supply v id = Ok (ts_supply s id).

(** A database standing for a table: same answers, amounts within the signed range, no stored zero, and only tokens
    with a lockable supply are locked. *)
Definition tok_db_is (db : tok_db) (s : tok_state) : Prop :=
  (forall id, tdb_data db !! id = ts_data s id) /\
  (forall id, default 0 (tdb_supply db !! id) = ts_supply s id) /\
  (forall id, tdb_supply db !! id <> Some 0) /\
  (forall id, (Z.of_N (ts_supply s id) <= I128_MAX)%Z) /\
  (forall id t, ts_data s id = Some t -> tk_locked t = true -> tk_supply t = Lockable).

(** Tables that agree everywhere. *)
Definition tok_same (s t : tok_state) : Prop :=
  forall id, ts_data s id = ts_data t id /\ ts_supply s id = ts_supply t id.

(** The operations a frozen token must refuse. *)
Definition op_on_frozen (id : token_id) (o : tok_op) : Prop :=
  match o with
  | MintTokens i _ | UnmintTokens i _ | LockSupply i | FreezeToken i _ | ChangeAuthority i _ | ChangeMetadataUri i _ => i = id
  | IssueToken _ _ | UnfreezeToken _ => False
  end.

(** No fixed-supply token exceeds its cap. *)
Definition caps_respected (s : tok_state) : Prop :=
  forall id t cap, ts_data s id = Some t -> tk_supply t = Fixed cap -> ts_supply s id <= cap.

(** Two views give the same (successful) answers. *)
Definition tok_answers_agree (v w : tok_view) : Prop :=
  forall id, tv_data v id = tv_data w id /\ tv_supply v id = tv_supply w id /\ is_ok (tv_data v id) /\ is_ok (tv_supply v id).
