(** Model of the arithmetic of consensus: effective pool balance, stake hash check, proof-of-stake and proof-of-work targets.
    consensus/src/pos/{effective_pool_balance.rs, hash_check.rs, target.rs, mod.rs}, consensus/src/pow/{helpers.rs, work.rs, mod.rs}.
    256- and 512-bit integers are the lists of words of [UintModel]. Release builds check overflow and abort on panic
    (Cargo.toml 322-324), so overflowing plain arithmetic is [Panic]. *)
From Verif Require Import Base AmountModel UintModel PrimModel ScheduleModel.
Local Open Scope N_scope.

(** [expect] on a [Result] or on a checked operation *)
Definition rexpect {E F A} (r : res E A) : res F A := match r with Ok a => Ok a | _ => Panic end.

(** ** Effective pool balance *)
(** effective_pool_balance.rs 33-46 *)
Inductive eb_err := EbArithmetic | EbSupplyZero | EbBalanceGreaterThanSupply | EbPledgeGreaterThanBalance | EbAdjustmentTooBig.
Definition eb_arith {A} (r : res unit A) : res eb_err A := rmap_err (fun _ => EbArithmetic) r.
(** effective_pool_balance.rs 25-31 *)
Definition SATURATION_NUMER : N := 1.
Definition SATURATION_DENOM : N := 1000.
Definition INFLUENCE_NUMER : N := 75375728.
Definition INFLUENCE_DENOM : N := 1000000000.
(** 66-223; the log message is left out *)
Definition effective_pool_balance_impl (pledge balance supply : amount) (sat_n sat_d inf_n inf_d : N) : res eb_err amount :=
  if negb (0 <? supply) then Err EbSupplyZero
  else if negb (balance <? supply) then Err EbBalanceGreaterThanSupply
  else if negb (pledge <=? balance) then Err EbPledgeGreaterThanBalance
  else
    let? z128 := eb_arith (let? v := ok_or (checked_mul U128_MAX supply sat_n) tt in ok_or (checked_div v sat_d) tt) in
    let sigma128 := N.min balance z128 in
    let sigma := from_u128 4 sigma128 in
    let s := from_u128 4 (N.min pledge z128) in
    let z := from_u128 4 z128 in
    let? z_squared := eb_arith (uchecked_mul z z) in
    let? term1 := eb_arith (let? v := ok_or (uchecked_sub z sigma) tt in uchecked_mul v s) in
    let? term2 := eb_arith (let? v := uchecked_mul z sigma in let? v := ok_or (uchecked_sub v term1) tt in uchecked_mul v s) in
    let? numerator := eb_arith (let? v := uchecked_mul sigma z_squared in let? v := ok_or (uchecked_sub v term2) tt in uchecked_mul v (from_u128 4 inf_n)) in
    let? an_ad := eb_arith (ok_or (checked_add U128_MAX inf_n inf_d) tt) in
    let? quotient := eb_arith (let? v := uchecked_div numerator (from_u128 4 an_ad) in uchecked_div v z_squared) in
    let? adjustment := rmap_err (fun _ => EbAdjustmentTooBig) (u128_of_u256 quotient) in
    let? effective := ok_or (checked_sub sigma128 adjustment) EbArithmetic in
    if effective <=? sigma128 then Ok effective else Panic.
(** 51-64 *)
Definition effective_pool_balance (pledge balance supply : amount) : res eb_err amount :=
  effective_pool_balance_impl pledge balance supply SATURATION_NUMER SATURATION_DENOM INFLUENCE_NUMER INFLUENCE_DENOM.

(** ** The stake hash check *)
Inductive hash_err := HashTooHigh | HashBalance (e : eb_err) | UnsupportedVersion.
Inductive pos_version := PosV0 | PosV1 | PosOther.
(** hash_check.rs 28-43, 46-65: the comparison of the hash with balance times target in 512 bits *)
Definition hash_below (hash target : uint) (balance : amount) : res hash_err unit :=
  match uchecked_mul (from_u128 8 balance) (widen 4 target) with
  | Ok product => match ucompare (widen 4 hash) product with Gt => Err HashTooHigh | _ => Ok tt end
  | _ => Panic
  end.
(** hash_check.rs 67-82 *)
Definition check_pos_hash (version : pos_version) (hash target : uint) (pledge balance supply : amount) : res hash_err unit :=
  match version with
  | PosV0 => hash_below hash target balance
  | PosV1 => let? effective := rmap_err HashBalance (effective_pool_balance pledge balance supply) in hash_below hash target effective
  | PosOther => Err UnsupportedVersion
  end.
(** mod.rs 336-385: the search for a timestamp. [vrf t] is the hash the staker's key yields at time [t], or nothing when its
    verification fails; the timestamps tried are [first], [first + 1], ... up to [max], in that order. *)
Fixpoint search_timestamps (vrf : N -> option uint) (version : pos_version) (target : uint) (pledge balance supply : amount) (from : N) (count : nat) : res unit (option N) :=
  match count with
  | O => Ok None
  | S count' =>
      let rest := search_timestamps vrf version target pledge balance supply (from + 1) count' in
      match vrf from with
      | None => rest
      | Some hash => match check_pos_hash version hash target pledge balance supply with
                     | Panic => Panic
                     | Err _ => rest
                     | Ok _ => Ok (Some from)
                     end
      end
  end.
Definition find_timestamp_for_staking (vrf : N -> option uint) (version : pos_version) (compact_target : N) (pledge balance supply : amount) (first max : N) : res unit (option N) :=
  let? target := compact_decode compact_target in
  if negb (first <=? max) then Err tt
  else search_timestamps vrf version target pledge balance supply first (N.to_nat (max - first + 1)).

(** ** Proof-of-stake target *)
(** common/src/chain/pos/config.rs 24-60: the fields used here; [change_limit] is in thousandths *)
Record pos_config := PosConfig { target_limit : uint; count_to_average : N; change_limit : N; pos_ver : pos_version }.
(** target.rs 69-111; the clamp asserts that its bounds are ordered *)
Definition pos_new_target (cf : pos_config) (prev_target : uint) (actual_block_time target_block_time : N) : res unit N :=
  let actual := from_u64 8 (if actual_block_time =? 0 then 1 else actual_block_time) in
  let prev := widen 4 prev_target in
  let? new_target := rexpect (let? numerator := uchecked_mul prev actual in uchecked_div numerator (from_u64 8 target_block_time)) in
  let? change := rexpect (let? numerator := uchecked_mul prev (from_u64 8 (change_limit cf)) in uchecked_div numerator (from_u64 8 1000)) in
  let? lower := expect (uchecked_sub prev change) in
  let? upper := expect (uchecked_add prev change) in
  let? new_target := (if ugeb upper lower then Ok (if negb (ugeb new_target lower) then lower else if negb (ugeb upper new_target) then upper else new_target) else Panic) in
  let? new_target := (match u256_of_u512 new_target with Ok v => Ok v | Err _ => Ok (target_limit cf) | Panic => Panic end) in
  compact_encode (if ugeb new_target (target_limit cf) then target_limit cf else new_target).
(** target.rs 31-67: the average time between blocks. [time_at] gives the timestamp of the ancestor at a height. *)
Inductive pos_err := PosEmptyTimespan | PosNotMonotonic | PosBadBits | PosInvalidSpacing | PosAncestor.
Definition average_block_time (cf : pos_config) (height time : N) (time_at : N -> option N) : res pos_err N :=
  let start := match height_sub height (Z.of_N (count_to_average cf) - 1) with Ok h => h | _ => 0 end in
  if negb (start <? height) then Err PosEmptyTimespan
  else
    let? start_time := ok_or (time_at start) PosAncestor in
    let? span := ok_or (checked_sub time start_time) PosNotMonotonic in
    let? distance := rexpect (height_diff height start) in
    ok_or (checked_div span (Z.to_N distance)) PosEmptyTimespan.
(** The block before the one whose target is computed: genesis, or a block with its height, time and consensus data *)
Inductive consensus_data := NoConsensusData | PowData (bits : N) | PosData (compact_target : N).
Inductive prev_block := PrevGenesis | PrevBlock (height time : N) (data : consensus_data).
(** target.rs 165-229 *)
Definition pos_target_internal (ups : list (N * consensus_upgrade pos_config)) (spacing : N) (cf : pos_config) (height time : N) (data : consensus_data) (time_at : N -> option N) : res pos_err N :=
  let? status := rexpect (consensus_status ups height) in
  match status with
  | PoWOngoing | PoWThreshold _ | AnyConsensus => Panic
  | PoSThreshold (Some d) _ => Ok d
  | PoSThreshold None _ | PoSOngoing _ =>
      match data with
      | NoConsensusData | PowData _ => Panic
      | PosData bits =>
          let? prev_target := rmap_err (fun _ => PosBadBits) (compact_decode bits) in
          let? average := average_block_time cf height time time_at in
          if spacing =? 0 then Err PosInvalidSpacing else rexpect (pos_new_target cf prev_target average spacing)
      end
  end.
(** consensus_upgrade.rs 49-55 [PoSStatus] *)
Inductive pos_status := PosThreshold (initial : option N) (cf : pos_config) | PosOngoing (cf : pos_config).
(** target.rs 113-139, 141-163 (the second looks up the previous block and then does the same) *)
Definition pos_target_required (ups : list (N * consensus_upgrade pos_config)) (spacing : N) (status : pos_status) (prev : prev_block) (time_at : N -> option N) : res pos_err N :=
  match status with
  | PosThreshold (Some d) _ => Ok d
  | PosThreshold None cf | PosOngoing cf => match prev with
               | PrevGenesis => rexpect (compact_encode (target_limit cf))
               | PrevBlock height time data => pos_target_internal ups spacing cf height time data time_at
               end
  end.

(** ** Proof-of-work target *)
(** common/src/chain/pow.rs 26-34, 61-79 *)
Record pow_config := PowConfig { no_retargeting : bool; allow_min_difficulty : bool; pow_limit : uint }.
Definition TARGET_TIMESPAN : N := 1209600.
Definition TARGET_SPACING : N := 600.
Definition MAX_RETARGET_FACTOR : N := 4.
(** pow/mod.rs 71-91 *)
Definition MAX_TIMESPAN : N := TARGET_TIMESPAN * MAX_RETARGET_FACTOR.
Definition MIN_TIMESPAN : N := TARGET_TIMESPAN / MAX_RETARGET_FACTOR.
Definition ADJUSTMENT_INTERVAL : N := TARGET_TIMESPAN / TARGET_SPACING.
Inductive pow_err := PowPreviousBits | PowNoData | PowAncestor | PowInvalidTargetBits | PowDecodingBits | PowInvalid.
(** helpers.rs 63-89 *)
Definition pow_new_target (actual_timespan target_timespan : N) (old_bits : N) (limit : uint) : res pow_err N :=
  let? old_target := rmap_err (fun _ => PowPreviousBits) (compact_decode old_bits) in
  let? product := (match uchecked_mul old_target (from_u64 4 actual_timespan) with Ok v => Ok v | Err _ => Ok (repeat (W - 1) 4) | Panic => Panic end) in
  let? new_target := rexpect (uchecked_div product (from_u64 4 target_timespan)) in
  rexpect (compact_encode (if ugeb limit new_target then new_target else limit)).
(** work.rs 137-147; the subtraction of two u64 *)
Definition actual_timespan (prev_time retarget_time : N) : res pow_err N :=
  let? span := expect (checked_sub prev_time retarget_time) in
  Ok (if span <? MIN_TIMESPAN then MIN_TIMESPAN else if MAX_TIMESPAN <? span then MAX_TIMESPAN else span).
(** work.rs 205-223 *)
Definition next_work_required (cf : pow_config) (retarget_time prev_time : N) (bits : N) : res pow_err N :=
  let? span := actual_timespan prev_time retarget_time in
  pow_new_target span TARGET_TIMESPAN bits (pow_limit cf).
(** helpers.rs 91-101 with work.rs 225-244 *)
Definition min_difficulty_work (cf : pow_config) (new_time prev_time bits : N) : res pow_err N :=
  let? stalled_after := expect (checked_add U64_MAX prev_time (TARGET_SPACING * 2)) in
  if stalled_after <? new_time then rexpect (compact_encode (pow_limit cf)) else Ok bits.
(** work.rs 149-203; helpers.rs 27-54 *)
Definition get_work_required (cf : pow_config) (height prev_time : N) (data : consensus_data) (new_time : N) (time_at : N -> option N) : res pow_err N :=
  match data with
  | PowData bits =>
      if no_retargeting cf then Ok bits
      else
        let? current := expect (checked_add U64_MAX height 1) in
        if negb (current mod ADJUSTMENT_INTERVAL =? 0) then
          if allow_min_difficulty cf then min_difficulty_work cf new_time prev_time bits else Ok bits
        else
          let? start := expect (checked_sub height (ADJUSTMENT_INTERVAL - 1)) in
          let? retarget_time := ok_or (time_at start) PowAncestor in
          next_work_required cf retarget_time prev_time bits
  | _ => Err PowNoData
  end.
(** work.rs 110-133 *)
Definition pow_work_required (cf : pow_config) (threshold : option N) (prev : prev_block) (new_time : N) (time_at : N -> option N) : res pow_err N :=
  match threshold with
  | Some d => Ok d
  | None => match prev with
            | PrevGenesis => rexpect (compact_encode (pow_limit cf))
            | PrevBlock height time data => get_work_required cf height time data new_time time_at
            end
  end.
(** work.rs 43-54 *)
Definition check_proof_of_work (hash : uint) (bits : N) : res pow_err bool :=
  let? target := rmap_err (fun _ => PowDecodingBits) (compact_decode bits) in
  Ok (ugeb target hash).
(** work.rs 56-97 *)
Definition check_pow_consensus (cf : pow_config) (threshold : option N) (prev : prev_block) (time : N) (bits : N) (hash : uint) (time_at : N -> option N) : res pow_err unit :=
  let? required := pow_work_required cf threshold prev time time_at in
  if negb (required =? bits) then Err PowInvalidTargetBits
  else let? good := check_proof_of_work hash required in if good then Ok tt else Err PowInvalid.
