(** Model of the emission schedule and of network upgrades: common/src/chain/config/emission_schedule.rs,
    common/src/chain/upgrades/{netupgrade,consensus_upgrade}.rs. *)
From Coq Require Import Ascii String.
From stdpp Require Import sorting.
From Verif Require Import Base AmountModel TextModel PrimModel.
Local Open Scope N_scope.
Local Open Scope list_scope.

(** [CoinUnit] (common/src/chain/coin_unit.rs) is an [Amount]; heights are u64 values. *)
Definition ATOMS_PER_COIN : N := 10 ^ 11.
Definition from_coins (n : N) : amount := n * ATOMS_PER_COIN.

(** [BTreeMap<BlockHeight, V>]: the list of its entries in iteration order, that is by increasing key. *)
Fixpoint bt_insert {V} (k : N) (v : V) (l : list (N * V)) : list (N * V) :=
  match l with
  | [] => [(k, v)]
  | (k', v') :: l' => if k <? k' then (k, v) :: l else if k =? k' then (k, v) :: l' else (k', v') :: bt_insert k v l'
  end.
(** [collect::<BTreeMap<_,_>>()]: later entries replace earlier ones *)
Definition bt_collect {V} (l : list (N * V)) : list (N * V) := foldl (fun m kv => bt_insert kv.1 kv.2 m) [] l.
(** [range(zero..height).next_back()] *)
Definition last_below {V} (height : N) (l : list (N * V)) : option (N * V) :=
  foldl (fun cur kv => if kv.1 <? height then Some kv else cur) None l.

(** emission_schedule.rs 77-84 *)
Record emission_table := EmissionTable {
  et_supply : amount;
  et_subsidy : amount;
  et_periods : list (N * amount) }.

(** emission_schedule.rs 141-155: the [scan]. The unchecked u64 subtraction panics (in checked builds) when the keys are out of
    order, which cannot happen in a BTreeMap. *)
Fixpoint precompute (supply old_subsidy start : N) (periods : list (N * amount)) : res unit (list (N * (amount * amount))) :=
  match periods with
  | [] => Ok []
  | (end_block, new_subsidy) :: rest =>
      let? n_blocks := expect (checked_sub end_block start) in
      let? cur := expect (amount_mul old_subsidy n_blocks) in
      let? supply' := expect (amount_add supply cur) in
      let? tail := precompute supply' new_subsidy end_block rest in
      Ok ((end_block, (supply', new_subsidy)) :: tail)
  end.
(** emission_schedule.rs 160-171: the closure *)
Definition eval_schedule (initial : amount * amount) (table : list (N * (amount * amount))) (height : N) : res unit amount :=
  let '(start, (start_supply, subsidy)) := default (0, initial) (last_below height table) in
  if height <? start then Panic
  else let? period := expect (amount_mul subsidy (height - start)) in
       expect (amount_add start_supply period).
(** emission_schedule.rs 133-172 *)
Definition schedule (t : emission_table) : res unit (N -> res unit amount) :=
  let? table := precompute (et_supply t) (et_subsidy t) 0 (et_periods t) in
  Ok (eval_schedule (et_supply t, et_subsidy t) table).
(** emission_schedule.rs 61-64 *)
Definition subsidy_at (f : N -> res unit amount) (height : N) : res unit amount :=
  let? prev := expect (prev_height height) in
  let? now := f height in
  let? before := f prev in
  expect (amount_sub now before).
(** emission_schedule.rs 118-124 *)
Definition tail_emission (t : emission_table) : N * amount := default (0, et_subsidy t) (last (et_periods t)).
(** emission_schedule.rs 127-130 *)
Definition final_supply (t : emission_table) : res unit (option amount) :=
  let '(tail_block, tail_subsidy) := tail_emission t in
  if tail_subsidy =? 0 then let? f := schedule t in let? s := f tail_block in Ok (Some s) else Ok None.
(** emission_schedule.rs 276-295; [secs] is the block interval in whole seconds (the assert at 280 requires whole seconds),
    [checked_div] stands for the panic of a division by zero *)
Definition mainnet_schedule_table (secs : N) : res unit emission_table :=
  let? blocks_per_year := expect (checked_div (365 * 24 * 60 * 60) secs) in
  let rewards := imap (fun i coins => (blocks_per_year * N.of_nat (S i), from_coins coins)) [151; 113; 85; 64; 48; 36; 27; 20; 15; 0] in
  Ok (EmissionTable (from_coins 400000000) (from_coins 202) (bt_collect rewards)).

(** *** Text form *)
(** emission_schedule.rs 175-183 with coin_unit.rs 75-79 *)
Definition show_coins (a : amount) : res parse_err text := into_fixedpoint_str a 11.
Definition show_table (t : emission_table) : res parse_err text :=
  let? supply := show_coins (et_supply t) in
  let? subsidy := show_coins (et_subsidy t) in
  rfold (fun acc '(ht, coin) => let? c := show_coins coin in Ok (acc ++ ","%char :: digits ht ++ ":"%char :: "+"%char :: c))
        (et_periods t) (supply ++ "+"%char :: subsidy).

(** [str::split(',')]: always at least one part *)
Fixpoint split_on (sep : ascii) (s : text) : list text :=
  match s with
  | [] => [[]]
  | c :: s' => if c =?a sep then [] :: split_on sep s'
               else match split_on sep s' with p :: ps => (c :: p) :: ps | [] => [[c]] end
  end.
(** [str::split_once], for a separator of one and of two characters *)
Fixpoint split_once1 (sep : ascii) (s : text) : option (text * text) :=
  match s with
  | [] => None
  | c :: s' => if c =?a sep then Some ([], s')
               else match split_once1 sep s' with Some (p, q) => Some (c :: p, q) | None => None end
  end.
Fixpoint split_once2 (c1 c2 : ascii) (s : text) : option (text * text) :=
  match s with
  | [] => None
  | c :: s' => match (if c =?a c1 then match s' with d :: s'' => if d =?a c2 then Some s'' else None | [] => None end else None) with
               | Some q => Some ([], q)
               | None => match split_once2 c1 c2 s' with Some (p, q) => Some (c :: p, q) | None => None end
               end
  end.
(** [str::trim], ASCII white space only *)
Definition trim_spaces (s : text) : text := rev (drop_spaces (rev (drop_spaces s))).
(** u64: FromStr: an optional plus sign and at least one digit *)
Definition parse_u64 (s : text) : option N :=
  let ds := match s with c :: s' => if c =?a "+"%char then s' else s | [] => [] end in
  match ds with
  | [] => None
  | _ => if forallb is_digit ds then match parse_digits 0 ds with Some v => if v <=? U64_MAX then Some v else None | None => None end
         else None
  end.
(** emission_schedule.rs 186-197 *)
Inductive table_err := TENoSubsidy (n : nat) | TEInitialSupply | TESubsidy (n : nat) | TEBlockHeight (n : nat).
(** coin_unit.rs 88-95 *)
Definition parse_coins (s : text) (e : table_err) : res table_err amount := rmap_err (fun _ => e) (from_fixedpoint_str s 11).
(** emission_schedule.rs 256-264: collecting into a [Result<BTreeMap, _>] stops at the first error *)
Fixpoint parse_periods (n : nat) (parts : list text) (acc : list (N * amount)) : res table_err (list (N * amount)) :=
  match parts with
  | [] => Ok acc
  | s :: rest =>
      let? (ht, coin) := ok_or (split_once2 ":"%char "+"%char (trim_spaces s)) (TENoSubsidy n) in
      let? ht := ok_or (parse_u64 ht) (TEBlockHeight n) in
      let? coin := parse_coins coin (TESubsidy n) in
      parse_periods (S n) rest (bt_insert ht coin acc)
  end.
(** emission_schedule.rs 244-271 *)
Definition parse_table (s : text) : res table_err emission_table :=
  match split_on ","%char s with
  | [] => Panic (* cannot happen *)
  | first :: parts =>
      let? (supply, subsidy) := ok_or (split_once1 "+"%char (trim_spaces first)) (TENoSubsidy 0) in
      let? supply := parse_coins (trim_spaces supply) TEInitialSupply in
      let? subsidy := parse_coins subsidy (TESubsidy 0) in
      let? periods := parse_periods 1 parts [] in
      Ok (EmissionTable supply subsidy periods)
  end.

(** ** Network upgrades *)
Section Upgrades.
  Context {T : Type} (tle : relation T) `{!RelDecision tle}.
  (** derived [Ord] of pairs: by height, then by version *)
  Definition upgrade_le (x y : N * T) : Prop := x.1 < y.1 \/ x.1 = y.1 /\ tle x.2 y.2.
  Global Instance upgrade_le_dec : RelDecision upgrade_le.
  Proof. intros x y. unfold upgrade_le. apply _. Defined.
  Inductive upgrades_err := NoUpgrades | FirstUpgradeNotAtGenesis.
  (** netupgrade.rs 32-41: [sort_unstable] on a total order gives the sorted permutation *)
  Definition initialize (ups : list (N * T)) : res upgrades_err (list (N * T)) :=
    let sorted := merge_sort upgrade_le ups in
    match sorted with
    | (h, _) :: _ => if h =? 0 then Ok sorted else Err FirstUpgradeNotAtGenesis
    | [] => Err NoUpgrades
    end.
  (** netupgrade.rs 66-72 *)
  Definition version_at_height (ups : list (N * T)) (height : N) : res unit (N * T) :=
    expect (List.find (fun u => u.1 <=? height) (rev ups)).
  (** netupgrade.rs 51-64 *)
  Fixpoint height_range (same : T -> T -> bool) (ups : list (N * T)) (version : T) : option (N * N) :=
    match ups with
    | [] => None
    | (start, v) :: rest => if same v version then Some (start, match rest with (e, _) :: _ => e | [] => U64_MAX end)
                            else height_range same rest version
    end.
End Upgrades.
Arguments initialize {T} tle {_} ups.
Arguments upgrade_le {T} tle x y.

(** consensus_upgrade.rs 31-64; the chain configuration of proof of stake is opaque here *)
Inductive consensus_upgrade (C : Type) := UpPoW (difficulty : N) | UpPoS (difficulty : option N) (config : C) | UpIgnore.
Inductive required_consensus (C : Type) :=
  PoWOngoing | PoWThreshold (difficulty : N) | PoSOngoing (config : C) | PoSThreshold (difficulty : option N) (config : C) | AnyConsensus.
Arguments UpPoW {C}. Arguments UpPoS {C}. Arguments UpIgnore {C}.
Arguments PoWOngoing {C}. Arguments PoWThreshold {C}. Arguments PoSOngoing {C}. Arguments PoSThreshold {C}. Arguments AnyConsensus {C}.
(** consensus_upgrade.rs 135-165 *)
Definition consensus_status {C} (ups : list (N * consensus_upgrade C)) (height : N) : res unit (required_consensus C) :=
  let? (last_height, up) := version_at_height ups height in
  match up with
  | UpPoW d => if last_height <? height then Ok PoWOngoing else if last_height =? height then Ok (PoWThreshold d) else Panic
  | UpPoS d c => if last_height <? height then Ok (PoSOngoing c) else if last_height =? height then Ok (PoSThreshold d c) else Panic
  | UpIgnore => Ok AnyConsensus
  end.
