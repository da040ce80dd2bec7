(** Model of the pool of transactions whose parents are not known yet and of the queue in which they are looked at again.
    mempool/src/pool/orphans/mod.rs, mempool/src/pool/work_queue/mod.rs, mempool/src/pool/mod.rs.
    What the pool of valid transactions says of a transaction is given. Random choices are given. *)
From Verif Require Import Base.
Local Open Scope N_scope.

(** Functions that do not fail, but may panic *)
Inductive never : Set := .
Notation total := (res never).

(** Random choices in one call: a number below n (the number is reduced to below n), and an order of a list *)
Record chance (P : Type) := Chance { number : nat -> nat; order : list P -> list P }.
Arguments Chance {P}.
Arguments number {P}.
Arguments order {P}.
Definition draw {P} (r : chance P) (n : nat) : nat := Nat.modulo (number r n) n.

Section Queue.
  (** Peers and units of work *)
  Context {P W : Type} `{Countable P} `{EqDecision W} (less : W -> W -> bool).

  (** work_queue/mod.rs 22-36: a sorted set *)
  Fixpoint put (w : W) (l : list W) : list W :=
    match l with
    | [] => [w]
    | x :: l' => if decide (w = x) then l else if less w x then w :: l else x :: put w l'
    end.
  (** work_queue/mod.rs 43-51. The handler may change a state of its own *)
  Fixpoint pick_of {S R} (handler : W -> S -> total (S * option R)) (l : list W) (s : S) : total (S * list W * option R) :=
    match l with
    | [] => Ok (s, [], None)
    | w :: l => let? (s, r) := handler w s in match r with Some r => Ok (s, l, Some r) | None => pick_of handler l s end
    end.

  (** work_queue/mod.rs 115-126. The last of the scheduled peers comes first *)
  Record queue := Queue { work : gmap P (list W); scheduled : list P }.
  Definition no_work : queue := Queue ∅ [].
  (** 138-140 *)
  Definition is_empty (q : queue) : bool := match scheduled q with [] => true | _ => false end.
  (** 155-158: swapping the first with the one at this position *)
  Definition swap_first (k : nat) (p : P) (l : list P) : list P :=
    match k with O => p :: l | S k => match l !! k with Some x => x :: <[k := p]> l | None => p :: l end end.
  (** 143-166 *)
  Definition insert (r : chance P) (p : P) (w : W) (q : queue) : queue :=
    match work q !! p with
    | Some l => Queue (<[p := put w l]> (work q)) (scheduled q)
    | None => Queue (<[p := [w]]> (work q)) (swap_first (draw r (S (length (scheduled q)))) p (scheduled q))
    end.
  (** 210-225 *)
  Definition advance_round (r : chance P) (q : queue) : queue :=
    match scheduled q with
    | [] => let m := filter (fun x => x.2 ≠ []) (work q) in Queue m (order r (map_to_list m).*1)
    | _ => q
    end.
  (** 182-203. The number of peers looked at is bounded by that of the scheduled ones and one more; that it suffices is proved. Tells also
      which peer was served *)
  Fixpoint pick {S R} (r : chance P) (handler : P -> W -> S -> total (S * option R)) (fuel : nat) (q : queue) (s : S) : total (S * queue * option (P * option R)) :=
    match fuel, scheduled q with
    | Datatypes.S fuel, p :: l =>
        match work q !! p with
        | None => pick r handler fuel (advance_round r (Queue (work q) l)) s
        | Some [] => Panic
        | Some ws =>
            let? (s, ws, x) := pick_of (handler p) ws s in
            Ok (s, advance_round r (Queue (<[p := ws]> (work q)) l), Some (p, x))
        end
    | _, _ => Ok (s, q, None)
    end.
  Definition pick_fuel (q : queue) : nat := S (S (length (scheduled q))).
  (** 206-208 *)
  Definition remove_peer (p : P) (q : queue) : queue := Queue (delete p (work q)) (scheduled q).
End Queue.
Arguments queue P W {_ _}.

Section Orphans.
  (** Ids of transactions, peers, and what a transaction may need besides outputs of others (dependency.rs 54-62) *)
  Context {T P D : Type} `{Countable T} `{Countable P} `{Countable D} (less : T -> T -> bool).
  Inductive dep := TxOutput (id : T) (index : N) | Other (d : D).
  Global Instance dep_eqdec : EqDecision dep.
  Proof. solve_decision. Defined.
  Global Instance dep_countable : Countable dep.
  Proof.
    apply (inj_countable' (fun d => match d with TxOutput id i => inl (id, i) | Other d => inr d end) (fun x => match x with inl (id, i) => TxOutput id i | inr d => Other d end)).
    by intros [].
  Defined.

  (** pool/entry.rs: a transaction, when it came, from where, its size, what it requires and what it provides besides its outputs *)
  Record entry (O : Type) := Entry { eid : T; created : N; origin : O; size : N; needs : list dep; provides : list D }.
  Arguments Entry {O}.
  Arguments eid {O}.
  Arguments created {O}.
  Arguments origin {O}.
  Arguments size {O}.
  Arguments needs {O}.
  Arguments provides {O}.
  Definition set_origin {O O'} (o : O') (e : entry O) : entry O' := Entry (eid e) (created e) o (size e) (needs e) (provides e).

  (** orphans/mod.rs 32-40 and config.rs 120-126 *)
  Definition HARD_LIMIT : N := 50000.
  Definition CAPACITY : N := 100.
  Definition EXPIRY : N := 50 * 10 ^ 9.
  Definition MAX_SIZE : N := 20000.
  Definition MAX_GAP : N := 2.

  (** orphans/mod.rs 64-77 and 118-127; times in nanoseconds *)
  Record pool := Pool { txs : list (entry P); by_id : gmap T nat; by_time : gset (N * nat); by_dep : gset (dep * nat); by_origin : gset (P * nat) }.
  Definition no_orphans : pool := Pool [] ∅ ∅ ∅ ∅.
  Definition set_list (l : list (entry P)) (p : pool) : pool := Pool l (by_id p) (by_time p) (by_dep p) (by_origin p).
  Definition assert (b : bool) : total unit := if b then Ok tt else Panic.

  (** 89-100 *)
  Definition maps_insert (e : entry P) (i : nat) (p : pool) : total pool :=
    assert (negb (bool_decide (is_Some (by_id p !! eid e)))) ;?
    assert (negb (bool_decide ((created e, i) ∈ by_time p))) ;?
    assert (negb (bool_decide ((origin e, i) ∈ by_origin p))) ;?
    Ok (Pool (txs p) (<[eid e := i]> (by_id p)) ({[(created e, i)]} ∪ by_time p) (list_to_set ((., i) <$> needs e) ∪ by_dep p) ({[(origin e, i)]} ∪ by_origin p)).
  (** 102-114 *)
  Definition maps_remove (e : entry P) (p : pool) : total pool :=
    let? i := expect (by_id p !! eid e) in
    assert (bool_decide ((created e, i) ∈ by_time p)) ;?
    assert (bool_decide ((origin e, i) ∈ by_origin p)) ;?
    Ok (Pool (txs p) (delete (eid e) (by_id p)) (by_time p ∖ {[(created e, i)]}) (by_dep p ∖ list_to_set ((., i) <$> needs e)) (by_origin p ∖ {[(origin e, i)]})).

  (** 141-155 *)
  Definition get_at (i : nat) (p : pool) : total (entry P) := expect (txs p !! i).
  Definition get (id : T) (p : pool) : total (option (entry P)) :=
    match by_id p !! id with Some i => let? e := get_at i p in Ok (Some e) | None => Ok None end.
  Definition contains (id : T) (p : pool) : bool := bool_decide (is_Some (by_id p !! id)).
  (** 162-190. The range of indices is all of u32. The order, by dependency, is left open *)
  Definition needs_of (id : T) (provided : list D) (d : dep) : bool :=
    match d with TxOutput id' _ => bool_decide (id' = id) | Other d => bool_decide (d ∈ provided) end.
  Definition children_of {O} (e : entry O) (p : pool) : total (list (entry P)) :=
    rmapM (fun x => get_at x.2 p) (filter (fun x => needs_of (eid e) (provides e) x.1 = true) (elements (by_dep p))).
  (** 193-195, 289-291 *)
  Definition len (p : pool) : nat := length (txs p).
  Definition all_ids (p : pool) : list T := eid <$> txs p.

  (** Vec::swap_remove *)
  Definition swap_remove {A} (i : nat) (l : list A) : list A :=
    match last l with
    | None => l
    | Some x => if decide (S i = length l)%nat then removelast l else <[i := x]> (removelast l)
    end.
  (** 229-241 *)
  Definition remove_at (i : nat) (p : pool) : total (pool * entry P) :=
    let? e := get_at i p in
    let? p := maps_remove e (set_list (swap_remove i (txs p)) p) in
    match txs p !! i with
    | Some moved => let? p := maps_remove moved p in let? p := maps_insert moved i p in Ok (p, e)
    | None => Ok (p, e)
    end.

  (** The least of a set of pairs *)
  Definition earlier (x y : N * nat) : bool := (x.1 <? y.1) || ((x.1 =? y.1) && (x.2 <=? y.2)%nat).
  Definition first_of (l : list (N * nat)) : option (N * nat) :=
    foldr (fun x m => match m with Some y => Some (if earlier x y then x else y) | None => Some x end) None l.
  (** 251-266 *)
  Fixpoint remove_expired (fuel : nat) (expiry : N) (p : pool) : total pool :=
    match fuel, first_of (elements (by_time p)) with
    | S fuel, Some (t, i) => if t <? expiry then let? (p, _) := remove_at i p in remove_expired fuel expiry p else Ok p
    | _, _ => Ok p
    end.
  (** 269-283 *)
  Definition new_index (n : nat) : total nat := assert (N.of_nat n <? HARD_LIMIT) ;? Ok n.
  Fixpoint enforce_max_size (fuel : nat) (r : chance P) (mx : N) (p : pool) : total pool :=
    match fuel with
    | S fuel =>
        if mx <? N.of_nat (len p) then let? i := new_index (draw r (len p)) in let? (p, _) := remove_at i p in enforce_max_size fuel r mx p
        else Ok p
    | O => Ok p
    end.
  (** 244-248 *)
  Definition enforce_limits (r : chance P) (now : N) (p : pool) : total pool :=
    let? p := remove_expired (len p) (now - EXPIRY) p in enforce_max_size (len p) r CAPACITY p.

  Inductive orphan_err := Full | NotSupportedForLocalOrigin | TooLarge | NonceGapTooLarge | ReplacementRefused | Invalid.
  Inductive status := InMempool | InMempoolDuplicate | InOrphanPool | InOrphanPoolDuplicate.
  (** 198-213 *)
  Definition insert_orphan (r : chance P) (e : entry P) (p : pool) : total (pool * res orphan_err status) :=
    if contains (eid e) p then Ok (p, Ok InOrphanPoolDuplicate)
    else
      let? i := new_index (len p) in
      let? p := maps_insert e i p in
      let p := set_list (txs p ++ [e]) p in
      let? p' := enforce_max_size (len p) r HARD_LIMIT p in
      Ok (p', if (len p' <? len p)%nat && negb (contains (eid e) p') then Err Full else Ok InOrphanPool).
  (** 216-227 *)
  Definition insert_and_enforce (r : chance P) (e : entry P) (now : N) (p : pool) : total (pool * res orphan_err status) :=
    let? (p, a) := insert_orphan r e p in
    match a with
    | Ok st => let? p := enforce_limits r now p in Ok (p, if contains (eid e) p then Ok st else Err Full)
    | a => Ok (p, a)
    end.
  (** 278-297 *)
  Definition pick_by_origin (o : P) (p : pool) : option nat :=
    match filter (fun x => x.1 = o) (elements (by_origin p)) with x :: _ => Some x.2 | [] => None end.
  Fixpoint remove_by_origin (fuel : nat) (o : P) (p : pool) : total pool :=
    match fuel, pick_by_origin o p with
    | S fuel, Some i => let? (p, _) := remove_at i p in remove_by_origin fuel o p
    | _, _ => Ok p
    end.
  (** 322-343 *)
  Definition is_ready (e : entry P) (p : pool) : bool :=
    negb (existsb (fun d => match d with TxOutput id _ => contains id p | Other _ => false end) (needs e)).

  (** ** The mempool around it (pool/mod.rs 95-101) *)
  Record mempool := Mempool { orphans : pool; todo : queue P T }.
  Definition start : mempool := Mempool no_orphans no_work.
  (** What the pool of valid transactions says. A refused one may be an orphan: because of a missing output, or of a gap in the nonces
      (orphans/detect.rs 19-22). Whether it may replace the transactions it conflicts with is given too *)
  Inductive orphan_type := MissingUtxo | AccountNonceGap (gap : N).
  Inductive outcome := Added | Duplicate | Rejected (orphan : option orphan_type) (replaces : bool).

  (** 695-703 *)
  Definition enqueue_children {O} (r : chance P) (e : entry O) (s : mempool) : total mempool :=
    let? l := children_of e (orphans s) in
    Ok (Mempool (orphans s) (foldl (fun q c => insert less r (origin c) (eid c) q) (todo s) l)).
  (** 717-750 *)
  Definition orphan_policy (e : entry (option P)) (ot : orphan_type) (replaces : bool) : res orphan_err (entry P) :=
    match origin e with
    | None => Err NotSupportedForLocalOrigin
    | Some o =>
        ensure (size e <=? MAX_SIZE) TooLarge ;?
        ensure (match ot with AccountNonceGap gap => gap <=? MAX_GAP | MissingUtxo => true end) NonceGapTooLarge ;?
        ensure replaces ReplacementRefused ;?
        Ok (set_origin o e)
    end.
  (** 617-692 and 705-715 *)
  Definition finalize (r : chance P) (now : N) (e : entry (option P)) (out : outcome) (s : mempool) : total (mempool * res orphan_err status) :=
    match out with
    | Added => let? s := enqueue_children r e s in Ok (s, Ok InMempool)
    | Duplicate => Ok (s, Ok InMempoolDuplicate)
    | Rejected None _ => Ok (s, Err Invalid)
    | Rejected (Some ot) replaces =>
        match orphan_policy e ot replaces with
        | Ok e => let? (p, a) := insert_and_enforce r e now (orphans s) in Ok (Mempool p (todo s), a)
        | Err x => Ok (s, Err x)
        | Panic => Panic
        end
    end.
  (** 394-430, the choice: a transaction that is taken out to be looked at again, or one that is not ready *)
  Inductive considered := Again (e : entry P) | NotReady (id : T).
  Definition consider (_ : P) (id : T) (p : pool) : total (pool * option considered) :=
    match by_id p !! id with
    | None => Ok (p, None)
    | Some i =>
        let? e := get_at i p in
        if is_ready e p then let? (p, e) := remove_at i p in Ok (p, Some (Again e)) else Ok (p, Some (NotReady id))
    end.
  (** 385-443. Tells which peer was served and what was considered again *)
  Definition perform_work_unit (r : chance P) (now : N) (valid : entry P -> outcome) (s : mempool) : total (mempool * option (P * option considered)) :=
    let? (p, q, x) := pick r consider (pick_fuel (todo s)) (todo s) (orphans s) in
    let s := Mempool p q in
    match x with
    | Some (_, Some (Again e)) => let? (s, _) := finalize r now (set_origin (Some (origin e)) e) (valid e) s in Ok (s, x)
    | _ => Ok (s, x)
    end.
  (** 238-247 *)
  Definition on_peer_disconnected (o : P) (s : mempool) : total mempool :=
    let? p := remove_by_origin (len (orphans s)) o (orphans s) in Ok (Mempool p (remove_peer o (todo s))).

  (** What happens: a transaction is submitted (also again after a reorganisation), a unit of work is done, a peer disconnects *)
  Inductive event := Submit (r : chance P) (now : N) (e : entry (option P)) (out : outcome) | Work (r : chance P) (now : N) (valid : entry P -> outcome) | Disconnect (o : P).
  Inductive answer := Answer (a : res orphan_err status) | Served (x : option (P * option considered)) | Done.
  Definition step (ev : event) (s : mempool) : total (mempool * answer) :=
    match ev with
    | Submit r now e out => let? (s, a) := finalize r now e out s in Ok (s, Answer a)
    | Work r now valid => let? (s, x) := perform_work_unit r now valid s in Ok (s, Served x)
    | Disconnect o => let? s := on_peer_disconnected o s in Ok (s, Done)
    end.
End Orphans.
Arguments Entry {T D O}.
Arguments eid {T D O}.
Arguments created {T D O}.
Arguments origin {T D O}.
Arguments size {T D O}.
Arguments needs {T D O}.
Arguments provides {T D O}.
Arguments entry T D O : clear implicits.
Arguments pool T P D {_ _ _ _ _ _}.
Arguments mempool T P D {_ _ _ _ _ _}.
Arguments event T P D : clear implicits.
Arguments answer T P D : clear implicits.
