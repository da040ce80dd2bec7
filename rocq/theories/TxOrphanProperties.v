(** C84, C85: transactions whose parents are missing, and the work on them. *)
From Verif Require Import Base TxOrphanModel TxOrphanSpec TxOrphanProofs.
Local Open Scope N_scope.

Section Properties.
  Context {T P D : Type} `{Countable T} `{Countable P} `{Countable D} (less : T -> T -> bool).
  Notation entry := (entry T D).
  Notation mempool := (mempool T P D).
  Notation event := (event T P D).
  Notation answer := (answer T P D).

  (** Whatever was submitted, worked on and disconnected before, nothing panics. *)
  Theorem C84_never_panics (tr : list (event * answer)) (s : mempool) ev : history less tr s -> proper tr ev -> ∃ s' a, step less ev s = Ok (s', a).
  Proof. intros R Pr. destruct (step_inv less tr ev s (history_inv less tr s R) Pr) as (s' & a & E & _). by exists s', a. Qed.

  (** There are never more than 100 orphans, no two with the same id, none of more than 20000 bytes, none from a peer that has left, and each is
      found under its id. *)
  Theorem C84_kept (tr : list (event * answer)) (s : mempool) : history less tr s ->
    (length (kept s) <= 100)%nat ∧ NoDup (eid <$> kept s) ∧ (∀ e, e ∈ kept s -> size e <= 20000 ∧ ¬ gone tr (origin e)) ∧
    (∀ id, contains id (orphans s) = true <-> ∃ e, e ∈ kept s ∧ eid e = id) ∧ (∀ id e, get id (orphans s) = Ok (Some e) <-> e ∈ kept s ∧ eid e = id).
  Proof.
    intros R. destruct (history_inv less tr s R) as [[B L A] _ _]. unfold kept. split; [unfold CAPACITY, len in L; lia|]. split; [apply B|]. split; [done|].
    split; [intros id; by apply contains_spec|]. intros id e. unfold get, get_at. destruct (by_id (orphans s) !! id) as [i|] eqn:E.
    - destruct (by_id_entry _ _ _ B E) as (e' & Ee & <-). rewrite Ee. cbn. split; [intros [= <-]; split; [by apply elem_of_list_lookup_2 in Ee|done]|].
      intros [I Q]. do 2 f_equal. apply elem_of_list_lookup_2 in Ee. by apply (same_id (orphans s)).
    - split; [done|]. intros [I Q]. assert (contains id (orphans s) = true) as C by (apply contains_spec; [done|by exists e]). unfold contains in C. rewrite E in C.
      apply bool_decide_eq_true in C. by destruct C.
  Qed.

  (** A transaction that may be an orphan is submitted. It is kept only if it comes from a peer, is small enough, close enough to the account's
      nonce and may replace what it conflicts with; otherwise nothing changes. If it is kept, nobody else is lost but those that are too old and,
      if the pool is full, others; and none that is too old stays. The queue of work stays the same. *)
  Theorem C84_orphan_submitted (tr : list (event * answer)) (s : mempool) r now e ot rp s' a : history less tr s -> proper tr (Submit r now e (Rejected (Some ot) rp)) ->
    step less (Submit r now e (Rejected (Some ot) rp)) s = Ok (s', a) ->
    todo s' = todo s ∧
    ((∃ x, a = Answer (Err x) ∧ x ≠ Full ∧ s' = s) ∨
     (∃ o, let new := set_origin o e in let known := ∃ e', e' ∈ kept s ∧ eid e' = eid e in let still := ∃ e', e' ∈ kept s' ∧ eid e' = eid e in
        origin e = Some o ∧ size e <= 20000 ∧ (∀ g, ot = AccountNonceGap g -> g <= 2) ∧ rp = true ∧
        ((a = Answer (Ok InOrphanPool) ∧ ¬ known ∧ new ∈ kept s') ∨ (a = Answer (Ok InOrphanPoolDuplicate) ∧ known ∧ still) ∨ (a = Answer (Err Full) ∧ ¬ still)) ∧
        (∀ e', e' ∈ kept s' -> (e' ∈ kept s ∨ (e' = new ∧ ¬ known)) ∧ ¬ expired now e') ∧
        (∀ e', e' ∈ kept s -> ¬ expired now e' -> e' ∈ kept s' ∨ length (kept s') = 100%nat))).
  Proof.
    intros R [Sh NG] St. destruct (history_inv less tr s R) as [[B L A] Q Se]. cbn in St.
    destruct (orphan_policy_spec e ot rp) as [(o & Ep & Eo & Sz & Gp & Rp)|(x & Ep & Nx)]; rewrite Ep in St; [|cbn in St; injection St as <- <-; split; [done|]; left; by exists x].
    destruct (insert_and_enforce_spec r (set_origin o e) now (orphans s) B L) as (p' & rm1 & rm2 & E & B' & Pm & L' & X1 & X2 & X3). rewrite E in St. cbn in St. injection St as <- <-.
    split; [done|]. right. exists o. cbn zeta. split; [done|]. split; [done|]. split; [done|]. split; [done|]. unfold kept. cbn [orphans].
    pose proof (contains_spec (eid (set_origin o e)) (orphans s) B) as C1. pose proof (contains_spec (eid (set_origin o e)) p' B') as C2.
    change (eid (set_origin o e)) with (eid e) in *.
    assert (∀ e', e' ∈ txs p' -> e' ∈ txs (orphans s) ∨ (e' = set_origin o e ∧ ¬ ∃ e', e' ∈ txs (orphans s) ∧ eid e' = eid e)) as Sub.
    { intros e' I. assert (e' ∈ rm1 ++ rm2 ++ txs p') as J by (apply elem_of_app; right; apply elem_of_app; by right). rewrite <- Pm in J.
      destruct (contains (eid e) (orphans s)); [by left|]. apply elem_of_app in J as [J|J]; [by left|]. apply elem_of_list_singleton in J. right. split; [done|]. intros X. by apply C1 in X. }
    split; [|split].
    - destruct (contains (eid e) p') eqn:E2.
      + destruct (proj1 C2 eq_refl) as (e2 & I2 & Q2). destruct (contains (eid e) (orphans s)) eqn:E1.
        * right. left. split; [done|]. split; [by apply C1|by exists e2].
        * left. assert (¬ ∃ e', e' ∈ txs (orphans s) ∧ eid e' = eid e) as Nk by (intros X; by apply C1 in X). split; [done|]. split; [done|].
          destruct (Sub e2 I2) as [J|[-> _]]; [|done]. destruct Nk. by exists e2.
      + right. right. split; [done|]. intros X. by apply C2 in X.
    - intros e' I. split; [by apply Sub|]. by apply X3.
    - intros e' I Ne. assert (e' ∈ rm1 ++ rm2 ++ txs p') as J.
      { rewrite <- Pm. destruct (contains (eid e) (orphans s)); [done|]. apply elem_of_app. by left. }
      apply elem_of_app in J as [J|J]; [by destruct Ne; apply X1|]. apply elem_of_app in J as [J|J]; [|by left]. destruct X2 as [->|X2]; [by apply elem_of_nil in J|].
      right. unfold len, CAPACITY in X2. lia.
  Qed.
  (** With room for it, and if it is new, a fitting orphan is kept, besides all the others that are not too old. *)
  Theorem C84_room_for_orphan (tr : list (event * answer)) (s : mempool) r now e o ot : history less tr s -> shuffles r -> ¬ gone tr o ->
    origin e = Some o -> size e <= 20000 -> (∀ g, ot = AccountNonceGap g -> g <= 2) -> ¬ expired now e -> (∀ e', e' ∈ kept s -> eid e' ≠ eid e) -> (length (kept s) < 100)%nat ->
    ∃ s', step less (Submit r now e (Rejected (Some ot) true)) s = Ok (s', Answer (Ok InOrphanPool)) ∧ todo s' = todo s ∧
      kept s' ≡ₚ set_origin o e :: filter (fun e' => now - EXPIRY <= created e') (kept s).
  Proof.
    intros R Sh NG Eo Sz Gp Ne Nk Lt. destruct (history_inv less tr s R) as [[B L A] Q Se]. cbn.
    assert (orphan_policy e ot true = Ok (set_origin o e)) as ->.
    { unfold orphan_policy. rewrite Eo. unfold ensure. rewrite (proj2 (N.leb_le (size e) MAX_SIZE)) by done. cbn. destruct ot as [|g]; [done|]. by rewrite (proj2 (N.leb_le g MAX_GAP)) by by apply Gp. }
    destruct (insert_and_enforce_spec r (set_origin o e) now (orphans s) B L) as (p' & rm1 & rm2 & E & B' & Pm & L' & X1 & X2 & X3). rewrite E. cbn [rbind].
    pose proof (contains_spec (eid (set_origin o e)) (orphans s) B) as C1. pose proof (contains_spec (eid (set_origin o e)) p' B') as C2.
    assert (contains (eid (set_origin o e)) (orphans s) = false) as E1.
    { destruct (contains (eid (set_origin o e)) (orphans s)); [|done]. destruct (proj1 C1 eq_refl) as (e' & I & Q'). by destruct (Nk e' I). }
    rewrite E1 in Pm |- *. unfold kept in *.
    assert (rm2 = []) as ->.
    { destruct X2 as [->|X2]; [done|]. apply Permutation_length in Pm. rewrite !app_length in Pm. unfold len, CAPACITY in X2. cbn in Pm. destruct rm2; [done|]. cbn in Pm. lia. }
    assert (set_origin o e ∈ txs p') as In.
    { assert (set_origin o e ∈ rm1 ++ [] ++ txs p') as J by (rewrite <- Pm; apply elem_of_app; right; constructor). apply elem_of_app in J as [J|J]; [|done]. by destruct Ne; apply X1 in J. }
    assert (contains (eid (set_origin o e)) p' = true) as -> by (apply C2; by exists (set_origin o e)).
    eexists. split; [done|]. split; [done|]. cbn [orphans].
    assert (filter (fun e' => now - EXPIRY <= created e') (txs (orphans s) ++ [set_origin o e]) ≡ₚ txs p') as F.
    { rewrite Pm. cbn. rewrite filter_app. assert (∀ l : list (entry P), (∀ x, x ∈ l -> expired now x) -> filter (fun e' => now - EXPIRY <= created e') l = []) as F1.
      { clear. intros l. induction l as [|x l IH]; intros F; [done|]. rewrite filter_cons_False; [apply IH; intros y I; apply F; by constructor|].
        specialize (F x ltac:(constructor)). unfold expired in F. lia. }
      assert (∀ l : list (entry P), (∀ x, x ∈ l -> ¬ expired now x) -> filter (fun e' => now - EXPIRY <= created e') l = l) as F2.
      { clear. intros l. induction l as [|x l IH]; intros F; [done|]. rewrite filter_cons_True; [f_equal; apply IH; intros y I; apply F; by constructor|].
        specialize (F x ltac:(constructor)). unfold expired in F. lia. }
      by rewrite F1, F2. }
    rewrite <- F, filter_app. rewrite (filter_cons_True _ (set_origin o e)); [|change (created (set_origin o e)) with (created e); unfold expired in Ne; lia]. cbn. by rewrite Permutation_app_comm.
  Qed.

  (** A transaction is accepted. Exactly the orphans that spend its outputs or need what it provides are queued, each for the peer it came from;
      none is lost. A duplicate and a refused one change nothing. *)
  Theorem C84_accepted (tr : list (event * answer)) (s : mempool) r now e s' a : history less tr s -> step less (Submit r now e Added) s = Ok (s', a) ->
    a = Answer (Ok InMempool) ∧ kept s' = kept s ∧ ∀ o id, queued s' o id <-> queued s o id ∨ ∃ c, c ∈ kept s ∧ child_of e c ∧ origin c = o ∧ eid c = id.
  Proof.
    intros R St. pose proof (history_inv less tr s R) as M. cbn in St. destruct (enqueue_spec less _ r e s M) as (s1 & E & Eo & _ & Hs & _). rewrite E in St. cbn in St. injection St as <- <-.
    split; [done|]. split; [unfold kept; by rewrite Eo|]. done.
  Qed.
  Theorem C84_not_accepted (s : mempool) r now e out s' a : out = Duplicate ∨ (∃ rp, out = Rejected None rp) -> step less (Submit r now e out) s = Ok (s', a) ->
    s' = s ∧ a = Answer (match out with Duplicate => Ok InMempoolDuplicate | _ => Err Invalid end).
  Proof. intros [->|[rp ->]] St; cbn in St; by injection St as <- <-. Qed.

  (** When a peer leaves, exactly its orphans go, and exactly its part of the queue. *)
  Theorem C84_disconnected (tr : list (event * answer)) (s : mempool) o s' a : history less tr s -> step less (Disconnect o) s = Ok (s', a) ->
    kept s' ≡ₚ filter (fun e => origin e ≠ o) (kept s) ∧ ∀ p id, queued s' p id <-> p ≠ o ∧ queued s p id.
  Proof.
    intros R St. pose proof (history_inv less tr s R) as M. cbn in St. destruct (disconnect_spec _ o s M) as (s1 & E & _ & Pm & Hs & _). rewrite E in St. injection St as <- <-. done.
  Qed.

  (** A unit of work looks at an orphan queued for the peer that is served. An orphan none of whose parents is an orphan is taken out and submitted
      again; one with such a parent stays where it is. If there is none, no transaction queued for the peer is an orphan any more. *)
  Theorem C84_work (tr : list (event * answer)) (s : mempool) r now valid s' p y : history less tr s -> shuffles r ->
    step less (Work r now valid) s = Ok (s', Served (Some (p, y))) ->
    let ready e := ∀ id i, TxOutput id i ∈ needs e -> ∀ e', e' ∈ kept s -> eid e' ≠ id in
    match y with
    | Some (Again e) => queued s p (eid e) ∧ e ∈ kept s ∧ ready e ∧
        ∃ s1 a, kept s ≡ₚ e :: kept s1 ∧ (∀ o id, queued s1 o id -> queued s o id) ∧ step less (Submit r now (set_origin (Some (origin e)) e) (valid e)) s1 = Ok (s', Answer a)
    | Some (NotReady id) => queued s p id ∧ kept s' = kept s ∧ ∃ e, e ∈ kept s ∧ eid e = id ∧ ¬ ready e
    | None => kept s' = kept s ∧ ∀ id, queued s p id -> ∀ e, e ∈ kept s -> eid e ≠ id
    end ∧ ∀ o id, o ≠ p -> queued s o id -> queued s' o id.
  Proof.
    intros R Sh St. pose proof (history_inv less tr s R) as M. cbn in St. destruct (work_spec less _ r now valid s M Sh) as (s1 & x & E & M1 & X). rewrite E in St. injection St as <- ->.
    destruct X as (q1 & p1 & l & l' & Hl & Nl & Ep & Hq & M2 & _ & _ & Fin). pose proof (p_books _ _ (m_pool _ _ M)) as B.
    destruct (pick_of_consider p l (orphans s) B) as (pa & la & ya & Ea & _ & Xa). rewrite Ea in Ep. injection Ep as -> -> ->.
    assert (∀ o w, o ≠ p -> has (todo s) o w -> has q1 o w) as Ho by (intros o w No Hw; apply Hq; by right).
    destruct y as [[e|id]|]; unfold kept, queued.
    - destruct Xa as (pre & w & -> & Np & Ew & Ie & Rd & Pm). destruct Fin as [a Fin].
      destruct (finalize_spec less _ r now (set_origin (Some (origin e)) e) (valid e) (Mempool p1 q1) M2) as (s2 & a2 & E2 & _ & Hs & _); [intros o' [= <-]; by apply (p_all _ _ (m_pool _ _ M) e)|].
      rewrite E2 in Fin. injection Fin as -> _. split; [|intros o id No Hw; by apply Hs, Ho].
      split; [apply Hl; rewrite Ew; apply elem_of_app; right; constructor|]. split; [done|]. split; [by apply is_ready_spec|].
      exists (Mempool p1 q1), a2. split; [done|]. split; [|cbn; by rewrite E2]. intros o id Hw. apply Hq in Hw as [[-> I]|[_ Hw]]; [|done]. apply Hl. apply elem_of_app. right. by constructor.
    - destruct Xa as (pre & w & -> & Np & -> & -> & e & Ie & Ew & Rd). subst s1. split; [|done]. split; [apply Hl; apply elem_of_app; right; constructor|]. split; [done|].
      exists e. split; [done|]. split; [done|]. intros X. apply (is_ready_spec e (orphans s) B) in X. congruence.
    - destruct Xa as (-> & -> & Xa). subst s1. split; [|done]. split; [done|]. intros id Hw e I Q. apply Hl, Xa in Hw. assert (contains id (orphans s) = true); [|congruence].
      apply contains_spec; [done|]. by exists e.
  Qed.

  (** Whenever there is something to do for some peer, a unit of work serves a peer there is something to do for. *)
  Theorem C85_somebody_is_served (tr : list (event * answer)) (s : mempool) r now valid s' a o id : history less tr s -> shuffles r -> queued s o id ->
    step less (Work r now valid) s = Ok (s', a) -> ∃ p y id', a = Served (Some (p, y)) ∧ queued s p id'.
  Proof.
    intros R Sh Ho St. pose proof (history_inv less tr s R) as M. cbn in St. destruct (work_spec less _ r now valid s M Sh) as (s1 & x & E & M1 & X). rewrite E in St. injection St as <- <-.
    destruct x as [[p y]|]; [|destruct X as (_ & X & _); by destruct (X o id)]. destruct X as (q1 & p1 & l & l' & Hl & Nl & _). destruct l as [|w l]; [done|].
    exists p, y, w. split; [done|]. apply Hl. constructor.
  Qed.
  (** From when there is something to do for a peer until it is served or leaves, every other peer is served at most twice, whatever else happens. *)
  Theorem C85_fair (tr0 : list (event * answer)) (s0 : mempool) tr s o id p : history less tr0 s0 -> queued s0 o id -> run less s0 tr0 tr s ->
    ¬ gone tr o -> times_served o tr = 0%nat -> p ≠ o -> (times_served p tr <= 2)%nat.
  Proof.
    intros R Ho Ru Ng Ts Np. destruct (fair_inv less s0 tr0 tr s o Ru (history_inv less tr0 s0 R) (ex_intro _ id Ho) Ng Ts) as [_ F]. by apply F.
  Qed.
  (** What is queued stays queued until it is looked at for that peer, or dismissed then because it is no orphan any more, or the peer leaves. *)
  Theorem C85_not_forgotten (tr : list (event * answer)) (s : mempool) ev s' a o id : history less tr s -> proper tr ev -> step less ev s = Ok (s', a) -> queued s o id ->
    queued s' o id ∨ a = Served (Some (o, Some (NotReady id))) ∨ (∃ e, a = Served (Some (o, Some (Again e))) ∧ eid e = id) ∨
    ((∃ y, a = Served (Some (o, y))) ∧ ∀ e, e ∈ kept s -> eid e ≠ id) ∨ ev = Disconnect o.
  Proof.
    intros R Pr St Ho. destruct (not_forgotten less (gone tr) ev tr s s' a o id (history_inv less tr s R) Pr ltac:(done) St Ho) as [X|[(c & -> & [->|(e & -> & Q)])|[X|X]]].
    - by left.
    - right. by left.
    - right. right. left. by exists e.
    - by do 3 right; left.
    - by do 4 right.
  Qed.
  (** Doing one unit of work after another, there is none left in the end, whatever becomes of the transactions that are submitted again; *)
  Theorem C85_work_ends (tr0 : list (event * answer)) (s0 : mempool) (works : nat -> event) : history less tr0 s0 -> (∀ i, ∃ r now valid, works i = Work r now valid ∧ shuffles r) ->
    ∃ tr s, run less s0 tr0 tr s ∧ (∀ i x, tr !! i = Some x -> x.1 = works i) ∧ is_empty (todo s) = true ∧ ∀ o id, ¬ queued s o id.
  Proof.
    intros R F. destruct (ends less _ _ s0 tr0 (history_inv less tr0 s0 R) (Nat.le_refl _) (Nat.le_refl _) works F) as (tr & s & Ru & A & Em). exists tr, s.
    split; [done|]. split; [done|]. split; [done|]. intros o id (l & L & _). pose proof (run_inv less _ _ _ _ Ru (history_inv less tr0 s0 R)) as M.
    unfold is_empty in Em. destruct (scheduled (todo s)) eqn:Es; [|done]. by rewrite (m_settled _ _ M Es), lookup_empty in L.
  Qed.
  (** and whatever was queued has been looked at. *)
  Theorem C85_all_looked_at (tr0 : list (event * answer)) (s0 : mempool) (works : nat -> event) : history less tr0 s0 -> (∀ i, ∃ r now valid, works i = Work r now valid ∧ shuffles r) ->
    ∃ tr s, run less s0 tr0 tr s ∧ (∀ i x, tr !! i = Some x -> x.1 = works i) ∧
      ∀ o id, queued s0 o id -> ∃ tr1 s1 ev a tr2, tr = tr1 ++ (ev, a) :: tr2 ∧ run less s0 tr0 tr1 s1 ∧
        (a = Served (Some (o, Some (NotReady id))) ∨ (∃ e, a = Served (Some (o, Some (Again e))) ∧ eid e = id) ∨ ((∃ y, a = Served (Some (o, y))) ∧ ∀ e, e ∈ kept s1 -> eid e ≠ id)).
  Proof.
    intros R F. destruct (C85_work_ends tr0 s0 works R F) as (tr & s & Ru & A & _ & Em). exists tr, s. split; [done|]. split; [done|]. intros o id Ho.
    assert (queued s o id ∨ ∃ tr1 s1 ev a tr2, tr = tr1 ++ (ev, a) :: tr2 ∧ run less s0 tr0 tr1 s1 ∧
        (a = Served (Some (o, Some (NotReady id))) ∨ (∃ e, a = Served (Some (o, Some (Again e))) ∧ eid e = id) ∨ ((∃ y, a = Served (Some (o, y))) ∧ ∀ e, e ∈ kept s1 -> eid e ≠ id))) as [X|X]; [|by destruct (Em o id)|done].
    clear Em. induction Ru as [|tr s ev s' a Ru IH Pr St]; [by left|].
    assert (∀ i x, tr !! i = Some x -> x.1 = works i) as A' by (intros i x E; apply A; by apply lookup_app_l_Some).
    destruct (IH A') as [Q|(tr1 & s1 & ev1 & a1 & tr2 & -> & X)]; [|right; exists tr1, s1, ev1, a1, (tr2 ++ [(ev, a)]); split; [by rewrite <- app_assoc|done]].
    pose proof (run_inv less _ _ _ _ Ru (history_inv less tr0 s0 R)) as M.
    assert (∃ r now valid, ev = Work r now valid) as (r & now & valid & ->).
    { specialize (A (length tr) (ev, a)). rewrite lookup_app_r, Nat.sub_diag in A by lia. specialize (A eq_refl). cbn in A. destruct (F (length tr)) as (r & now & v & E & _). exists r, now, v. congruence. }
    destruct (not_forgotten less (gone (tr0 ++ tr)) _ (tr0 ++ tr) s s' a o id M Pr ltac:(done) St Q) as [X|X]; [by left|]. right. exists tr, s, (Work r now valid), a, []. split; [done|]. split; [done|].
    destruct X as [(c & -> & [->|(e & -> & X)])|[X|[=]]]; [by left|right; left; by exists e|right; by right].
  Qed.
End Properties.
Print Assumptions C84_never_panics.
Print Assumptions C84_kept.
Print Assumptions C84_orphan_submitted.
Print Assumptions C84_room_for_orphan.
Print Assumptions C84_accepted.
Print Assumptions C84_not_accepted.
Print Assumptions C84_disconnected.
Print Assumptions C84_work.
Print Assumptions C85_somebody_is_served.
Print Assumptions C85_fair.
Print Assumptions C85_not_forgotten.
Print Assumptions C85_work_ends.
Print Assumptions C85_all_looked_at.

(** * Examples *)
Notation entry := (entry N N).
Notation mempool := (mempool N N N).
Notation event := (event N N N).
Notation answer := (answer N N N).
Definition r : chance N := Chance (fun _ => 0%nat) (fun l => l).
Definition reversed : chance N := Chance (fun _ => 0%nat) (fun l => rev l).
Lemma r_shuffles : shuffles r.
Proof. intros l. reflexivity. Qed.
Lemma reversed_shuffles : shuffles reversed.
Proof. intros l. cbn. symmetry. apply Permutation_rev. Qed.
Definition ns : N := 10 ^ 9.
(** Spends output 0 of each of these *)
Definition tx (id t : N) (o : option N) (parents : list N) : entry (option N) := Entry id t o 300 ((fun p => TxOutput p 0) <$> parents) [].
Definition orphan (id t o : N) (parents : list N) : event := Submit r t (tx id t (Some o) parents) (Rejected (Some MissingUtxo) true).
Definition accepted (id t : N) (parents : list N) : event := Submit r t (tx id t None parents) Added.
Definition work_ (t : N) : event := Work r t (fun _ => Added).
Fixpoint exec (evs : list event) (s : mempool) : total (list (event * answer) * mempool) :=
  match evs with [] => Ok ([], s) | ev :: l => let? (s, a) := step N.ltb ev s in let? (tr, s) := exec l s in Ok ((ev, a) :: tr, s) end.
Definition shuffled (ev : event) : Prop := match ev with Submit r _ _ _ => shuffles r | Work r _ _ => shuffles r | Disconnect _ => False end.
Lemma no_gone (tr : list (event * answer)) o : Forall shuffled (fst <$> tr) -> ¬ gone tr o.
Proof. intros F [a I]. rewrite Forall_fmap, Forall_forall in F. exact (F _ I). Qed.
Lemma exec_run evs : ∀ tr0 (s0 s : mempool) tr, Forall shuffled evs -> Forall shuffled (fst <$> tr0) -> exec evs s0 = Ok (tr, s) -> run N.ltb s0 tr0 tr s ∧ fst <$> tr = evs.
Proof.
  induction evs as [|ev evs IH]; intros tr0 s0 s tr F F0 E; cbn in E; [injection E as <- <-; split; [constructor|done]|].
  apply Forall_cons in F as [F1 F]. destruct (step N.ltb ev s0) as [[s1 a]|[]|] eqn:St; cbn in E; [|done]. destruct (exec evs s1) as [[tr1 s2]|[]|] eqn:Ex; cbn in E; [|done].
  injection E as <- <-. destruct (IH (tr0 ++ [(ev, a)]) s1 s2 tr1 F) as [R Q]; [|done|].
  - rewrite fmap_app. apply Forall_app. split; [done|]. by constructor.
  - split; [|cbn; by rewrite Q]. apply (run_cons N.ltb s0 tr0 ev a s1); [|done|done]. destruct ev as [rr now e out|rr now v|o]; cbn in *; [split; [done|]; intros o _; by apply no_gone|done|done].
Qed.
Definition outcomes (evs : list event) : option (list answer) := match exec evs start with Ok (tr, _) => Some (snd <$> tr) | _ => None end.
Definition ids (s : mempool) : list N := eid <$> kept s.
Definition test (evs : list event) (f : mempool -> bool) : bool := match exec evs start with Ok (_, s) => f s | _ => false end.
Lemma test_history evs f : Forall shuffled evs -> test evs f = true -> ∃ tr s, history N.ltb tr s ∧ f s = true ∧ fst <$> tr = evs.
Proof.
  unfold test. destruct (exec evs start) as [[tr s]|[]|] eqn:E; intros F X; [|done]. destruct (exec_run evs [] start s tr F ltac:(constructor) E) as [R Q]. by exists tr, s.
Qed.
Definition is_queued (s : mempool) (o id : N) : bool := match work (todo s) !! o with Some l => bool_decide (id ∈ l) | None => false end.
Lemma is_queued_spec s o id : is_queued s o id = true -> queued s o id.
Proof. unfold is_queued, queued. destruct (work (todo s) !! o) as [l|]; [|done]. intros X. apply bool_decide_eq_true in X. by exists l. Qed.

(** Transactions 11 and 12 spend an output of 10, 13 spends one of 11; then 10 comes *)
Definition family : list event := [orphan 11 0 1 [10]; orphan 12 0 2 [10]; orphan 13 0 2 [11; 12]; accepted 10 0 []].
Lemma family_shuffled : Forall shuffled family.
Proof. repeat (constructor; [exact r_shuffles|]). constructor. Qed.
Example C84_C85_queued_example : ∃ tr s, history N.ltb tr s ∧ ids s = [11; 12; 13] ∧ queued s 1 11 ∧ queued s 2 12.
Proof.
  destruct (test_history family (fun s => bool_decide (ids s = [11; 12; 13]) && (is_queued s 1 11 && is_queued s 2 12)) family_shuffled) as (tr & s & R & X & _); [by vm_compute|].
  apply andb_true_iff in X as [X1 X2]. apply andb_true_iff in X2 as [X2 X3]. apply bool_decide_eq_true in X1. exists tr, s. split; [done|]. split; [done|]. split; by apply is_queued_spec.
Qed.
(** Both are looked at and accepted, and then 13, too *)
Definition served (a : answer) : option (N * option (bool * N)) :=
  match a with Served (Some (p, Some (Again e))) => Some (p, Some (true, eid e)) | Served (Some (p, Some (NotReady id))) => Some (p, Some (false, id)) | Served (Some (p, None)) => Some (p, None) | _ => None end.
Example C84_C85_work_example : (l ← outcomes (family ++ [work_ 1; work_ 1; work_ 1; work_ 1]); Some (served <$> drop 4 l)) = Some [Some (1, Some (true, 11)); Some (2, Some (true, 12)); Some (2, Some (true, 13)); None] ∧
  test (family ++ [work_ 1; work_ 1; work_ 1; work_ 1]) (fun s => is_empty (todo s) && bool_decide (ids s = [])) = true.
Proof. split; by vm_compute. Qed.
(** 13 comes up too early, and stays, when 11 comes to be accepted without being one of the orphans looked at again *)
Example C84_not_ready_example : (l ← outcomes [orphan 12 0 2 [10]; orphan 13 0 2 [11; 12]; accepted 11 0 []; work_ 1]; Some (served <$> drop 3 l)) = Some [Some (2, Some (false, 13))] ∧
  test [orphan 12 0 2 [10]; orphan 13 0 2 [11; 12]; accepted 11 0 []; work_ 1] (fun s => bool_decide (ids s = [12; 13])) = true.
Proof. split; by vm_compute. Qed.
(** A peer that leaves, with its orphans *)
Example C84_disconnected_example : test (family ++ [Disconnect 2]) (fun s => bool_decide (ids s = [11]) && (is_queued s 1 11 && negb (is_queued s 2 12))) = true.
Proof. by vm_compute. Qed.
(** With a hundred orphans the next one pushes one out (here always the first) *)
Definition hundred : list event := (fun i => orphan (1000 + N.of_nat i) 0 (N.of_nat i) [10]) <$> seq 0 100.
Example C84_full_example : test (hundred ++ [orphan 5000 1 1 [10]]) (fun s => bool_decide (length (ids s) = 100%nat) && (bool_decide (5000 ∈ ids s) && negb (bool_decide (1000 ∈ ids s)))) = true.
Proof. by vm_compute. Qed.
(** After fifty seconds an orphan goes when the next one comes *)
Example C84_expired_example : test [orphan 11 0 1 [10]; orphan 12 (50 * ns + 1) 1 [10]] (fun s => bool_decide (ids s = [12])) = true ∧
  test [orphan 11 0 1 [10]; orphan 12 (50 * ns) 1 [10]] (fun s => bool_decide (ids s = [11; 12])) = true.
Proof. split; by vm_compute. Qed.
(** The bound on how often others are served first is reached: the peer comes to have work just after it was scheduled, is last in the round, and
    the other comes first in the next round *)
Definition unfair : list event := [orphan 21 0 1 [10]; orphan 22 0 1 [10]; orphan 23 0 1 [10]; orphan 31 0 2 [10]; orphan 32 0 2 [10]; accepted 10 0 []].
Definition unfair_works : list event := [Work reversed 0 (fun _ => Duplicate); Work reversed 0 (fun _ => Duplicate); Work reversed 0 (fun _ => Duplicate); Work reversed 0 (fun _ => Duplicate); Work reversed 0 (fun _ => Duplicate)].
Example C85_fair_example : (l ← outcomes (unfair ++ unfair_works); Some (served <$> drop 6 l)) = Some [Some (1, Some (true, 21)); Some (2, Some (true, 31)); Some (2, Some (true, 32)); Some (1, Some (true, 22)); Some (1, Some (true, 23))].
Proof. by vm_compute. Qed.

(** * What fails *)
(** An orphan that was submitted before and is too old by now: when it is submitted again, the answer is that the pool is full, and it is gone. *)
Theorem C84_full_only_when_full_refuted : ∃ tr (s : mempool) ev s', history N.ltb tr s ∧ proper tr ev ∧ step N.ltb ev s = Ok (s', Answer (Err Full)) ∧ length (kept s) = 1%nat ∧ kept s' = [].
Proof.
  destruct (test_history [orphan 11 0 1 [10]] (fun s => bool_decide (length (ids s) = 1%nat) &&
    match step N.ltb (orphan 11 (50 * ns + 1) 1 [10]) s with Ok (s', Answer (Err Full)) => bool_decide (ids s' = []) | _ => false end)) as (tr & s & R & X & Q).
  - constructor; [exact r_shuffles|constructor].
  - by vm_compute.
  - apply andb_true_iff in X as [X1 X2]. apply bool_decide_eq_true in X1. exists tr, s, (orphan 11 (50 * ns + 1) 1 [10]).
    destruct (step N.ltb (orphan 11 (50 * ns + 1) 1 [10]) s) as [[s' [[| [] |]| |]]| |]; try discriminate X2. apply bool_decide_eq_true in X2. exists s'.
    split; [done|]. split; [|split; [done|]].
    + split; [exact r_shuffles|]. intros o _. apply no_gone. rewrite Q. constructor; [exact r_shuffles|constructor].
    + unfold ids in *. rewrite fmap_length in X1. split; [done|]. by apply fmap_nil_inv in X2.
Qed.
(** The queue's documentation says that nothing is handed out only if no work is left. It may also be that nothing is left for the peer whose turn it
    is. *)
Theorem C85_nothing_handed_out_means_none_left_refuted : ∃ tr (s : mempool) ev s' p, history N.ltb tr s ∧ proper tr ev ∧ step N.ltb ev s = Ok (s', Served (Some (p, None))) ∧
  ∃ o id e, queued s' o id ∧ e ∈ kept s' ∧ eid e = id.
Proof.
  (* 11 is too old by now *)
  destruct (test_history [orphan 11 0 1 [10]; orphan 31 (40 * ns) 2 [10]; accepted 10 0 []; orphan 40 (60 * ns) 3 [9]]
    (fun s => match step N.ltb (work_ 1) s with Ok (s', Served (Some (p, None))) => is_queued s' 2 31 && bool_decide (31 ∈ ids s') | _ => false end)) as (tr & s & R & X & Q).
  - repeat (constructor; [exact r_shuffles|]). constructor.
  - by vm_compute.
  - exists tr, s, (work_ 1). destruct (step N.ltb (work_ 1) s) as [[s' [|[[p [|]]|]|]]| |]; try discriminate X. apply andb_true_iff in X as [X1 X2]. apply bool_decide_eq_true in X2.
    exists s', p. split; [done|]. split; [exact r_shuffles|]. split; [done|]. apply elem_of_list_fmap in X2 as (e & Q' & I). exists 2, 31, e. split; [by apply is_queued_spec|]. done.
Qed.
(** If a transaction of a peer that has left is submitted while the peer's turn has not come yet, doing the work panics. *)
Definition late : list event := [orphan 11 0 1 [10]; accepted 10 0 []; Disconnect 1; orphan 12 0 1 [10]; accepted 10 0 []; work_ 0].
Theorem C85_submission_after_disconnect_refuted : Forall (fun ev => match ev with Submit r _ _ _ => shuffles r | Work r _ _ => shuffles r | Disconnect _ => True end) late ∧
  ∃ tr (s : mempool), exec late start = Ok (tr, s) ∧ step N.ltb (work_ 0) s = Panic.
Proof.
  split; [repeat (constructor; [first [exact r_shuffles|exact I]|]); constructor|].
  assert (match exec late start with Ok (_, s) => match step N.ltb (work_ 0) s with Panic => true | _ => false end | _ => false end = true) as X by by vm_compute.
  destruct (exec late start) as [[tr s]|[]|]; [|discriminate X]. exists tr, s. split; [done|]. by destruct (step N.ltb (work_ 0) s) as [|[]|].
Qed.
Print Assumptions C84_full_only_when_full_refuted.
Print Assumptions C85_nothing_handed_out_means_none_left_refuted.
Print Assumptions C85_submission_after_disconnect_refuted.
