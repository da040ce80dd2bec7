(** C83: the outputs a wallet shows as unspent are those that its transactions make and none of them spends, through confirmations, reorganisations, giving up and reopening. *)
From Verif Require Import Base OutputCacheModel OutputCacheSpec OutputCacheProofs.
Local Open Scope N_scope.

Section Properties.
  Context {T Out : Type} `{Countable T} (body : T -> tx T Out).
  Notation cache := (cache T Out).
  Notation history es c := (reach body (careful body) es c).

  (** Looking at transactions in some of the states confirmed, in the mempool and inactive: the unspent outputs are exactly those made by a
      transaction in these states, passing the filter, that no transaction in these states spends *)
  Theorem C83_unspent es c ok which o out : history es c -> live_only which ->
    (o, out) ∈ utxos ok which c <->
    ∃ s, known c (fst o) (body (fst o)) s ∧ which (kind_of s) = true ∧ outs (body (fst o)) !! N.to_nat (snd o) = Some out ∧ ok s o out = true ∧
      ¬ ∃ id s', known c id (body id) s' ∧ which (kind_of s') = true ∧ o ∈ ins (body id).
  Proof.
    intros R W. pose proof (reach_inv body _ _ _ (fun _ _ X => X) R) as V. rewrite (utxos_inv body) by done. split.
    - intros (t & s & K & Ws & L & A & B). pose proof (i_body _ _ V _ _ _ K) as ->. exists s. split; [done|]. split; [done|]. split; [done|]. split; [done|].
      intros (id & s' & K' & Ws' & I). apply B. by exists id, (body id), s'.
    - intros (s & K & Ws & L & A & B). exists (body (fst o)), s. split; [done|]. split; [done|]. split; [done|]. split; [done|].
      intros (id & t & s' & K' & Ws' & I). apply B. pose proof (i_body _ _ V _ _ _ K') as ->. by exists id, s'.
  Qed.

  (** The confirmed ones depend on the chain only: whatever happens to unconfirmed transactions, they are the outputs made by a transaction
      on the chain and spent by none on the chain *)
  Theorem C83_confirmed es c ok o out : history es c ->
    (o, out) ∈ utxos ok confirmed_only c <->
    ∃ s, on_chain es !! fst o = Some s ∧ outs (body (fst o)) !! N.to_nat (snd o) = Some out ∧ ok s o out = true ∧
      ∀ id, is_Some (on_chain es !! id) -> o ∉ ins (body id).
  Proof. apply utxos_confirmed. Qed.

  (** An output the user picks is accepted exactly if some transaction of the wallet makes it, it passes the filter and no live one spends it *)
  Theorem C83_picked es c ok o out : history es c ->
    find_unspent ok o c = Ok out <->
    ∃ s, known c (fst o) (body (fst o)) s ∧ outs (body (fst o)) !! N.to_nat (snd o) = Some out ∧ ok s o out = true ∧
      ¬ ∃ id s', known c id (body id) s' ∧ live s' ∧ o ∈ ins (body id).
  Proof.
    intros R. pose proof (reach_inv body _ _ _ (fun _ _ X => X) R) as V.
    assert (is_consumed live_kinds o c = true <-> ∃ id s', known c id (body id) s' ∧ live s' ∧ o ∈ ins (body id)) as Q.
    { rewrite (is_consumed_spec body live_kinds c o V) by done. split.
      - intros (id & t & s & K & L & I). pose proof (i_body _ _ V _ _ _ K) as ->. apply live_kind in L. by exists id, s.
      - intros (id & s & K & L & I). apply live_kind in L. by exists id, (body id), s. }
    setoid_rewrite <- Q. unfold find_unspent, known. destruct (txs c !! fst o) as [[t s]|] eqn:K; [|split; [done|by intros (s & [=] & _)]].
    pose proof (i_body _ _ V _ _ _ K) as ->. destruct (outs (body (fst o)) !! N.to_nat (snd o)) as [out'|]; [|split; [done|by intros (s' & _ & [=] & _)]].
    destruct (is_consumed live_kinds o c); cbn; [split; [done|]; intros (s' & _ & _ & _ & F); by destruct F|].
    destruct (ok s o out') eqn:Eo; cbn.
    - split; [intros [= ->]; by exists s|]. intros (s' & [= <-] & [= <-] & _). done.
    - split; [done|]. intros (s' & [= <-] & [= <-] & Eo' & _). congruence.
  Qed.

  (** Nothing of this fails: adding an unconfirmed transaction; adding a confirmed one whose parents are not known or confirmed; removing a
      transaction that is not known or confirmed; giving up one when those descending from it may be given up; and opening the wallet again *)
  Theorem C83_never_fails es c e : history es c -> careful body c e ->
    match e with
    | Add id st => is_confirmed st -> ∀ o t s, o ∈ ins (body id) -> fst o ≠ id -> known c (fst o) t s -> is_confirmed s
    | Remove id => ∀ t s, known c id t s -> is_confirmed s
    | Abandon id => (∃ t s, known c id t s) ∧ ∀ x t s, descends body id x -> known c x t s -> (∃ n, s = Inactive n) ∨ (∃ b, s = Conflicted b)
    | Conflicts ids b => ∀ id, id ∈ ids -> (∃ t s, known c id t s) ∧ ∀ x t s, descends body id x -> known c x t s -> (∃ n, s = Inactive n) ∨ (∃ n, s = InMempool n)
    | ResetMempool | Reopen _ => True
    end -> ∃ c', step body e c = (c', Ok tt) ∧ history (es ++ [e]) c'.
  Proof.
    intros R C O. pose proof (reach_inv body _ _ _ (fun _ _ X => X) R) as V.
    cut (∃ c', step body e c = (c', Ok tt)); [intros [c' E]; exists c'; split; [done|]; by apply (reach_step _ _ es c)|].
    destruct e as [id st|id| |id|ids b|l]; cbn [step].
    - unfold discard. edestruct (add_tx_ok id (body id) st c) as (c' & b & E); [|rewrite E; by exists c'].
      destruct (unconfirmed st) eqn:U; [left; by apply unconfirmed_iff|right]. intros o I N. destruct (desc c !! fst o) eqn:D; [|done].
      destruct (i_desc _ _ V (fst o)) as (t & s & K & Cf); [eauto|]. destruct Cf. apply (O ltac:(by destruct st) o t s I N K).
    - by apply (remove_ok body).
    - by eexists.
    - destruct O as [K O]. apply (abandon_ok body id c V K). intros x t s D Kx. destruct (O x t s D Kx) as [[n ->]|[n ->]]; cbn; eauto.
    - apply (conflicts_ok body b ids [] c V); [intros x I; by apply elem_of_nil in I|]. intros id I. destruct (O id I) as [K Oi]. split; [done|].
      intros x t s D Kx. right. destruct (Oi x t s D Kx) as [[n ->]|[n ->]]; cbn; eauto.
    - destruct C as [C1 C2]. destruct (reopen_spec body c l V C1 C2) as (c' & E & _). eauto.
  Qed.

  (** After opening the wallet again it has the same transactions and the same unspent outputs *)
  Theorem C83_reopened es c l : history es c -> stored_order c l -> no_double_spend c ->
    ∃ c', step body (Reopen l) c = (c', Ok tt) ∧ txs c' = txs c ∧
      ∀ ok which o out, live_only which -> (o, out) ∈ utxos ok which c' <-> (o, out) ∈ utxos ok which c.
  Proof.
    intros R So Nd. pose proof (reach_inv body _ _ _ (fun _ _ X => X) R) as V. destruct (reopen_spec body c l V So Nd) as (c' & E & V' & Et & _).
    exists c'. split; [done|]. split; [done|]. intros ok which o out W. by apply (utxos_reopen body).
  Qed.

  (** Giving up a transaction: it and every transaction that descends from it through live ones become abandoned; the others stay as they
      are, unless they descend from it *)
  Theorem C83_abandoned es c c' id : reach body (orderly body) es c -> step body (Abandon id) c = (c', Ok tt) ->
    (∃ t, known c' id t Abandoned) ∧
    (∀ x, (∃ t s, known c id t s ∧ live s) -> descends_live c id x -> ∃ t, known c' x t Abandoned) ∧
    (∀ x, txs c' !! x = txs c !! x ∨ (descends body id x ∧ ∃ t s, known c x t s ∧ ¬ is_confirmed s ∧ known c' x t Abandoned)).
  Proof.
    intros R E. destruct (reach_linked body es c R) as [V Lk]. cbn [step] in E. pose proof (abandon_spec body id c c' V E) as Re.
    assert (∀ x, rtc (link (desc c)) id x -> ∃ t, known c' x t Abandoned) as G by (intros x P; destruct (rt_gone _ _ _ _ Re x P) as (t & _ & _ & _ & K); by exists t).
    split; [apply G; constructor|]. split.
    - intros x Lv D. apply G. apply (live_linked c id x Lk Lv); [|done]. intros y t s P K. destruct (rt_gone _ _ _ _ Re y P) as (t' & s' & K' & N & _).
      unfold known in *. rewrite K in K'. by injection K' as <- <-.
    - intros x. destruct (rt_dec _ _ _ _ Re x) as [P|P]; [right|left; by apply (rt_kept _ _ _ _ Re)].
      destruct (rt_gone _ _ _ _ Re x P) as (t & s & K & N & K'). split; [by apply (links_descend body c)|by exists t, s].
  Qed.

  (** Whether giving up succeeds or fails, a transaction on the chain, in the mempool or abandoned already stays as it is, and asking for
      one of these to be given up is refused without any effect *)
  Theorem C83_only_waiting_given_up c c' id r : step body (Abandon id) c = (c', r) ->
    (∀ x t s, known c x t s -> ¬ ((∃ n, s = Inactive n) ∨ (∃ b, s = Conflicted b)) -> known c' x t s) ∧
    (∀ t s, known c id t s -> ¬ ((∃ n, s = Inactive n) ∨ (∃ b, s = Conflicted b)) -> c' = c ∧ r = Err CannotChangeTransactionState).
  Proof.
    intros E. cbn [step] in E. split.
    - intros x t s K N. destruct (abandon_only body id c c' r E x t s K) as [Eq|[[f A] _]]; [unfold known; by rewrite Eq|].
      destruct N. destruct s; try discriminate; eauto.
    - intros t s K N. unfold abandon in E. unfold known in K. rewrite K in E. destruct s; cbn in E; try (by injection E as <- <-); destruct N; eauto.
  Qed.

  (** Conflicts with a block: the transactions concerned and every one that descends from them through live ones are no longer live; the
      others stay as they are, unless they descend from one concerned *)
  Theorem C83_conflicting es c c' ids b : reach body (orderly body) es c -> step body (Conflicts ids b) c = (c', Ok tt) ->
    (∀ id x, id ∈ ids -> (∃ t s, known c id t s ∧ live s) -> descends_live c id x -> ∃ t, known c' x t (Conflicted b)) ∧
    (∀ x, txs c' !! x = txs c !! x ∨
      ((∃ id, id ∈ ids ∧ descends body id x) ∧ ∃ t s, known c x t s ∧ ¬ is_confirmed s ∧ known c' x t (Conflicted b))).
  Proof.
    intros R E. destruct (reach_linked body es c R) as [V Lk]. cbn [step] in E.
    destruct (conflicts_effect body b ids [] c c' V Lk ltac:(intros x I; by apply elem_of_nil in I) E) as (E1 & E2 & E3 & E4).
    split; [|done]. intros id x I Lv D. pose proof (fall_along c c' id x E3 Lv (E2 id I) D) as Fx.
    assert (∃ t s, known c x t s ∧ live s) as (t & s & K & L).
    { clear - Lv D. revert x D. apply rtc_ind_r; [done|]. intros x y _ (t & s & K & L & _) _. by exists t, s. }
    destruct (E4 x) as [Eq|[_ (t' & s' & _ & _ & K')]]; [|by exists t'].
    destruct (Fx t s); [|done]. unfold known. by rewrite Eq.
  Qed.
End Properties.

(** * A wallet to compute with *)
Section Play.
  Context {T Out : Type} `{Countable T} (body : T -> tx T Out).
  Definition careful_b (c : cache T Out) (e : event T Out) : bool :=
    match e with
    | Add id st => live_kinds (kind_of st) &&
        forallb (fun '(id', (t', s')) => negb (live_kinds (kind_of s')) || bool_decide (id' = id) || forallb (fun o => negb (bool_decide (o ∈ ins t'))) (ins (body id)))
          (map_to_list (txs c))
    | Reopen _ => false
    | _ => true
    end.
  Lemma careful_b_spec c e : careful_b c e = true -> careful body c e.
  Proof.
    destruct e as [id st|id| |id|ids b|l]; try done. cbn. intros [L F]%andb_prop. split; [by apply live_kind|].
    rewrite forallb_forall in F. intros id' t' s' o K L' N I J. specialize (F (id', (t', s'))). cbn in F.
    rewrite (proj2 (live_kind s')), bool_decide_false in F by done. cbn in F. rewrite forallb_forall in F.
    specialize (F ltac:(by apply elem_of_list_In, elem_of_map_to_list) o ltac:(by apply elem_of_list_In)). rewrite bool_decide_true in F by done. done.
  Qed.
  (** A transaction is added before those that spend its outputs *)
  Definition orderly_b (c : cache T Out) (e : event T Out) : bool :=
    careful_b c e &&
    match e with
    | Add id _ => forallb (fun '(_, (t', s')) => negb (live_kinds (kind_of s')) || forallb (fun o => negb (bool_decide (fst o = id))) (ins t')) (map_to_list (txs c))
    | _ => true
    end.
  Lemma orderly_b_spec c e : orderly_b c e = true -> orderly body c e.
  Proof.
    unfold orderly_b. intros [C F]%andb_prop. split; [by apply careful_b_spec|]. destruct e as [id st|id| |id|ids b|l]; try done.
    rewrite forallb_forall in F. intros _ id' t' s' K L (o & I & E). specialize (F (id', (t', s'))). cbn in F.
    rewrite (proj2 (live_kind s')) in F by done. cbn in F. rewrite forallb_forall in F.
    specialize (F ltac:(by apply elem_of_list_In, elem_of_map_to_list) o ltac:(by apply elem_of_list_In)). rewrite bool_decide_true in F by done. done.
  Qed.
  Context (check : cache T Out -> event T Out -> bool) (cond : cache T Out -> event T Out -> Prop) (sound : ∀ c e, check c e = true -> cond c e).
  Fixpoint play (es : list (event T Out)) (c : cache T Out) : option (cache T Out) :=
    match es with
    | [] => Some c
    | e :: es => if check c e then match step body e c with (c', Ok _) => play es c' | _ => None end else None
    end.
  Lemma play_reach es : ∀ es0 c c', reach body (cond) es0 c -> play es c = Some c' -> reach body (cond) (es0 ++ es) c'.
  Proof.
    induction es as [|e es IH]; intros es0 c c' R E; cbn in E; [injection E as <-; by rewrite app_nil_r|].
    destruct (check c e) eqn:C; [|done]. destruct (step body e c) as [c1 [[]|?|]] eqn:S; [|done|done].
    rewrite (cons_middle e es0 es), app_assoc. apply (IH _ c1); [|done]. apply (reach_step _ _ es0 c); [done|by apply sound|done].
  Qed.
  (** Playing some events and looking at the outcome *)
  Definition outcome {A} (es : list (event T Out)) (f : cache T Out -> A) : option A := f <$> play es empty.
  Lemma outcome_spec {A} es (f : cache T Out -> A) a : outcome es f = Some a -> ∃ c, reach body (cond) es c ∧ f c = a.
  Proof.
    unfold outcome. intros E. apply fmap_Some in E as (c & E & ->). exists c. split; [|done]. by apply (play_reach es [] empty c (reach_start _ _)).
  Qed.
End Play.
Notation outcome_careful body := (outcome body (careful_b body)).
Definition outcome_careful_spec {T Out : Type} `{Countable T} (body : T -> tx T Out) {A} := @outcome_spec T Out _ _ body (careful_b body) (careful body) (careful_b_spec body) A.

(** Transaction 1 makes two outputs; 2 and 3 both spend the first of them, 4 spends an output of 2 *)
Definition ex_body (id : N) : tx N N :=
  if id =? 1 then Tx [] [100; 200] else if id =? 2 then Tx [(1, 0)] [90] else if id =? 3 then Tx [(1, 0)] [80] else if id =? 4 then Tx [(2, 0)] [70] else Tx [] [].
Definition ex_any : txstate -> N * N -> N -> bool := fun _ _ _ => true.
Definition ex_has (c : cache N N) (o : N * N) : bool := bool_decide (o ∈ (utxos ex_any live_kinds c).*1).
Global Instance tx_eqdec : EqDecision (tx N N).
Proof. solve_decision. Defined.
Lemma ex_has_spec c o : ex_has c o = true <-> ∃ out, (o, out) ∈ utxos ex_any live_kinds c.
Proof.
  unfold ex_has. rewrite bool_decide_eq_true, elem_of_list_fmap. split.
  - intros ([o' out] & -> & I). by exists out.
  - intros [out I]. by exists (o, out).
Qed.

(** An output of a transaction that was given up can be picked *)
Theorem C83_picked_from_live_transaction_refuted :
  ¬ (∀ es c ok o out, reach ex_body (careful ex_body) es c -> find_unspent ok o c = Ok out -> ∃ t s, known c (fst o) t s ∧ live s).
Proof.
  intros F.
  destruct (outcome_careful_spec ex_body [Add 1 (Confirmed 1 0 0); Add 2 (Inactive 0); Abandon 2] (fun c => (find_unspent ex_any (2, 0) c, snd <$> txs c !! 2)) (Ok 90, Some Abandoned)) as (c & R & E).
  { vm_compute. reflexivity. }
  injection E as E1 E2. destruct (F _ _ _ _ _ R E1) as (t & s & K & L). unfold known in K. cbn [fst] in K. rewrite K in E2. cbn in E2. injection E2 as ->. done.
Qed.

(** Once a transaction that spends an output was given up and another one that spends it is on the chain, the output becomes unspent by
    opening the wallet again: the state of the one given up, loaded later, replaces that of the one on the chain *)
Theorem C83_reopened_after_giving_up_refuted :
  ¬ (∀ es c l c', reach ex_body (careful ex_body) es c -> stored_order c l -> step ex_body (Reopen l) c = (c', Ok tt) ->
     ∀ o out, (o, out) ∈ utxos ex_any live_kinds c' -> (o, out) ∈ utxos ex_any live_kinds c).
Proof.
  intros F. set (l := [(1, (ex_body 1, Confirmed 1 0 0)); (3, (ex_body 3, Confirmed 2 0 0)); (2, (ex_body 2, Abandoned))]).
  destruct (outcome_careful_spec ex_body [Add 1 (Confirmed 1 0 0); Add 2 (Inactive 0); Abandon 2; Add 3 (Confirmed 2 0 0)]
    (fun c => (bool_decide (l ≡ₚ map_to_list (txs c)), ex_has c (1, 0), match load l empty with (c', Ok _) => Some (ex_has c' (1, 0)) | _ => None end)) (true, false, Some true)) as (c & R & E).
  { vm_compute. reflexivity. }
  apply pair_equal_spec in E as [E E3]. apply pair_equal_spec in E as [E1 E2]. destruct (load l empty) as [c' [[]|?|]] eqn:L; [|done|done]. injection E3 as E3.
  apply ex_has_spec in E3 as [out I]. assert (stored_order c l) as So.
  { split; [by apply bool_decide_eq_true in E1|]. exists [(1, (ex_body 1, Confirmed 1 0 0)); (3, (ex_body 3, Confirmed 2 0 0))], [(2, (ex_body 2, Abandoned))].
    split; [done|]. split; intros p Ip; repeat (apply elem_of_cons in Ip as [->|Ip]; [cbn; tauto|]); by apply elem_of_nil in Ip. }
  pose proof (F _ c l c' R So L _ _ I) as J. assert (ex_has c (1, 0) = true) as Q by (apply ex_has_spec; by exists out). congruence.
Qed.

(** When an unconfirmed transaction and one on the chain spend the same output, giving up the unconfirmed one makes the output unspent *)
Theorem C83_unspent_after_double_spend_refuted :
  ¬ (∀ es c o out id s, reach ex_body (fun _ e => match e with Add _ st => live st | _ => True end) es c ->
     (o, out) ∈ utxos ex_any confirmed_only c -> on_chain es !! id = Some s -> o ∉ ins (ex_body id)).
Proof.
  intros F. set (es := [Add 1 (Confirmed 1 0 0); Add 2 (Inactive 0); Add 3 (Confirmed 2 0 0); Abandon 2] : list (event N N)).
  assert (∃ c, reach ex_body (fun _ e => match e with Add _ st => live st | _ => True end) es c ∧ bool_decide (((1, 0), 100) ∈ utxos ex_any confirmed_only c) = true) as (c & R & E).
  { assert (match step ex_body (Add 1 (Confirmed 1 0 0)) empty with (c1, Ok _) => match step ex_body (Add 2 (Inactive 0)) c1 with (c2, Ok _) =>
        match step ex_body (Add 3 (Confirmed 2 0 0)) c2 with (c3, Ok _) => match step ex_body (Abandon 2) c3 with (c4, Ok _) =>
        bool_decide (((1, 0), 100) ∈ utxos ex_any confirmed_only c4) | _ => false end | _ => false end | _ => false end | _ => false end = true) as E by (vm_compute; reflexivity).
    destruct (step ex_body (Add 1 _) empty) as [c1 [[]|?|]] eqn:E1; [|done|done]. destruct (step ex_body (Add 2 _) c1) as [c2 [[]|?|]] eqn:E2; [|done|done].
    destruct (step ex_body (Add 3 _) c2) as [c3 [[]|?|]] eqn:E3; [|done|done]. destruct (step ex_body (Abandon 2) c3) as [c4 [[]|?|]] eqn:E4; [|done|done].
    exists c4. split; [|done]. change es with ((((([] ++ [Add 1 (Confirmed 1 0 0)]) ++ [Add 2 (Inactive 0)]) ++ [Add 3 (Confirmed 2 0 0)]) ++ [Abandon 2]) : list (event N N)).
    eapply reach_step; [eapply reach_step; [eapply reach_step; [eapply reach_step; [constructor|done|exact E1]|done|exact E2]|done|exact E3]|done|exact E4]. }
  apply bool_decide_eq_true in E. refine (F es c (1, 0) 100 3 (Confirmed 2 0 0) R E _ _); [vm_compute; reflexivity|]. vm_compute. left.
Qed.

(** After its child was given up a transaction cannot be given up any more, and the attempt leaves it abandoned with what it spends still spent *)
Theorem C83_giving_up_after_child_refuted :
  ¬ (∀ es c id t n, reach ex_body (careful ex_body) es c -> known c id t (Inactive n) ->
     (∀ x t s, descends ex_body id x -> known c x t s -> ¬ is_confirmed s ∧ ∀ m, s ≠ InMempool m) -> snd (step ex_body (Abandon id) c) = Ok tt).
Proof.
  intros F. destruct (outcome_careful_spec ex_body [Add 1 (Confirmed 1 0 0); Add 2 (Inactive 0); Add 4 (Inactive 1); Abandon 4]
    (fun c => (bool_decide (map_to_list (txs c) ≡ₚ [(1, (ex_body 1, Confirmed 1 0 0)); (2, (ex_body 2, Inactive 0)); (4, (ex_body 4, Abandoned))]), snd (step ex_body (Abandon 2) c)))
    (true, Err CannotChangeTransactionState)) as (c & R & E).
  { vm_compute. reflexivity. }
  apply pair_equal_spec in E as [E1 E2]. apply bool_decide_eq_true in E1.
  assert (∀ x t s, known c x t s <-> (x, (t, s)) ∈ [(1, (ex_body 1, Confirmed 1 0 0)); (2, (ex_body 2, Inactive 0)); (4, (ex_body 4, Abandoned))]) as K.
  { intros x t s. rewrite <- E1. unfold known. by rewrite elem_of_map_to_list. }
  rewrite (F _ c 2 (ex_body 2) 0 R) in E2; [done| |].
  - apply K. right. left.
  - intros x t s D Kx. assert (x ≠ 1) as N.
    { intros ->. apply rtc_inv_r in D as [?|(y & _ & o & I & _)]; [done|]. by apply elem_of_nil in I. }
    apply K in Kx. apply elem_of_cons in Kx as [Kx|Kx]; [by injection Kx as -> _ _|].
    apply elem_of_cons in Kx as [Kx|Kx]; [injection Kx as _ _ ->; split; [by intros []|done]|].
    apply elem_of_list_singleton in Kx. injection Kx as _ _ ->. split; [by intros []|done].
Qed.
Example C83_giving_up_after_child_example :
  outcome_careful ex_body [Add 1 (Confirmed 1 0 0); Add 2 (Inactive 0); Add 4 (Inactive 1); Abandon 4]
    (fun c => let '(c', r) := step ex_body (Abandon 2) c in (r, snd <$> txs c' !! 2, ex_has c' (1, 0))) = Some (Err CannotChangeTransactionState, Some Abandoned, false).
Proof. vm_compute. reflexivity. Qed.

Example C83_only_waiting_given_up_example :
  outcome_careful ex_body [Add 1 (Confirmed 1 0 0); Add 2 (Inactive 0); Add 4 (InMempool 1)]
    (fun c => let '(c', r) := step ex_body (Abandon 2) c in (r, snd <$> txs c' !! 4)) = Some (Err CannotChangeTransactionState, Some (InMempool 1)) ∧
  outcome_careful ex_body [Add 1 (Confirmed 1 0 0); Add 2 (InMempool 0)]
    (fun c => let '(c', r) := step ex_body (Abandon 2) c in (r, snd <$> txs c' !! 2)) = Some (Err CannotChangeTransactionState, Some (InMempool 0)).
Proof. split; vm_compute; reflexivity. Qed.

(** The order in which stored transactions are sorted is not one *)
Theorem C83_stored_order_transitive_refuted :
  ¬ (∀ a b c, wallet_tx_order a b ≠ Gt -> wallet_tx_order b c ≠ Gt -> wallet_tx_order a c ≠ Gt).
Proof. intros F. by apply (F (Inactive 2) Abandoned (Inactive 1)). Qed.

Example C83_example :
  is_Some (outcome ex_body (orderly_b ex_body) [Add 1 (Confirmed 1 0 0); Add 2 (Inactive 0); Add 4 (Inactive 1); Abandon 2; Add 3 (Confirmed 2 0 0); Remove 3] (fun _ => tt)) ∧
  outcome_careful ex_body [Add 1 (Confirmed 1 0 0); Add 2 (InMempool 0); ResetMempool; Add 4 (Inactive 1)]
    (fun c => (ex_has c (1, 0), ex_has c (1, 1), ex_has c (2, 0), ex_has c (4, 0))) = Some (false, true, false, true) ∧
  outcome_careful ex_body [Add 1 (Confirmed 1 0 0); Add 2 (InMempool 0); ResetMempool; Add 4 (Inactive 1); Abandon 2; Add 3 (Confirmed 2 0 0); Remove 3; Add 3 (Inactive 2)]
    (fun c => (ex_has c (1, 0), ex_has c (1, 1), ex_has c (2, 0), ex_has c (4, 0), ex_has c (3, 0))) = Some (false, true, false, false, true) ∧
  outcome_careful ex_body [Add 1 (Confirmed 1 0 0); Add 2 (InMempool 0); Add 4 (Inactive 1); Conflicts [4; 2] 7]
    (fun c => (ex_has c (1, 0), ex_has c (1, 1), ex_has c (2, 0), ex_has c (4, 0))) = Some (true, true, false, false).
Proof. split; [vm_compute; eauto|]. split; [vm_compute; reflexivity|]. split; vm_compute; reflexivity. Qed.

Print Assumptions C83_unspent.
Print Assumptions C83_confirmed.
Print Assumptions C83_picked.
Print Assumptions C83_never_fails.
Print Assumptions C83_reopened.
Print Assumptions C83_abandoned.
Print Assumptions C83_only_waiting_given_up.
Print Assumptions C83_conflicting.
Print Assumptions C83_picked_from_live_transaction_refuted.
Print Assumptions C83_reopened_after_giving_up_refuted.
Print Assumptions C83_unspent_after_double_spend_refuted.
Print Assumptions C83_giving_up_after_child_refuted.
Print Assumptions C83_stored_order_transitive_refuted.
