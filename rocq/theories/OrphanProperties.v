(** C38: the orphan pool stays bounded and consistent. *)
From Verif Require Import Base BaseProofs OrphanModel OrphanSpec OrphanProofs.
Local Open Scope N_scope.

Lemma run_good rank ops : forall p, good rank p -> Forall (numbered rank) ops -> exists p', op_run p ops = Some p' /\ good rank p' /\ max_orphans p' = max_orphans p.
Proof.
  induction ops as [|o ops IH]; intros p G F; [by exists p|]. apply Forall_cons in F. destruct F as [Fo F]. cbn [op_run].
  assert (X : exists q, op_step p o = Some q /\ good rank q /\ max_orphans q = max_orphans p).
  { destruct o as [b c|id|]; cbn [op_step].
    - destruct (add_spec rank p b c G Fo) as (q & kept & E & Gq & Mq & _ & R). exists q. split; [|done].
      destruct (add_block p b c) as [q' r]. cbn in E, R. subst q'. destruct R as [(-> & _)|(-> & _)]; done.
    - destruct G as (C & Bl & Mx & Le). destruct (take_spec p id C) as (q & E & Cq & Sq & Mq). exists q. rewrite E. split; [done|]. split; [|done]. split_and!; [done| |lia|].
      + intros x Hx. rewrite Sq in Hx. apply elem_of_list_filter in Hx. apply Bl, Hx.
      + rewrite (pool_len_stored _ Cq), Sq, Mq. rewrite (pool_len_stored _ C) in Le. pose proof (filter_length (fun b => ob_prev b <> id) (stored p)). lia.
    - exists (pool_clear p). split; [done|]. split; [|done]. destruct G as (C & Bl & Mx & Le). split_and!; [|intros x Hx; cbn in Hx; set_solver|cbn; lia|cbn; lia].
      constructor; try done; cbn.
      + constructor.
      + intros i x. rewrite lookup_empty. set_solver. }
  destruct X as (q & -> & Gq & Mq). destruct (IH q Gq F) as (p' & E & G' & M'). exists p'. split_and!; try done; congruence.
Qed.
Lemma new_good rank max : 0 < max -> good rank (pool_new max).
Proof.
  intro H. split_and!; [|intros x Hx; cbn in Hx; set_solver|done|cbn; lia]. constructor; try done; cbn; [constructor|]. intros i x. rewrite lookup_empty. set_solver.
Qed.

(** Over any history of additions, removals and clearings, for any random choices, the pool never holds more than its limit,
    and its list of ids, its index by id and its index by parent describe the same blocks, each once. No operation crashes.
    The only assumption is that the blocks offered can be numbered with parents before children, which hashing gives. *)
Theorem C38_pool_bounded_and_consistent rank max ops : 0 < max -> Forall (numbered rank) ops ->
  exists p, op_run (pool_new max) ops = Some p /\ pool_len p <= max /\ N.of_nat (length (stored p)) = pool_len p /\ consistent p.
Proof.
  intros H F. destruct (run_good rank ops _ (new_good rank max H) F) as (p & E & G & M). exists p. destruct G as (C & Bl & Mx & Le). cbn in M. rewrite M in Le.
  split_and!; try done. by rewrite (pool_len_stored _ C).
Qed.
Print Assumptions C38_pool_bounded_and_consistent.
Lemma reach rank max ops p : 0 < max -> Forall (numbered rank) ops -> op_run (pool_new max) ops = Some p -> good rank p /\ max_orphans p = max.
Proof. intros H F E. destruct (run_good rank ops _ (new_good rank max H) F) as (p' & E' & G & M). assert (p' = p) as -> by congruence. done. Qed.

(** Adding a block to a pool that is not full appends it. Adding to a full pool first evicts one block without stored children.
    A block already present, after the eviction, is refused. *)
Theorem C38_adding rank max ops p b choice : 0 < max -> Forall (numbered rank) ops -> op_run (pool_new max) ops = Some p -> numbered rank (Add b choice) ->
  exists kept, ((N.of_nat (length (stored p)) < max /\ kept = stored p) \/
                (N.of_nat (length (stored p)) = max /\ exists d, d ∈ stored p /\ leaf (stored p) d /\ kept = filter (fun x => x <> d) (stored p))) /\
    ((exists x, x ∈ kept /\ ob_id x = ob_id b) -> snd (add_block p b choice) = Err BlockAlreadyInOrphanList /\ stored (fst (add_block p b choice)) = kept) /\
    ((forall x, x ∈ kept -> ob_id x <> ob_id b) -> snd (add_block p b choice) = Ok tt /\ stored (fst (add_block p b choice)) = kept ++ [b]).
Proof.
  intros H F E Nb. destruct (reach _ _ _ _ H F E) as [G M]. destruct (add_spec rank p b choice G Nb) as (p' & kept & E' & G' & M' & K & R). exists kept.
  assert (C : consistent p) by apply G. rewrite <- (pool_len_stored _ C), <- M. split; [|split].
  - destruct K as [K|(Eq & d & Hd & Lf & ->)]; [by left|]. right. split; [done|]. exists d. split_and!; try done. apply filter_ext_in. intros x Hx. split; [congruence|].
    intros X Y. apply X. by apply (stored_inj p).
  - intros (x & Hx & Ex). rewrite E'. destruct R as [(_ & X & _)|(X & _ & Y)]; [destruct (X _ Hx); done|done].
  - intros Hk. rewrite E'. destruct R as [(X & _ & Y)|(_ & (x & Hx & Ex) & _)]; [done|destruct (Hk _ Hx Ex)].
Qed.
Print Assumptions C38_adding.

(** Taking the children of a block returns all and only its stored children, in order of arrival, and leaves everything else. *)
Theorem C38_taking_children rank max ops p id : 0 < max -> Forall (numbered rank) ops -> op_run (pool_new max) ops = Some p ->
  exists p', take_all_children_of p id = Ok (p', filter (fun b => ob_prev b = id) (stored p)) /\ stored p' = filter (fun b => ob_prev b <> id) (stored p).
Proof.
  intros H F E. destruct (reach _ _ _ _ H F E) as [(C & _) M]. destruct (take_spec p id C) as (p' & E' & _ & S' & _). by exists p'.
Qed.
Print Assumptions C38_taking_children.
(** Asking for a block by id answers whether it is stored. *)
Theorem C38_lookup rank max ops p id : 0 < max -> Forall (numbered rank) ops -> op_run (pool_new max) ops = Some p ->
  is_already_an_orphan p id = true <-> exists b, b ∈ stored p /\ ob_id b = id.
Proof.
  intros H F E. destruct (reach _ _ _ _ H F E) as [(C & _) M]. unfold is_already_an_orphan. destruct (orphan_by_id p !! id) as [b|] eqn:Hb.
  - apply (cn_by_id _ C) in Hb. split; [by exists b|done].
  - split; [done|]. intros (b & Hb' & <-). apply (stored_by_id _ _ C) in Hb'. congruence.
Qed.
Print Assumptions C38_lookup.

(** An example: five blocks in a pool for three. *)
Definition ex_ops : list orphan_op := [Add (OBlock 2 1) 0; Add (OBlock 3 2) 5; Add (OBlock 4 2) 1; Add (OBlock 5 1) 0; Add (OBlock 6 5) 7].
Definition ex_summary (o : option pool) : option (list (N * N)) := (fun p => (fun b => (ob_id b, ob_prev b)) <$> stored p) <$> o.
Example C38_example : Forall (numbered N.to_nat) ex_ops /\ ex_summary (op_run (pool_new 3) ex_ops) = Some [(2, 1); (5, 1); (6, 5)] /\
  ex_summary (op_run (pool_new 3) (ex_ops ++ [TakeChildren 1])) = Some [(6, 5)].
Proof. split; [repeat constructor; cbn; lia|]. split; vm_compute; reflexivity. Qed.

(** What one might expect but does not hold: adding a block that is already stored leaves the pool as it is. When the pool is full,
    the refused addition has already evicted another block. *)
Theorem C38_refused_add_keeps_pool_refuted : ~ (forall rank max ops p b choice, 0 < max -> Forall (numbered rank) ops -> op_run (pool_new max) ops = Some p ->
  numbered rank (Add b choice) -> snd (add_block p b choice) = Err BlockAlreadyInOrphanList -> stored (fst (add_block p b choice)) = stored p).
Proof.
  intro H. set (ops := [Add (OBlock 2 1) 0; Add (OBlock 3 1) 0] : list orphan_op).
  assert (F : Forall (numbered N.to_nat) ops) by (repeat constructor; cbn; lia).
  destruct (C38_pool_bounded_and_consistent N.to_nat 2 ops eq_refl F) as (p & E & _).
  assert (X : (fun p => (match snd (add_block p (OBlock 2 1) 1) with Err BlockAlreadyInOrphanList => true | _ => false end, ob_id <$> stored (fst (add_block p (OBlock 2 1) 1)), ob_id <$> stored p)) <$> op_run (pool_new 2) ops
              = Some (true, [2], [2; 3])) by (vm_compute; reflexivity).
  rewrite E in X. cbn [fmap option_fmap option_map] in X. injection X as X1 X2 X3.
  assert (S : stored (fst (add_block p (OBlock 2 1) 1)) = stored p).
  { apply (H N.to_nat 2 ops); try done; [cbn; lia|]. destruct (snd (add_block p (OBlock 2 1) 1)) as [|[]|]; done. }
  rewrite S, X3 in X2. done.
Qed.
Print Assumptions C38_refused_add_keeps_pool_refuted.
(** A pool configured to hold nothing crashes at the first addition (the random choice is made from an empty range). *)
Theorem C38_zero_limit_crashes_refuted : ~ (forall max b choice, snd (add_block (pool_new max) b choice) <> Panic).
Proof. intro H. apply (H 0 (OBlock 2 1) 0). vm_compute. reflexivity. Qed.
Print Assumptions C38_zero_limit_crashes_refuted.
