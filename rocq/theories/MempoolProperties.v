(** C62-C65: what the pool's store says about the transactions in it is always exactly right; throwing out; clusters; order. *)
From stdpp Require Import relations sorting.
From Verif Require Import Base AmountModel DeltaModel LayeredModel TokensModel OrdersModel PosModel PrimModel ChainModel
  MempoolModel MempoolSpec MempoolGraph MempoolTraverse MempoolFolds MempoolAdd MempoolInsert MempoolRemove MempoolHistory.
From Coq Require Import Lia.
Local Open Scope N_scope.

Section properties.
Context (iter : gset N -> list N) (Hiter : forall s, iter s ≡ₚ elements s) (mk : id_makers) (cfg : pool_cfg) (Hcount : 1 <= pc_max_count cfg).

(** C62: after any history of additions and evictions, in whatever order the hash sets are iterated, no assertion has failed and the
    store is the one the list of the transactions in the pool determines: links, totals of ancestors and descendants, indices, users of
    outputs and nonces, creators of pools, delegations, tokens and orders. *)
Theorem C62_store_matches_pool ops l : history mk cfg ops l ->
  exists s, do_ops iter mk cfg empty_store ops = Some s /\ store_exact mk l s.
Proof using Hiter Hcount. intros H. destruct (history_spec iter Hiter mk cfg Hcount ops l H) as (s & E & HS & _). eauto. Qed.
(** Every history can be continued with any admissible transaction and any eviction. *)
Theorem C62_history_goes_on ops l op : history mk cfg ops l -> match op with OpAdd e => admissible mk l e | OpEvict _ _ => True end ->
  exists l', history mk cfg (ops ++ [op]) l'.
Proof using Hiter Hcount. exact (history_goes_on iter Hiter mk cfg Hcount ops l op). Qed.

(** C63: throwing out a transaction removes it and its descendants and nothing else, and reports them children first. *)
Theorem C63_eviction ops l id r : history mk cfg ops l ->
  exists s s' out l', do_ops iter mk cfg empty_store ops = Some s /\ drop_tx_and_descendants iter mk s id r = Ok (s', out) /\
    history mk cfg (ops ++ [OpEvict id r]) l' /\ store_exact mk l' s' /\
    (forall x, x ∈ l' <-> x ∈ l /\ te_id x <> id /\ ~ ancestor mk l id (te_id x)) /\
    NoDup (map me_id out) /\ (forall x, x ∈ map me_entry out <-> x ∈ l /\ (te_id x = id \/ ancestor mk l id (te_id x))) /\
    (forall a m b, out = a ++ m :: b -> forall x, x ∈ l -> ancestor mk l (me_id m) (te_id x) -> te_id x ∈ map me_id a).
Proof using Hiter Hcount.
  intros H. destruct (history_spec iter Hiter mk cfg Hcount ops l H) as (s & E & HS & HPO).
  destruct (evict_spec iter Hiter mk l s id r HS HPO) as (s' & ms & l' & Ed & HS' & Hsub & Hl' & Hn & Hm & Ho).
  exists s, s', ms, l'. split; [exact E|]. split; [exact Ed|]. split; [|auto 10]. eapply hist_step; [exact H|]. by apply ev_evict.
Qed.
(** No transaction stays behind without one of the transactions it was built on. *)
Theorem C63_no_child_left_behind ops l op l' p c : history mk cfg ops l -> evolves mk cfg l op l' ->
  parent mk l p c -> c ∈ ids l' -> p ∈ ids l'.
Proof using.
  intros H Hev Hp Hc. destruct Hev as [e HA _|e HA _|id r l' Hs Hl'].
  - apply parent_in in Hp as [Hp _]. apply ids_elem in Hp as (x & Hx & <-). apply ids_elem. exists x. split; [apply elem_snoc; by left|reflexivity].
  - by apply parent_in in Hp as [].
  - destruct (parent_in _ _ _ _ Hp) as [Hpl _]. apply ids_elem in Hpl as (x & Hx & <-). apply ids_elem in Hc as (y & Hy & <-).
    apply Hl' in Hy as (Hy & Hne & Hna). apply ids_elem. exists x. split; [|reflexivity]. apply Hl'. split; [exact Hx|].
    split; [intros E; apply Hna; rewrite <- E; by apply tc_once|]. intros Ha. apply Hna. eapply tc_r; eassumption.
Qed.

(** C64: no cluster of the pool is ever larger than the limits. *)
Theorem C64_clusters_within_limits ops l x : history mk cfg ops l -> x ∈ ids l -> cluster_fits mk cfg l x.
Proof using. intros H. by apply (history_clusters mk cfg ops l H). Qed.
(** An admissible transaction is taken in exactly if its cluster would be within the limits; a refusal leaves the store as it was. *)
Theorem C64_taken_in_iff_cluster_fits ops l e : history mk cfg ops l -> admissible mk l e ->
  exists s, do_ops iter mk cfg empty_store ops = Some s /\
    ((exists s', add_transaction iter mk cfg s e = (s', Ok tt)) <-> cluster_fits mk cfg (l ++ [e]) (te_id e)) /\
    (~ cluster_fits mk cfg (l ++ [e]) (te_id e) ->
       exists er, add_transaction iter mk cfg s e = (s, Err er) /\ (er = PClusterCount \/ er = PClusterSize)).
Proof using Hiter Hcount.
  intros H HA. destruct (history_spec iter Hiter mk cfg Hcount ops l H) as (s & E & HS & HPO). exists s. split; [exact E|].
  destruct (add_transaction_spec iter Hiter mk cfg Hcount l s e HS HPO HA) as [(s' & Es & Hf & _)|(er & Es & Her & Hn)]; rewrite Es.
  - split; [split; [auto|eauto]|contradiction].
  - split; [split; [intros (s' & [=])|contradiction]|eauto].
Qed.

(** C65: taking all transactions out of the pool gives them in the order in which they came. *)
Theorem C65_order_of_arrival ops l : history mk cfg ops l ->
  exists s, do_ops iter mk cfg empty_store ops = Some s /\ into_transactions s = Ok l.
Proof using Hiter Hcount.
  intros H. destruct (history_spec iter Hiter mk cfg Hcount ops l H) as (s & E & HS & HPO). exists s. split; [exact E|].
  apply (into_transactions_spec mk); [exact (po_nodup _ _ HPO)|exact HS].
Qed.
(** In that order every transaction comes after those it was built on. *)
Theorem C65_parents_come_first ops l p c l1 l2 : history mk cfg ops l -> parent mk l p c -> ids l = l1 ++ c :: l2 -> p ∈ l1.
Proof using.
  intros H (ep & ec & Hs & <- & <- & _) E. pose proof (history_nodup _ _ _ _ H) as HN.
  apply (sublist_map te_id) in Hs. cbn in Hs. fold (ids l) in Hs. rewrite E in Hs, HN. clear - Hs HN.
  apply NoDup_app in HN as (_ & Hd & HN). apply NoDup_cons in HN as [Hn _].
  apply sublist_app_r in Hs as (k1 & k2 & Ek & H1 & H2). destruct k1 as [|u k1]; cbn in Ek.
  - subst k2. exfalso. apply sublist_cons_r in H2 as [H2|(k & [= E1 E2] & H2)].
    + apply Hn. apply (sublist_in _ _ H2). right. left.
    + subst k. apply Hn. apply (sublist_in _ _ H2). left.
  - injection Ek as <- _. apply (sublist_in _ _ H1). left.
Qed.
End properties.
Print Assumptions C62_store_matches_pool.
Print Assumptions C62_history_goes_on.
Print Assumptions C63_eviction.
Print Assumptions C63_no_child_left_behind.
Print Assumptions C64_clusters_within_limits.
Print Assumptions C64_taken_in_iff_cluster_fits.
Print Assumptions C65_order_of_arrival.
Print Assumptions C65_parents_come_first.

(** ** An example: a transaction, one that spends its output, one that stakes to the delegation it creates, and one that builds on
    both; then the second one is thrown out. *)
Definition ex_makers : id_makers :=
  IdMakers (fun k => 1000 + snd k) (fun k => 2000 + snd k) (fun k => 3000 + snd k).
Definition ex_cfg : pool_cfg := PoolCfg 4 2000 100.
Definition ex_a : tx_entry := TxEntry (Transaction 100 [InUtxo (FromTx 1, 7)] [OTransfer (OvCoin 5) 1; OCreateDelegationId 9 50]) 10 400 4000.
Definition ex_b : tx_entry := TxEntry (Transaction 101 [InUtxo (FromTx 100, 0)] [OTransfer (OvCoin 4) 1]) 20 300 600.
Definition ex_c : tx_entry := TxEntry (Transaction 102 [InUtxo (FromTx 2, 0)] [OTransfer (OvCoin 1) 1; ODelegateStaking 8 1007]) 20 500 9000.
Definition ex_d : tx_entry := TxEntry (Transaction 103 [InUtxo (FromTx 102, 0); InUtxo (FromTx 101, 0)] []) 30 700 700.
Definition ex_e : tx_entry := TxEntry (Transaction 104 [InAccount 0 1007 5; InUtxo (FromTx 3, 3)] []) 40 700 7000.
Definition ex_pool_ops : list pool_op := [OpAdd ex_a; OpAdd ex_b; OpAdd ex_c; OpAdd ex_d].
Lemma admissible_check mk l e :
  forallb (fun x => negb (te_id x =? te_id e)) l = true -> 0 < te_size e ->
  bool_decide (NoDup (consumed_deps (te_tx e))) = true -> bool_decide (NoDup (provided_deps mk (te_tx e))) = true ->
  forallb (fun x => forallb (fun c => negb (bool_decide (c ∈ consumed_deps (te_tx x)))) (consumed_deps (te_tx e))) l = true ->
  forallb (fun x => forallb (fun c => negb (bool_decide (c ∈ provided_deps mk (te_tx x)))) (provided_deps mk (te_tx e))) l = true ->
  sum_of te_fee (l ++ [e]) * 1000 <= U128_MAX -> sum_of te_size (l ++ [e]) <= U64_MAX -> admissible mk l e.
Proof.
  intros H1 H2 H3 H4 H5 H6 H7 H8. split; auto.
  - intros H. apply ids_elem in H as (x & Hx & E). rewrite forallb_forall in H1. specialize (H1 x (proj1 (elem_of_list_In _ _) Hx)).
    apply negb_true_iff, N.eqb_neq in H1. contradiction.
  - by apply bool_decide_eq_true in H3.
  - by apply bool_decide_eq_true in H4.
  - intros x c Hx U1 U2. rewrite forallb_forall in H5. specialize (H5 x (proj1 (elem_of_list_In _ _) Hx)). rewrite forallb_forall in H5.
    apply uses_up_spec in U1. apply uses_up_spec in U2. specialize (H5 c (proj1 (elem_of_list_In _ _) U2)).
    apply negb_true_iff, bool_decide_eq_false in H5. contradiction.
  - intros x c Hx U1 U2. rewrite forallb_forall in H6. specialize (H6 x (proj1 (elem_of_list_In _ _) Hx)). rewrite forallb_forall in H6.
    apply creates_spec in U1. apply creates_spec in U2. specialize (H6 c (proj1 (elem_of_list_In _ _) U2)).
    apply negb_true_iff, bool_decide_eq_false in H6. contradiction.
Qed.
Lemma history_add_ok mk cfg ops l e :
  1 <= pc_max_count cfg -> history mk cfg ops l -> admissible mk l e ->
  match do_ops elements mk cfg empty_store ops with Some s => match snd (add_transaction elements mk cfg s e) with Ok _ => true | _ => false end | None => false end = true ->
  history mk cfg (ops ++ [OpAdd e]) (l ++ [e]).
Proof.
  intros Hc H HA E. destruct (C64_taken_in_iff_cluster_fits elements (fun s => Permutation_refl _) mk cfg Hc ops l e H HA) as (s & Es & Hiff & Hno).
  rewrite Es in E. eapply hist_step; [exact H|]. apply ev_add; [exact HA|]. apply Hiff.
  destruct (history_spec elements (fun s => Permutation_refl _) mk cfg Hc ops l H) as (s0 & E0 & HS & HPO). rewrite Es in E0. injection E0 as <-.
  destruct (add_transaction_spec elements (fun s => Permutation_refl _) mk cfg Hc l s e HS HPO HA) as [(s' & E' & _)|(er & E' & _)]; [eauto|].
  rewrite E' in E. discriminate.
Qed.
Ltac concrete_admissible := apply admissible_check; vm_compute; solve [reflexivity|discriminate].
Example ex_pool_history : history ex_makers ex_cfg ex_pool_ops [ex_a; ex_b; ex_c; ex_d].
Proof.
  assert (Hc : 1 <= pc_max_count ex_cfg) by (vm_compute; discriminate).
  assert (H1 : history ex_makers ex_cfg [OpAdd ex_a] [ex_a]).
  { apply (history_add_ok ex_makers ex_cfg [] [] ex_a Hc); [constructor|concrete_admissible|vm_compute; reflexivity]. }
  assert (H2 : history ex_makers ex_cfg [OpAdd ex_a; OpAdd ex_b] [ex_a; ex_b]).
  { apply (history_add_ok ex_makers ex_cfg [OpAdd ex_a] [ex_a] ex_b Hc); [exact H1|concrete_admissible|vm_compute; reflexivity]. }
  assert (H3 : history ex_makers ex_cfg [OpAdd ex_a; OpAdd ex_b; OpAdd ex_c] [ex_a; ex_b; ex_c]).
  { apply (history_add_ok ex_makers ex_cfg [OpAdd ex_a; OpAdd ex_b] [ex_a; ex_b] ex_c Hc); [exact H2|concrete_admissible|vm_compute; reflexivity]. }
  apply (history_add_ok ex_makers ex_cfg [OpAdd ex_a; OpAdd ex_b; OpAdd ex_c] [ex_a; ex_b; ex_c] ex_d Hc); [exact H3|concrete_admissible|vm_compute; reflexivity].
Qed.
(** [ex_a] has three descendants, the cluster is full (a fifth transaction is refused), and throwing out [ex_b] takes [ex_d] along. *)
Example ex_pool_run :
  match do_ops elements ex_makers ex_cfg empty_store ex_pool_ops with
  | Some s =>
      option_map (fun m => (me_count_d m, me_fees_d m, me_size_d m)) (st_txs s !! 100) = Some (4, 14300, 1900) /\
      option_map (fun m => (me_count_a m, elements (me_parents m))) (st_txs s !! 103) = Some (4, [101; 102]) /\
      snd (add_transaction elements ex_makers ex_cfg s ex_e) = Err PClusterCount /\
      match drop_tx_and_descendants elements ex_makers s 101 RExpiry with
      | Ok (s', out) => map me_id out = [103; 101] /\ map te_id (match into_transactions s' with Ok l => l | _ => [] end) = [100; 102] /\
          option_map (fun m => (me_count_d m, me_fees_d m, me_size_d m)) (st_txs s' !! 100) = Some (2, 13000, 900)
      | _ => False
      end
  | None => False
  end.
Proof. vm_compute. repeat split. Qed.

(** ** What one might expect but does not hold *)
(** Removing a transaction on its own, as having been put in a block, while one of its parents is still in the pool: the grandparents
    keep counting the grandchildren although no link is left between them. (The pool never does this: when a new block comes, it is
    built anew.) *)
Theorem C62_removal_of_middle_keeps_totals_refuted :
  exists ops l, history ex_makers ex_cfg ops l /\
    match do_ops elements ex_makers ex_cfg empty_store ops with
    | Some s =>
        match remove_tx elements ex_makers s 101 RBlock with
        | Ok (s', _) =>
            option_map (fun m => (elements (me_children m), me_count_d m)) (st_txs s' !! 100) = Some ([102], 3) /\
            option_map (fun m => elements (me_children m)) (st_txs s' !! 102) = Some [103] /\
            option_map (fun m => (elements (me_parents m), me_count_a m)) (st_txs s' !! 103) = Some ([102], 3) /\
            (match remove_tx elements ex_makers s' 102 RBlock with
             | Ok (s2, _) => option_map (fun m => (elements (me_children m), me_count_d m)) (st_txs s2 !! 100) = Some ([], 2)
             | _ => False
             end)
        | _ => False
        end
    | None => False
    end.
Proof.
  exists ex_pool_ops, [ex_a; ex_b; ex_c; ex_d]. split; [exact ex_pool_history|]. vm_compute. repeat split.
Qed.
Print Assumptions C62_removal_of_middle_keeps_totals_refuted.
(** The traversal that yields children before their parents does so only from a single starting point: when it starts from a child and
    its parent, the parent comes after the child's turn but so may a child after its parent, and a repeated start is yielded twice. *)
Theorem C63_many_roots_children_first_refuted :
  let children := fun x => if x =? 1 then [2] else [] in
  postorder children 20 [1; 2] = Some [1; 2] /\ postorder children 20 [2; 2] = Some [2; 2].
Proof. vm_compute. split; reflexivity. Qed.
Print Assumptions C63_many_roots_children_first_refuted.
(** Fees beyond a thousandth of the largest amount stop the node instead of being refused (the supply of coins excludes them). *)
Theorem C62_huge_fee_is_refused_refuted : exists e, te_size e = 400 /\ te_fee e < U128_MAX /\
  snd (add_transaction elements ex_makers ex_cfg empty_store e) = Panic.
Proof.
  exists (TxEntry (te_tx ex_a) 10 400 (U128_MAX / 1000 + 1)). split; [reflexivity|]. split; [vm_compute; reflexivity|]. vm_compute. reflexivity.
Qed.
Print Assumptions C62_huge_fee_is_refused_refuted.
