(** Whole transactions, blocks and chains. *)
From Coq Require Import Zify ZifyN ZifyBool.
From Verif Require Import Base ScannerModel ScannerSpec ScannerTables ScannerLedger ScannerSteps ScannerProofs.
From Verif Require BlockTreeModel BlockTreeSpec BlockTreeMoreProofs.
Local Open Scope N_scope.

(** Exactly the outputs of rewards, and those whose lock has passed, are open *)
Definition opened (h m : N) (w : ledger) : Prop := ∀ e, e ∈ made_ w -> (place e ∈ open_ w ↔ is_reward e || is_open h m e = true).
Record phase (h m : N) (w : ledger) (d : db) (l : list made) (s : list outpoint) (w' : ledger) (d' : db) : Prop := {
  p_inv : inv w' d'; p_wf : wf h d'; p_opened : opened h m w'; p_made : made_ w' = made_ w ++ l; p_spent : spent_ w' = spent_ w ∪ list_to_set s;
  p_below : same_below h d d'; p_main : main d' = main d;
  p_nft : ∀ t, is_Some (nft d' !! t) -> is_Some (nft d !! t) ∨ ∃ e a, e ∈ made_ w' ∧ what e = IssueNft t a }.
Lemma phase_nil h m w d : inv w d -> wf h d -> opened h m w -> phase h m w d [] [] w d.
Proof. intros. split; try done; [by rewrite app_nil_r|set_solver|auto]. Qed.
Lemma phase_app h m w d l1 s1 w1 d1 l2 s2 w2 d2 : phase h m w d l1 s1 w1 d1 -> phase h m w1 d1 l2 s2 w2 d2 -> phase h m w d (l1 ++ l2) (s1 ++ s2) w2 d2.
Proof.
  intros P Q. split; try apply Q.
  - rewrite (p_made _ _ _ _ _ _ _ _ Q), (p_made _ _ _ _ _ _ _ _ P). by rewrite app_assoc.
  - rewrite (p_spent _ _ _ _ _ _ _ _ Q), (p_spent _ _ _ _ _ _ _ _ P). rewrite list_to_set_app_L. set_solver.
  - eapply same_below_trans; [apply P|apply Q].
  - rewrite (p_main _ _ _ _ _ _ _ _ Q). apply P.
  - intros t Ht. destruct (p_nft _ _ _ _ _ _ _ _ Q t Ht) as [Ht'|]; [|by right]. destruct (p_nft _ _ _ _ _ _ _ _ P t Ht') as [|(e & a & He & Hw)]; [by left|right].
    exists e, a. split; [|done]. rewrite (p_made _ _ _ _ _ _ _ _ Q). apply elem_of_app. by left.
Qed.
(** Folds of such phases *)
Lemma phase_fold {X} (f : db -> X -> res unit db) (g : X -> list made) (sp : X -> list outpoint) h m xs : ∀ w d d',
  inv w d -> wf h d -> opened h m w ->
  (∀ xs1 x xs2 w1 d1 d1', xs = xs1 ++ x :: xs2 -> phase h m w d (concat (map g xs1)) (concat (map sp xs1)) w1 d1 -> f d1 x = Ok d1' ->
     ∃ w1', phase h m w1 d1 (g x) (sp x) w1' d1') ->
  rfold f xs d = Ok d' -> ∃ w', phase h m w d (concat (map g xs)) (concat (map sp xs)) w' d'.
Proof.
  intros w d d' I W O. induction xs as [|x xs IH] using rev_ind in d' |- *; intros HS H.
  - cbn in H. injection H as <-. exists w. by apply phase_nil.
  - assert (R : rfold f (xs ++ [x]) d = let? s := rfold f xs d in rfold f [x] s). { clear. revert d. induction xs; intros d; cbn; [done|]. by destruct (f d a). }
    rewrite R in H. apply bind_ok in H as (d1 & H1 & H2).
    destruct (IH d1) as [w1 P1]; [|done|].
    { intros xs1 y xs2 w1 d2 d2' -> Hp Hf. eapply HS; [|exact Hp|exact Hf]. by rewrite <- app_assoc. }
    cbn in H2. destruct (f d1 x) as [d2|?|] eqn:F; try done. injection H2 as <-.
    destruct (HS xs x [] w1 d1 d2 eq_refl P1 F) as [w2 P2]. exists w2. rewrite !map_app, !concat_app. cbn. rewrite !app_nil_r. by eapply phase_app.
Qed.

Lemma opened_with h m w e : opened h m w -> place e ∉ map place (made_ w) -> place e ∉ open_ w -> is_reward e = false -> opened h m (with_output h m w e).
Proof.
  intros O Hf Ho Hr x. unfold with_output. destruct (is_open h m e) eqn:E; cbn; intros Hx; apply in_snoc in Hx as [Hx|Hx].
  - rewrite <- (O x Hx). pose proof (fresh_ne _ _ _ Hf Hx). set_solver.
  - subst x. rewrite E, orb_true_r. set_solver.
  - by apply O.
  - subst x. rewrite E, Hr. done.
Qed.
Lemma opened_with_reward h m w e : opened h m w -> place e ∉ map place (made_ w) -> is_reward e = true -> opened h m (with_open e w).
Proof.
  intros O Hf Hr x. cbn. intros Hx; apply in_snoc in Hx as [Hx|Hx].
  - rewrite <- (O x Hx). pose proof (fresh_ne _ _ _ Hf Hx). set_solver.
  - subst x. rewrite Hr. set_solver.
Qed.
Lemma fresh_open w d e : inv w d -> place e ∉ map place (made_ w) -> place e ∉ open_ w.
Proof. intros I Hf Ho. apply Hf. apply (i_dom _ _ I). auto. Qed.

(** Numbered outputs *)
Lemma imap_pair_split {A} (l : list A) xs1 x xs2 : imap pair l = xs1 ++ x :: xs2 -> ∃ l1 l2, l = l1 ++ x.2 :: l2 ∧ x.1 = length l1 ∧ xs1 = imap pair l1.
Proof.
  intros E. set (n := length xs1). exists (take n l), (drop (S n) l).
  assert (L : imap pair l !! n = Some x) by (rewrite E; by apply list_lookup_middle).
  rewrite list_lookup_imap in L. destruct (l !! n) as [y|] eqn:Ey; [|done]. cbn in L. injection L as <-. cbn.
  split_and!.
  - by rewrite (take_drop_middle l n y Ey).
  - rewrite take_length. apply lookup_lt_Some in Ey. lia.
  - assert (T : take n (imap pair l) = xs1) by (rewrite E; apply take_app). rewrite <- T. clear. apply list_eq. intros i.
    rewrite list_lookup_imap. destruct (decide (i < n)%nat); [rewrite !lookup_take by done; by rewrite list_lookup_imap|rewrite !lookup_take_ge by lia; done].
Qed.
Lemma concat_singles {A B} (f : A -> B) l : concat (map (fun x => [f x]) l) = map f l.
Proof. induction l; cbn; congruence. Qed.
Lemma concat_nils {A B} (l : list A) : concat (map (fun _ => @nil B) l) = [].
Proof. by induction l. Qed.
Lemma map_imap {A B C} (f : B -> C) (g : nat -> A -> B) l : map f (imap g l) = imap (fun i x => f (g i x)) l.
Proof. revert g. induction l as [|x l IH]; intros g; cbn; [done|]. f_equal. apply (IH (fun i => g (S i))). Qed.

Lemma NoDup_place_fresh (l1 : list made) e (l2 : list made) : NoDup (map place (l1 ++ e :: l2)) -> place e ∉ map place l1.
Proof. rewrite map_app. cbn. intros (_ & Hd & _)%NoDup_app. intros Hin. apply (Hd _ Hin). left. Qed.

Lemma outputs_phase id h time m w d outs d' : inv w d -> wf h d -> opened h m w -> Forall proper_output outs ->
  NoDup (map place (made_ w ++ imap (fun i out => Made (Transaction id, N.of_nat i) out h time) outs)) ->
  rfold (scan_output id h time m) (imap pair outs) d = Ok d' ->
  ∃ w', phase h m w d (imap (fun i out => Made (Transaction id, N.of_nat i) out h time) outs) [] w' d'.
Proof.
  intros I W O FP ND H. set (mk := fun x : nat * output => Made (Transaction id, N.of_nat x.1) x.2 h time).
  pose proof (fun HS => phase_fold (scan_output id h time m) (fun x => [mk x]) (fun _ => []) h m _ w d d' I W O HS H) as Q.
  destruct Q as [w' P].
  - intros xs1 x xs2 w1 d1 d1' E P F. destruct (imap_pair_split _ _ _ _ E) as (l1 & l2 & E1 & E2 & E3).
    assert (Hf : place (mk x) ∉ map place (made_ w1)).
    { rewrite (p_made _ _ _ _ _ _ _ _ P). rewrite concat_singles. subst xs1. rewrite map_imap. unfold mk. cbn [fst snd].
      rewrite E1, imap_app in ND. cbn in ND. rewrite app_assoc in ND. rewrite Nat.add_0_r in ND. rewrite E2. by apply NoDup_place_fresh in ND. }
    pose proof (fresh_open _ _ _ (p_inv _ _ _ _ _ _ _ _ P) Hf) as Ho.
    assert (Pr : proper_output x.2). { rewrite Forall_forall in FP. apply FP. rewrite E1. set_solver. }
    destruct x as [i out]. destruct (scan_output_step id h time m w1 d1 i out d1') as [S1 S2 S3 S4 S5]; try done; try apply P.
    exists (with_output h m w1 (mk (i, out))). split; try done.
    + apply opened_with; try done. apply P.
    + unfold with_output. destruct (is_open _ _ _); done.
    + unfold with_output. destruct (is_open _ _ _); cbn; set_solver.
  - exists w'. rewrite concat_singles, concat_nils, map_imap in P. exact P.
Qed.
Lemma reward_phase id h time m w d outs d' : inv w d -> wf h d -> opened h m w -> Forall proper_reward outs ->
  NoDup (map place (made_ w ++ made_by_reward id h time outs)) ->
  update_tables_from_block_reward id h outs d = Ok d' ->
  ∃ w', phase h m w d (made_by_reward id h time outs) [] w' d'.
Proof.
  intros I W O FP ND H. unfold made_by_reward in *. set (mk := fun x : nat * output => Made (BlockReward id, N.of_nat x.1) x.2 h time).
  pose proof (fun HS => phase_fold (scan_reward_output id h) (fun x => [mk x]) (fun _ => []) h m _ w d d' I W O HS H) as Q.
  destruct Q as [w' P].
  - intros xs1 x xs2 w1 d1 d1' E P F. destruct (imap_pair_split _ _ _ _ E) as (l1 & l2 & E1 & E2 & E3).
    assert (Hf : place (mk x) ∉ map place (made_ w1)).
    { rewrite (p_made _ _ _ _ _ _ _ _ P). rewrite concat_singles. subst xs1. rewrite map_imap. unfold mk. cbn [fst snd].
      rewrite E1, imap_app in ND. cbn in ND. rewrite app_assoc in ND. rewrite Nat.add_0_r in ND. rewrite E2. by apply NoDup_place_fresh in ND. }
    assert (Pr : proper_reward x.2). { rewrite Forall_forall in FP. apply FP. rewrite E1. set_solver. }
    destruct x as [i out]. destruct (scan_reward_step id h time w1 d1 i out d1') as [S1 S2 S3 S4 S5]; try done; try apply P.
    exists (with_open (mk (i, out)) w1). split; try done.
    + apply opened_with_reward; try done. apply P.
    + cbn; set_solver.
  - exists w'. rewrite concat_singles, concat_nils, map_imap in P. exact P.
Qed.

(** Spending outputs that may be spent *)
Lemma may_spend_open h m h' m' (l : list made) w d o : inv w d -> opened h m w -> made_ w = l -> may_spend l (elements (spent_ w)) h' m' o -> h' <= h -> m' <= m ->
  ∃ e, e ∈ made_ w ∧ place e = o ∧ place e ∈ open_ w ∧ place e ∉ spent_ w ∧ spendable (what e) = true.
Proof.
  intros I O <- (e & He & <- & Hn & Hs & Hop) H1 H2. exists e. split_and!; try done.
  - apply O; [done|]. assert (is_open h m e = true) as ->; [|by rewrite orb_true_r]. unfold is_open in *. destruct (what e); try done.
    destruct l; cbn in *; lia.
  - by rewrite elem_of_elements in Hn.
Qed.
Lemma inputs_phase h m w d sp d' : inv w d -> wf h d -> opened h m w -> NoDup sp ->
  (∀ o, o ∈ sp -> ∃ e, e ∈ made_ w ∧ place e = o ∧ place e ∈ open_ w ∧ place e ∉ spent_ w ∧ spendable (what e) = true) ->
  rfold (scan_input h) sp d = Ok d' -> ∃ w', phase h m w d [] sp w' d' ∧ open_ w' = open_ w.
Proof.
  intros I W O. revert w d I W O. induction sp as [|o sp IH]; intros w d I W O ND HS H.
  - cbn in H. injection H as <-. exists w. split; [by apply phase_nil|done].
  - cbn in H. destruct (scan_input h d o) as [d1|?|] eqn:F; try done. destruct (HS o (elem_of_list_here _ _)) as (e & He & <- & Ho & Hs & Es).
    destruct (scan_input_step h w d e d1 I W He Ho Hs Es F) as [S1 S2 S3 S4 S5]. apply NoDup_cons in ND as [Hn ND].
    assert (O1 : opened h m (with_spent (place e) w)) by (exact O).
    destruct (IH (with_spent (place e) w) d1 S1 S2 O1 ND) as (w' & P & E); [|done|].
    { intros o Ho'. destruct (HS o) as (x & Hx & <- & ? & ? & ?); [by right|]. exists x. cbn. split_and!; try done. apply not_elem_of_union. split; [|done]. apply not_elem_of_singleton. intros Q. by rewrite Q in Ho'. }
    exists w'. split; [|done]. split; try apply P.
    + rewrite (p_spent _ _ _ _ _ _ _ _ P). cbn. clear. set_solver.
    + eapply same_below_trans; [exact S3|apply P].
    + rewrite (p_main _ _ _ _ _ _ _ _ P). done.
    + intros t Ht. destruct (p_nft _ _ _ _ _ _ _ _ P t Ht) as [Ht'|]; [|by right]. destruct (S5 t Ht') as [|(x & a & Hx & Hw)]; [by left|right].
      exists x, a. split; [|done]. rewrite (p_made _ _ _ _ _ _ _ _ P), app_nil_r. done.
Qed.
Lemma kernel_phase h m w d sp d' : inv w d -> wf h d -> opened h m w -> NoDup sp ->
  (∀ o, o ∈ sp -> may_stake (made_ w) (elements (spent_ w)) o) ->
  rfold (scan_kernel_input h) sp d = Ok d' -> ∃ w', phase h m w d [] sp w' d'.
Proof.
  intros I W O. revert w d I W O. induction sp as [|o sp IH]; intros w d I W O ND HS H.
  - cbn in H. injection H as <-. exists w. by apply phase_nil.
  - cbn in H. destruct (scan_kernel_input h d o) as [d1|?|] eqn:F; try done. destruct (HS o (elem_of_list_here _ _)) as (e & He & <- & Hs & Hk).
    rewrite elem_of_elements in Hs.
    assert (Ho : place e ∈ open_ w). { apply O; [done|]. unfold is_open. destruct (what e); try done; apply orb_true_r. }
    destruct (scan_kernel_step h w d e d1 I W He Ho Hs) as [S1 S2 S3 S4 S5]; try done; try (by destruct (what e)).
    apply NoDup_cons in ND as [Hn ND].
    destruct (IH (with_spent (place e) w) d1 S1 S2 O ND) as (w' & P); [|done|].
    { intros o Ho'. destruct (HS o) as (x & Hx & <- & Hns & ?); [by right|]. exists x. cbn. split_and!; try done. rewrite elem_of_elements in *. apply not_elem_of_union. split; [|done]. apply not_elem_of_singleton. intros Q. by rewrite Q in Ho'. }
    exists w'. split; try apply P.
    + rewrite (p_spent _ _ _ _ _ _ _ _ P). cbn. clear. set_solver.
    + eapply same_below_trans; [exact S3|apply P].
    + rewrite (p_main _ _ _ _ _ _ _ _ P). done.
    + intros t Ht. destruct (p_nft _ _ _ _ _ _ _ _ P t Ht) as [Ht'|]; [|by right]. destruct (S5 t Ht') as [|(x & a & Hx & Hw)]; [by left|right].
      exists x, a. split; [|done]. rewrite (p_made _ _ _ _ _ _ _ _ P), app_nil_r. done.
Qed.

Lemma may_spend_ext l s s' h m o : (∀ x, x ∈ s' -> x ∈ s) -> may_spend l s h m o -> may_spend l s' h m o.
Proof. intros Hs (e & ? & ? & Hn & ?). exists e. split_and!; naive_solver. Qed.
Lemma may_stake_ext l s s' o : (∀ x, x ∈ s' -> x ∈ s) -> may_stake l s o -> may_stake l s' o.
Proof. intros Hs (e & ? & ? & Hn & ?). exists e. split_and!; naive_solver. Qed.

Lemma tx_phase h time m m' w d x d' : inv w d -> wf h d -> opened h m w -> m' <= m -> NoDup (spends x) -> Forall proper_output (outs x) ->
  (∀ o, o ∈ spends x -> may_spend (made_ w) (elements (spent_ w)) h m' o) -> NoDup (map place (made_ w ++ made_by_tx h time x)) ->
  scan_tx h time m d x = Ok d' -> ∃ w', phase h m w d (made_by_tx h time x) (spends x) w' d'.
Proof.
  intros I W O Hm ND FP HS NDm H. unfold scan_tx in H. apply bind_ok in H as (? & _ & H). apply bind_ok in H as (d1 & H1 & H2).
  destruct (inputs_phase h m w d (spends x) d1 I W O ND) as (w1 & P1 & _); [|done|].
  { intros o Ho. eapply (may_spend_open h m h m'); try done. by apply HS. }
  destruct (outputs_phase (tx_id x) h time m w1 d1 (outs x) d') as (w2 & P2); try apply P1; try done.
  { rewrite (p_made _ _ _ _ _ _ _ _ P1), app_nil_r. exact NDm. }
  exists w2. pose proof (phase_app _ _ _ _ _ _ _ _ _ _ _ _ P1 P2) as P. by rewrite app_nil_r in P.
Qed.

Lemma txs_phase h time m m' w d l d' : inv w d -> wf h d -> opened h m w -> m' <= m ->
  (∀ x, x ∈ l -> Forall proper_output (outs x)) ->
  (∀ l1 x l2, l = l1 ++ x :: l2 -> NoDup (spends x) ∧
     ∀ o, o ∈ spends x -> may_spend (made_ w ++ made_by_txs h time l1) (elements (spent_ w) ++ spent_by_txs l1) h m' o) ->
  NoDup (map place (made_ w ++ made_by_txs h time l)) ->
  rfold (scan_tx h time m) l d = Ok d' -> ∃ w', phase h m w d (made_by_txs h time l) (spent_by_txs l) w' d'.
Proof.
  intros I W O Hm FP HS ND H. eapply (phase_fold (scan_tx h time m) (made_by_tx h time) spends); try done.
  intros xs1 x xs2 w1 d1 d1' E P F. destruct (HS _ _ _ E) as [N1 N2].
  apply (tx_phase h time m m'); try apply P; try done.
  - apply FP. rewrite E. set_solver.
  - intros o Ho. rewrite (p_made _ _ _ _ _ _ _ _ P), (p_spent _ _ _ _ _ _ _ _ P). eapply may_spend_ext; [|by apply N2].
    intros y Hy. apply elem_of_elements, elem_of_union in Hy. rewrite elem_of_app, elem_of_elements. by rewrite elem_of_list_to_set in Hy.
  - rewrite (p_made _ _ _ _ _ _ _ _ P). rewrite E in ND. unfold made_by_txs in ND. rewrite (map_app (made_by_tx h time)), concat_app in ND. cbn [map concat] in ND.
    rewrite !app_assoc in ND. rewrite (map_app place) in ND. by apply NoDup_app in ND as (ND & _).
Qed.

(** * Unlocking *)
Lemma opens_iff h prev new e u : end_of e = Some u -> prev <= new ->
  (opens (h + 1) prev new u = true ↔ is_open h prev e = false ∧ is_open (h + 1) new e = true).
Proof.
  unfold end_of, is_open. destruct (what e) as [|v a l| | | | | | | | | |]; try done. intros [= <-] Hle. destruct l; cbn; lia.
Qed.
Lemma is_open_mono h m h' m' e : h <= h' -> m <= m' -> is_open h m e = true -> is_open h' m' e = true.
Proof. unfold is_open. destruct (what e) as [|v a l| | | | | | | | | |]; try done. destruct l; cbn; lia. Qed.

Lemma until_now_spec h prev new d o out : (o, out) ∈ get_locked_utxos_until_now h prev new d ↔ ∃ u, latest o (locked_utxo d) = Some (out, u) ∧ opens h prev new u = true.
Proof.
  unfold get_locked_utxos_until_now, latest. rewrite elem_of_list_omap. split.
  - intros ([o' l] & Hin & E). apply elem_of_map_to_list in Hin. cbn in E. destruct l as [|[h' [out' u]] l]; [done|]. cbn in E.
    destruct (opens h prev new u) eqn:Op; [|done]. injection E as -> ->. exists u. by rewrite Hin.
  - intros (u & E & Op). destruct (locked_utxo d !! o) as [l|] eqn:El; [|done]. cbn in E. destruct l as [|[h' x] l]; [done|]. cbn in E. injection E as ->.
    exists (o, (h', (out, u)) :: l). split; [by apply elem_of_map_to_list|]. cbn. by rewrite Op.
Qed.
Lemma until_now_nodup h prev new d : NoDup (map fst (get_locked_utxos_until_now h prev new d)).
Proof.
  unfold get_locked_utxos_until_now. pose proof (NoDup_fst_map_to_list (locked_utxo d)) as ND. induction (map_to_list (locked_utxo d)) as [|[o l] xs IH]; [constructor|].
  cbn in *. apply NoDup_cons in ND as [Hn ND]. destruct (head l) as [[h' [out u]]|]; [|by apply IH]. destruct (opens h prev new u); [|by apply IH].
  cbn. apply NoDup_cons. split; [|by apply IH]. intros Hin. apply Hn. apply elem_of_list_fmap in Hin as ([o' out'] & E & Hin). cbn in E. subst o'.
  apply elem_of_list_omap in Hin as ([o' l'] & Hin & E). apply elem_of_list_fmap. exists (o', l'). split; [|done]. cbn in *.
  destruct (head l') as [[h'' [out'' u'']]|]; [|done]. destruct (opens h prev new u''); [|done]. by injection E as -> _.
Qed.
Lemma unlock_fold h xs : ∀ w d d', inv w d -> wf h d -> NoDup (map fst xs) ->
  (∀ x, x ∈ xs -> ∃ e, e ∈ made_ w ∧ place e = x.1 ∧ what e = x.2 ∧ x.1 ∈ kept w ∧ x.1 ∉ open_ w) ->
  rfold (unlock h) xs d = Ok d' ->
  ∃ w', ok_step h d w' d' ∧ made_ w' = made_ w ∧ spent_ w' = spent_ w ∧ ∀ o, o ∈ open_ w' ↔ o ∈ open_ w ∨ o ∈ map fst xs.
Proof.
  induction xs as [|[o out] xs IH]; intros w d d' I W ND HS H.
  - cbn in H. injection H as <-. exists w. split; [split; try done; by left|]. split_and!; try done. intros o. cbn. rewrite elem_of_nil. tauto.
  - cbn in H. destruct (unlock h d (o, out)) as [d1|?|] eqn:F; try done. cbn in ND. apply NoDup_cons in ND as [Hn ND].
    destruct (HS (o, out) (elem_of_list_here _ _)) as (e & He & Hp & Hw & Hk & Ho). cbn in Hp, Hw, Hk, Ho. subst o out.
    destruct (unlock_step h w d e d1 I W He Hk Ho F) as [S1 S2 S3 S4 S5].
    destruct (IH (with_unlocked (place e) w) d1 d' S1 S2 ND) as (w' & [T1 T2 T3 T4 T5] & M & Sp & Op); [|done|].
    { intros x Hx. destruct (HS x) as (y & Hy & Hyp & Hyw & Hyk & Hyo); [by right|]. exists y. cbn. split_and!; try done.
      apply not_elem_of_union. split; [|done]. apply not_elem_of_singleton. intros Q. apply Hn. rewrite <- Q. by apply elem_of_list_fmap_1. }
    exists w'. split.
    { split; [done|done|by eapply same_below_trans|congruence|]. intros t Ht. destruct (T5 t Ht) as [Ht'|]; [|by right].
      destruct (S5 t Ht') as [|(x & a & Hx & Hw)]; [by left|right]. exists x, a. by rewrite M. } split_and!; try done.
    intros o. rewrite Op. cbn. rewrite elem_of_union, elem_of_singleton, elem_of_cons. tauto.
Qed.
Lemma unlock_phase h prev new w d d' : inv w d -> wf (h + 1) d -> opened h prev w -> prev <= new ->
  update_locked_amounts_for_current_block (h + 1) prev new d = Ok d' ->
  ∃ w', phase (h + 1) new w d [] [] w' d'.
Proof.
  intros I W O Hle H. unfold update_locked_amounts_for_current_block in H.
  assert (HS : ∀ x, x ∈ get_locked_utxos_until_now (h + 1) prev new d -> ∃ e, e ∈ made_ w ∧ place e = x.1 ∧ what e = x.2 ∧ x.1 ∈ kept w ∧ x.1 ∉ open_ w).
  { intros [o out] Hx. apply until_now_spec in Hx as (u & E & Op). apply (i_lu _ _ I) in E as (e & He & Hp & Hk & Hw & Hu). cbn in Hw, Hu.
    exists e. cbn. split_and!; try done. subst o. rewrite (O e He). destruct (i_kind _ _ I e He Hk) as [_ ->].
    apply (opens_iff h prev new e u Hu Hle) in Op as [-> _]. done. }
  destruct (unlock_fold (h + 1) _ w d d' I W (until_now_nodup _ _ _ _) HS H) as (w' & [T1 T2 T3 T4 T5] & M & Sp & Op).
  exists w'. split; try done.
  - intros e He. rewrite M in He. rewrite Op. rewrite (O e He). split.
    + intros [Q|Q].
      * apply orb_true_iff in Q as [->|Q]; [done|]. rewrite (is_open_mono h prev (h + 1) new e) by (done || lia). apply orb_true_r.
      * apply elem_of_list_fmap in Q as ([o out] & E & Hx). cbn in E. subst o. apply until_now_spec in Hx as (u & E & Hop).
        apply (i_lu _ _ I) in E as (y & Hy & Hp & Hk & Hw & Hu). rewrite (place_inj _ _ _ (i_nodup _ _ I) Hy He Hp) in Hu.
        apply (opens_iff h prev new e u Hu Hle) in Hop as [_ ->]. apply orb_true_r.
    + intros Q. destruct (is_reward e || is_open h prev e) eqn:B; [by left|right]. apply orb_false_iff in B as [Hr Hb]. rewrite Hr in Q. cbn in Q.
      assert (Hno : place e ∉ open_ w). { rewrite (O e He), Hr, Hb. done. }
      pose proof (i_kept _ _ I e He Hno) as Hk. destruct (i_kind _ _ I e He Hk) as [[u Hu] _].
      apply elem_of_list_fmap. exists (place e, what e). split; [done|]. apply until_now_spec. exists u. split.
      * apply (i_lu _ _ I). by exists e.
      * by apply (opens_iff h prev new e u Hu Hle).
  - by rewrite app_nil_r.
  - rewrite Sp. set_solver.
Qed.

(** * Times *)
Definition main_of (c : list block) : list (N * (N * N)) := rev (imap (fun i b => (N.of_nat i + 1, (block_id b, timestamp b))) c).
Lemma main_of_snoc c b : main_of (c ++ [b]) = (height c + 1, (block_id b, timestamp b)) :: main_of c.
Proof. unfold main_of. rewrite imap_app, rev_app_distr. cbn. by rewrite Nat.add_0_r. Qed.
Lemma main_times c : map (fun x => x.2.2) (main_of c) = rev (map timestamp c).
Proof.
  induction c as [|b c IH] using rev_ind; [done|]. rewrite main_of_snoc, map_app, rev_app_distr. cbn. by rewrite IH.
Qed.
Lemma latest_times g c d : main d = main_of c -> get_latest_blocktimestamps g d = take BlockTreeModel.MEDIAN_TIME_SPAN (times g c).
Proof. intros E. unfold get_latest_blocktimestamps. rewrite E, main_times. done. Qed.
Lemma times_snoc g c b : times g (c ++ [b]) = timestamp b :: times g c.
Proof. unfold times. cbn. rewrite map_app, rev_app_distr. done. Qed.
Lemma times_nonempty g c : times g c ≠ [].
Proof. unfold times. cbn. by destruct (rev _). Qed.
Lemma median_take l : median (take BlockTreeModel.MEDIAN_TIME_SPAN l) = median l.
Proof. unfold median, BlockTreeModel.median_of_times. by rewrite take_take, Nat.min_id. Qed.
Lemma median_cons_take x l : median (x :: take BlockTreeModel.MEDIAN_TIME_SPAN l) = median (x :: l).
Proof.
  unfold median, BlockTreeModel.median_of_times. unfold BlockTreeModel.MEDIAN_TIME_SPAN. cbn [take]. rewrite take_take. done.
Qed.
Lemma median_at_ok g c : median (times g c) = Ok (median_at g c).
Proof.
  unfold median_at, median. destruct (BlockTreeMoreProofs.median_of_times_spec (times g c) (times_nonempty g c)) as (m & -> & _). done.
Qed.
Lemma median_at_spec g c : BlockTreeSpec.is_median (median_at g c) (take 11 (times g c)).
Proof.
  unfold median_at, median. destruct (BlockTreeMoreProofs.median_of_times_spec (times g c) (times_nonempty g c)) as (m & -> & Hm). done.
Qed.
Lemma medians g c b d : main d = main_of c -> previous_and_new_median_time g (timestamp b) d = Ok (median_at g c, median_at g (c ++ [b])).
Proof.
  intros E. unfold previous_and_new_median_time. rewrite (latest_times g c d E). rewrite median_take, median_at_ok. cbn [rbind].
  rewrite median_cons_take, <- times_snoc, median_at_ok. done.
Qed.
Lemma median_grows g c b : median_at g c <= timestamp b -> median_at g c <= median_at g (c ++ [b]).
Proof.
  intros Ht. eapply (BlockTreeMoreProofs.median_step _ _ (timestamp b) (take 11 (times g c))).
  - apply median_at_spec.
  - done.
  - rewrite take_length. lia.
  - pose proof (median_at_spec g (c ++ [b])) as M. rewrite times_snoc in M. cbn [take] in *. by rewrite take_take.
Qed.

(** * Blocks and chains *)
Definition chain_inv (g : genesis) (c : list block) (w : ledger) (d : db) : Prop :=
  inv w d ∧ wf (height c) d ∧ opened (height c) (median_at g c) w ∧ made_ w = made_on g c ∧ spent_ w = list_to_set (spent_on c) ∧ main d = main_of c.
Lemma height_snoc c b : height (c ++ [b]) = height c + 1.
Proof. unfold height. rewrite app_length. cbn. lia. Qed.
Lemma made_on_snoc g c b : made_on g (c ++ [b]) = made_on g c ++ made_by_block (height c + 1) b.
Proof. unfold made_on. rewrite imap_app, concat_app. cbn. rewrite app_nil_r, Nat.add_0_r. by rewrite app_assoc. Qed.
Lemma spent_on_snoc c b : spent_on (c ++ [b]) = spent_on c ++ spent_by_txs (txs b) ++ kernel b.
Proof. unfold spent_on. rewrite map_app, concat_app. cbn. by rewrite app_nil_r. Qed.

Lemma inv_main w d x : inv w d -> inv w (set_main x d).
Proof. by apply inv_nft. Qed.
Lemma connect_step g c w d b d' : chain_inv g c w d -> valid_block g c b -> NoDup (map place (made_on g (c ++ [b]))) ->
  connect_block g d (height c + 1) b = Ok d' -> (∃ w', chain_inv g (c ++ [b]) w' d') ∧ same_below (height c + 1) d d'.
Proof.
  intros (I & W & O & M & Sp & Mn) V ND H. unfold connect_block in H. rewrite (medians g c b d Mn) in H. cbn [rbind] in H.
  apply bind_ok in H as (d1 & H1 & H). apply bind_ok in H as (d2 & H2 & H). cbv zeta in H. apply bind_ok in H as (d4 & H4 & H5).
  pose proof (median_grows g c b (valid_time _ _ _ V)) as Hm.
  rewrite made_on_snoc in ND. unfold made_by_block in ND. rewrite app_assoc in ND.
  assert (W' : wf (height c + 1) d) by (eapply wf_mono; [|exact W]; lia).
  destruct (unlock_phase (height c) _ _ w d d1 I W' O Hm H1) as (w1 & P1).
  assert (M1 : made_ w1 = made_on g c) by (rewrite (p_made _ _ _ _ _ _ _ _ P1), M; by rewrite app_nil_r).
  assert (S1 : ∀ x, x ∈ spent_ w1 ↔ x ∈ spent_on c).
  { intros x. rewrite (p_spent _ _ _ _ _ _ _ _ P1), Sp. cbn. rewrite elem_of_union, elem_of_list_to_set. set_solver. }
  destruct (txs_phase (height c + 1) (timestamp b) (median_at g (c ++ [b])) (median_at g c) w1 d1 (txs b) d2) as (w2 & P2); try apply P1; try done.
  { apply V. }
  { intros l1 x l2 E. destruct (valid_spends _ _ _ V l1 x l2 E) as [N1 N2]. split; [done|]. intros o Ho. rewrite M1.
    eapply may_spend_ext; [|by apply N2]. intros y. rewrite !elem_of_app, elem_of_elements, S1. done. }
  { rewrite M1. rewrite map_app in ND. by apply NoDup_app in ND as (ND & _). }
  pose proof (phase_app _ _ _ _ _ _ _ _ _ _ _ _ P1 P2) as P12. cbn [app] in P12.
  set (d3 := set_mainchain_block (block_id b) (timestamp b) (height c + 1) d2) in *.
  assert (E3 : main d3 = main_of (c ++ [b])).
  { unfold d3, set_mainchain_block. cbn. rewrite (p_main _ _ _ _ _ _ _ _ P12), Mn, main_of_snoc.
    pose proof (w_main _ _ W) as F. rewrite Mn in F. destruct (main_of c) as [|[h' x] l]; [done|]. apply Forall_inv in F. cbn in F |- *.
    assert ((h' <? height c + 1) = true) as ->; [lia|done]. }
  assert (I3 : inv w2 d3) by (apply inv_main, P2).
  assert (W3 : wf (height c + 1) d3).
  { destruct (p_wf _ _ _ _ _ _ _ _ P2) as [A1 A2 A3 A4 A5 A6]. split; try done. unfold d3, set_mainchain_block. cbn. by apply put_upto. }
  assert (B3 : same_below (height c + 1) d2 d3).
  { intros n Hn. unfold disconnect_tables_above_height, d3, set_mainchain_block. cbn. by rewrite filter_put. }
  assert (M2 : made_ w2 = made_on g c ++ made_by_txs (height c + 1) (timestamp b) (txs b)) by (by rewrite (p_made _ _ _ _ _ _ _ _ P2), M1).
  destruct (reward_phase (block_id b) (height c + 1) (timestamp b) (median_at g (c ++ [b])) w2 d3 (reward b) d4) as (w4 & P4); try done; [apply P2|apply V|by rewrite M2|].
  assert (M4 : made_ w4 = made_on g (c ++ [b])).
  { rewrite (p_made _ _ _ _ _ _ _ _ P4), M2, made_on_snoc. unfold made_by_block. by rewrite app_assoc. }
  assert (S4 : ∀ x, x ∈ spent_ w4 ↔ x ∈ spent_on c ++ spent_by_txs (txs b)).
  { intros x. rewrite (p_spent _ _ _ _ _ _ _ _ P4), (p_spent _ _ _ _ _ _ _ _ P2). cbn. rewrite elem_of_union, elem_of_union, elem_of_list_to_set, S1, elem_of_app. set_solver. }
  destruct (valid_kernel _ _ _ V) as [K1 K2].
  destruct (kernel_phase (height c + 1) (median_at g (c ++ [b])) w4 d4 (kernel b) d') as (w5 & P5); try apply P4; try done.
  { intros o Ho. destruct (K2 o Ho) as (e & He & Hp & Hn & Hk). exists e. split_and!; try done.
    - rewrite M4, made_on_snoc. unfold made_by_block. rewrite app_assoc. apply elem_of_app. by left.
    - rewrite elem_of_elements, S4. done. }
  split.
  - exists w5. unfold chain_inv. rewrite height_snoc. split_and!; try apply P5.
    + rewrite (p_made _ _ _ _ _ _ _ _ P5), M4. by rewrite app_nil_r.
    + apply set_eq. intros x. rewrite (p_spent _ _ _ _ _ _ _ _ P5), elem_of_union, S4, elem_of_list_to_set, elem_of_list_to_set, spent_on_snoc.
      rewrite !elem_of_app. tauto.
    + rewrite (p_main _ _ _ _ _ _ _ _ P5), (p_main _ _ _ _ _ _ _ _ P4). done.
  - eapply same_below_trans; [apply P12|]. eapply same_below_trans; [exact B3|]. eapply same_below_trans; [apply P4|apply P5].
Qed.

Definition no_ledger : ledger := Ledger [] ∅ ∅ ∅.
Lemma latest_empty {K V} `{Countable K} (k : K) : latest k (∅ : table K V) = None.
Proof. unfold latest. by rewrite lookup_empty. Qed.
Lemma inv_empty : inv no_ledger empty_db.
Proof.
  split; cbn -[get_address_balance get_address_locked_balance get_utxo latest].
  - constructor.
  - intros o. rewrite !elem_of_empty. tauto.
  - done.
  - intros e He. by apply elem_of_nil in He.
  - intros e He. by apply elem_of_nil in He.
  - intros a k. unfold get_address_balance. cbn -[latest]. by rewrite latest_empty.
  - intros a k. unfold get_address_locked_balance. cbn -[latest]. by rewrite latest_empty.
  - intros o u. unfold get_utxo. cbn -[latest]. by rewrite latest_empty.
  - intros e He. by apply elem_of_nil in He.
  - intros a o. rewrite elem_of_empty. split; [done|]. intros (e & He & _). by apply elem_of_nil in He.
  - intros o x. rewrite latest_empty. split; [done|]. intros (e & He & _). by apply elem_of_nil in He.
  - intros a o. rewrite elem_of_empty. split; [done|]. intros (e & He & _). by apply elem_of_nil in He.
Qed.
Lemma wf_empty h : wf h empty_db.
Proof. split; cbn; try (intros k l; by rewrite lookup_empty). constructor. Qed.
Lemma genesis_step g d : NoDup (map place (made_on g [])) -> Forall proper_reward (genesis_outs g) -> scan_genesis g = Ok d -> ∃ w, chain_inv g [] w d.
Proof.
  intros ND FP H. unfold scan_genesis in H. unfold made_on in ND. cbn in ND. rewrite app_nil_r in ND.
  destruct (reward_phase (genesis_id g) 0 (genesis_time g) (median_at g []) no_ledger empty_db (genesis_outs g) d) as (w & P); try done.
  - apply inv_empty.
  - apply wf_empty.
  - intros e He. by apply elem_of_nil in He.
  - exists w. unfold chain_inv. split_and!; try apply P.
    + rewrite (p_made _ _ _ _ _ _ _ _ P). unfold made_on. cbn. by rewrite app_nil_r.
    + rewrite (p_spent _ _ _ _ _ _ _ _ P). cbn. set_solver.
Qed.

(** Nothing above the height, nothing to take back *)
Lemma disconnect_id g c w d : chain_inv g c w d -> disconnect_tables_above_height (height c) d = d.
Proof.
  intros (I & W & _). destruct W as [A1 A2 A3 A4 A5 A6]. unfold disconnect_tables_above_height. rewrite !del_above_id, filter_upto by done.
  destruct d as [b lb u uo lu luo nf mn]. cbn in *. f_equal.
  - apply set_eq. intros [a o]. rewrite elem_of_filter. split; [tauto|]. intros Hin. split; [|done]. cbn.
    apply (i_of _ _ I) in Hin as (e & He & <- & Ho & Ha). pose proof (i_utxo2 _ _ I e He Ho (owners_spendable _ _ Ha)) as [x Hx].
    unfold get_utxo, latest in Hx. cbn in Hx. destruct (u !! place e); [eauto|done].
  - apply set_eq. intros [a o]. rewrite elem_of_filter. split; [tauto|]. intros Hin. split; [|done]. cbn.
    apply (i_luof _ _ I) in Hin as (e & He & <- & Ho & Ha). destruct (i_kind _ _ I e He Ho) as [[x Hx] _].
    assert (Q : latest (place e) lu = Some (what e, x)). { apply (i_lu _ _ I). by exists e. }
    unfold latest in Q. destruct (lu !! place e); [eauto|done].
Qed.

Lemma rfold_app {A X E} (f : A -> X -> res E A) l1 l2 a : rfold f (l1 ++ l2) a = let? a' := rfold f l1 a in rfold f l2 a'.
Proof. revert a. induction l1 as [|x l1 IH]; intros a; cbn; [done|]. destruct (f a x); cbn; [apply IH|done|done]. Qed.
Lemma valid_chain_snoc g c b : valid_chain g (c ++ [b]) -> valid_chain g c ∧ valid_block g c b ∧ NoDup (map place (made_on g (c ++ [b]))).
Proof.
  intros [V1 V2 V3]. split_and!; [|by eapply V3|done]. split; [|done|].
  - rewrite made_on_snoc, map_app in V1. by apply NoDup_app in V1 as (V1 & _).
  - intros c1 x c2 ->. apply (V3 c1 x (c2 ++ [b])). by rewrite <- app_assoc.
Qed.
Lemma valid_chain_app g c1 c2 : valid_chain g (c1 ++ c2) -> valid_chain g c1.
Proof.
  revert c1. induction c2 as [|b c2 IH] using rev_ind; intros c1; [by rewrite app_nil_r|]. rewrite app_assoc. intros V. by apply IH, (valid_chain_snoc _ _ _ V).
Qed.
(** Scanning from a height on *)
Definition scan_from (g : genesis) (n : N) (bs : list block) (d : db) : res unit db :=
  rfold (fun d x => connect_block g d (n + N.of_nat x.1 + 1) x.2) (imap pair bs) d.
Lemma scan_from_snoc g n bs b d : scan_from g n (bs ++ [b]) d = let? d' := scan_from g n bs d in connect_block g d' (n + height bs + 1) b.
Proof.
  unfold scan_from. rewrite imap_app, rfold_app. cbn. rewrite Nat.add_0_r. destruct (rfold _ _ _); cbn; try done. unfold height. by destruct (connect_block _ _ _ _).
Qed.
Lemma scan_from_inv g c bs : ∀ w d d', chain_inv g c w d -> valid_chain g (c ++ bs) -> scan_from g (height c) bs d = Ok d' ->
  (∃ w', chain_inv g (c ++ bs) w' d') ∧ ∀ n, n <= height c -> disconnect_tables_above_height n d' = disconnect_tables_above_height n d.
Proof.
  induction bs as [|b bs IH] using rev_ind; intros w d d' CI V H.
  - cbn in H. injection H as <-. rewrite app_nil_r. eauto.
  - rewrite scan_from_snoc in H. apply bind_ok in H as (d1 & H1 & H2). rewrite app_assoc in V. destruct (valid_chain_snoc _ _ _ V) as (V1 & V2 & V3).
    destruct (IH w d d1 CI V1 H1) as ((w1 & CI1) & B1). rewrite app_assoc.
    assert (Eh : height c + height bs = height (c ++ bs)) by (unfold height; rewrite app_length; lia). rewrite Eh in H2.
    destruct (connect_step g (c ++ bs) w1 d1 b d' CI1 V2 V3 H2) as (CI2 & B2). split; [done|].
    intros n Hn. rewrite (B2 n) by lia. by apply B1.
Qed.
Lemma scan_chain_inv g c d : valid_chain g c -> scan_chain g c = Ok d -> ∃ w, chain_inv g c w d.
Proof.
  intros V H. unfold scan_chain in H. apply bind_ok in H as (d0 & H0 & H).
  pose proof (valid_chain_app g [] c V) as V0. destruct (genesis_step g d0 (valid_places _ _ V0) (valid_genesis _ _ V0) H0) as (w0 & CI0).
  unfold scan_blocks in H. change 0 with (height []) in H. rewrite (disconnect_id g [] w0 d0 CI0) in H.
  by destruct (scan_from_inv g [] c w0 d0 d CI0 V H).
Qed.
Lemma scan_chain_from g c bs : valid_chain g c -> scan_chain g (c ++ bs) = let? d := scan_chain g c in scan_from g (height c) bs d.
Proof.
  intros V. unfold scan_chain, scan_blocks. destruct (scan_genesis g) as [d0|?|]; cbn [rbind]; [|done|done].
  change (rfold _ (imap pair (c ++ bs)) ?d) with (scan_from g 0 (c ++ bs) d). change (rfold _ (imap pair c) ?d) with (scan_from g 0 c d).
  induction bs as [|b bs IH] using rev_ind; [rewrite app_nil_r; by destruct (scan_from _ _ _ _)|].
  rewrite app_assoc, scan_from_snoc, IH. destruct (scan_from g 0 c _); cbn [rbind]; [|done|done]. rewrite scan_from_snoc.
  destruct (scan_from g (height c) bs _); cbn [rbind]; [|done|done]. f_equal. unfold height. rewrite app_length. lia.
Qed.
(** A reorganisation leads to where scanning the new chain leads *)
Lemma reorganised g c1 c2 bs d : valid_chain g (c1 ++ c2) -> scan_chain g (c1 ++ c2) = Ok d -> scan_blocks g (height c1) bs d = scan_chain g (c1 ++ bs).
Proof.
  intros V H. pose proof (valid_chain_app g c1 c2 V) as V1. rewrite (scan_chain_from g c1 c2 V1) in H. apply bind_ok in H as (d1 & H1 & H2).
  destruct (scan_chain_inv g c1 d1 V1 H1) as (w1 & CI1). destruct (scan_from_inv g c1 c2 w1 d1 d CI1 V H2) as (_ & B).
  rewrite (scan_chain_from g c1 bs V1), H1. cbn [rbind]. unfold scan_blocks. rewrite (B (height c1)) by lia. by rewrite (disconnect_id g c1 w1 d1 CI1).
Qed.
