(** C66, C67: the transactions picked from the pool for a block. *)
From stdpp Require Import relations sorting.
From Verif Require Import Base AmountModel DeltaModel LayeredModel TokensModel OrdersModel PosModel PrimModel ChainModel
  MempoolModel MempoolSpec MempoolGraph MempoolTraverse MempoolFolds MempoolAdd MempoolInsert MempoolRemove MempoolHistory MempoolProperties
  TemplateModel TemplateSpec TemplateProofs TemplateCollect.
From Coq Require Import Lia.
Local Open Scope N_scope.

Section properties.
Context (iter : gset N -> list N) (Hiter : forall s, iter s ≡ₚ elements s) (mk : id_makers) (cfg : pool_cfg) (Hcount : 1 <= pc_max_count cfg).
Context {V : Type} (connect : V -> transaction -> V * bool) (unlocked : transaction -> bool).
Context (ops : list pool_op) (l : list tx_entry) (s : store).
Context (Hhist : history mk cfg ops l) (Hrun : do_ops iter mk cfg empty_store ops = Some s).
(** [a]: what the block producer brings along; all fees together are in range *)
Context (a : accum) (Ha : accum_ok a) (Hopen : ac_done a = false) (Hfees : ac_fees a + sum_of te_fee l <= U128_MAX).
Notation collect := (collect_txs iter connect unlocked s).
Notation v1 v := (after connect v (txs_of a)).

Lemma pool_exact : store_exact mk l s /\ pool_ok mk l.
Proof using Hiter Hcount Hhist Hrun.
  destruct (history_spec iter Hiter mk cfg Hcount ops l Hhist) as (s' & E & HS & HPO). rewrite Hrun in E. injection E as <-. auto.
Qed.
Lemma collect_cases tip tip' v given p :
  collect tip tip' v a given p = Ok None /\ ~ (tip = ac_tip a /\ tip' = tip) \/
  collect tip tip' v a given p = Err TInvalidGiven /\ ~ all_accepted connect v (txs_of a) \/
  collect tip tip' v a given p = Err TTxNotFound /\ ~ (forall g, g ∈ given -> g ∈ ids l) \/
  all_accepted connect v (txs_of a) /\ (forall g, g ∈ given -> g ∈ ids l) /\ tip = ac_tip a /\ tip' = tip.
Proof using Hiter Hcount Hhist Hrun Ha Hopen Hfees.
  destruct pool_exact as [HS HPO].
  destruct (decide (tip = ac_tip a)) as [->|Ht].
  2:{ left. split; [|tauto]. unfold collect_txs. replace (ac_tip a =? tip) with false; [reflexivity|]. symmetry. apply N.eqb_neq. congruence. }
  destruct (connect_given connect v (ac_txs a)) as [v'| |] eqn:Eg.
  2:{ right. left. split.
      - unfold collect_txs. rewrite N.eqb_refl, Eg. cbn. destruct e; try reflexivity.
        all: exfalso; clear - Eg; revert v Eg; induction (ac_txs a) as [|[tx sz] x IH]; intros v; cbn; [discriminate|];
             destruct (connect v tx) as [v0 []]; cbn; [apply IH|discriminate].
      - intros H. assert (E : connect_given connect v (ac_txs a) = Ok (v1 v)) by (by apply connect_given_ok). congruence. }
  2:{ exfalso. by apply (connect_given_no_panic connect v (ac_txs a)). }
  pose proof Eg as Eg'. apply connect_given_ok in Eg' as [Hacc Ev].
  destruct (decide (Forall (fun g => g ∈ ids l) given)) as [Hg|Hg].
  2:{ right. right. left. assert (Hn : ~ forall g, g ∈ given -> g ∈ ids l) by (intros H; apply Hg, Forall_forall, H). split; [|exact Hn].
      unfold collect_txs. rewrite N.eqb_refl, Eg. cbn [negb rbind]. by rewrite (given_missing iter mk l s HS given Hn). }
  rewrite Forall_forall in Hg. destruct (decide (tip' = ac_tip a)) as [->|Ht]; [right; right; right; auto|].
  left. split; [|tauto]. destruct (collect_spec iter Hiter mk l s HS HPO connect unlocked a v given p Ha Hopen Hfees Hacc Hg) as (tries & b & E & _).
  unfold collect_txs in E |- *. rewrite N.eqb_refl, Eg in E |- *. cbn [negb rbind] in E |- *.
  destruct (given_txids iter s given) as [g| |]; [|discriminate..]. cbn [rbind] in E |- *.
  destruct (candidates _ _ _ _) as [it| |]; [|discriminate..]. cbn [rbind] in E |- *.
  destruct (fill _ _ _ _ _ _ _ _ _ _) as [b'| |]; [|discriminate..]. cbn [rbind] in E |- *.
  replace (ac_tip a =? tip') with false; [reflexivity|]. symmetry. apply N.eqb_neq. congruence.
Qed.

(** C66: picking never stops the node and fails only if the producer's own transactions are not valid or a transaction asked for is
    not in the pool; it gives nothing only if the best block has changed. *)
Theorem C66_outcomes tip tip' v given p :
  collect tip tip' v a given p <> Panic /\
  (forall e, collect tip tip' v a given p = Err e ->
     e = TInvalidGiven /\ ~ all_accepted connect v (txs_of a) \/ e = TTxNotFound /\ exists g, g ∈ given /\ g ∉ ids l) /\
  (collect tip tip' v a given p = Ok None -> ~ (tip = ac_tip a /\ tip' = tip)).
Proof using Hiter Hcount Hhist Hrun Ha Hopen Hfees.
  destruct (collect_cases tip tip' v given p) as [[E H]|[[E H]|[[E H]|(Hacc & Hg & -> & ->)]]].
  - rewrite E. split; [discriminate|]. split; [discriminate|auto].
  - rewrite E. split; [discriminate|]. split; [intros e [= <-]; auto|discriminate].
  - rewrite E. split; [discriminate|]. split; [|discriminate]. intros e [= <-]. right. split; [reflexivity|].
    destruct (decide (Exists (fun g => g ∉ ids l) given)) as [Hx|Hx]; [by apply Exists_exists in Hx|].
    exfalso. apply H. intros g Hg. destruct (decide (g ∈ ids l)) as [|Hn]; [assumption|]. exfalso. apply Hx, Exists_exists. eauto.
  - destruct pool_exact as [HS HPO].
    destruct (collect_spec iter Hiter mk l s HS HPO connect unlocked a v given p Ha Hopen Hfees Hacc Hg) as (tries & b & E & _). rewrite E.
    split; [discriminate|]. split; [discriminate|discriminate].
Qed.

(** What is picked: a sequence of transactions tried in turn, of which those the verifier accepted are taken. *)
Lemma collect_inv tip tip' v given p b : collect tip tip' v a given p = Ok (Some b) ->
  all_accepted connect v (txs_of a) /\
  exists tries taken done, b = with_picks a taken done /\ tried_best_first connect unlocked mk l (tx_ids a) (v1 v) given p tries /\
    (taken = [] \/ accum_total b <= ac_target a) /\
    ((done = false /\ taken = accepted connect (v1 v) tries /\
      forall y, y ∈ l -> wanted mk l given p y -> ~ can_come connect unlocked mk l (tx_ids a) (v1 v) tries y) \/
     (done = true /\ exists tr x, tries = tr ++ [x] /\ taken = accepted connect (v1 v) tr /\ accepts connect (after connect (v1 v) (map te_tx tr)) (te_tx x) = true /\
        ac_target a < accum_total (with_picks a (taken ++ [x]) false))).
Proof using Hiter Hcount Hhist Hrun Ha Hopen Hfees.
  intros E. destruct (collect_cases tip tip' v given p) as [[E' H]|[[E' H]|[[E' H]|(Hacc & Hg & -> & ->)]]]; [congruence..|].
  split; [exact Hacc|]. destruct pool_exact as [HS HPO].
  destruct (collect_spec iter Hiter mk l s HS HPO connect unlocked a v given p Ha Hopen Hfees Hacc Hg) as (tries & b' & E' & HB & HE).
  rewrite E in E'. injection E' as <-. destruct HE as [(-> & Hfit & Hl)|(tr & x & Et & Hx & -> & Hfit & Hbig)].
  - exists tries, (accepted connect (v1 v) tries), false. split; [reflexivity|]. auto 10.
  - exists tries, (accepted connect (v1 v) tr), true. split; [reflexivity|]. split; [exact HB|]. split; [exact Hfit|]. right. split; [reflexivity|].
    exists tr, x. split; [exact Et|]. split; [reflexivity|]. split; [exact Hx|]. rewrite Et, accepted_app in Hbig. cbn [accepted] in Hbig. by rewrite Hx in Hbig.
Qed.
Lemma taken_tried v given p tries taken :
  tried_best_first connect unlocked mk l (tx_ids a) (v1 v) given p tries ->
  taken = accepted connect (v1 v) tries \/ (exists tr x, tries = tr ++ [x] /\ taken = accepted connect (v1 v) tr) ->
  exists tr, taken = accepted connect (v1 v) tr /\ tried_best_first connect unlocked mk l (tx_ids a) (v1 v) given p tr.
Proof using.
  intros HB [->|(tr & x & -> & ->)]; [eauto|]. exists tr. split; [reflexivity|]. intros b y c E. apply (HB b y (c ++ [x])). rewrite E, <- app_assoc. reflexivity.
Qed.
Lemma tried_nodup v given p tries : tried_best_first connect unlocked mk l (tx_ids a) (v1 v) given p tries ->
  NoDup (ids tries) /\ forall x, x ∈ tries -> x ∈ l /\ unlocked (te_tx x) = true /\ te_id x ∉ tx_ids a /\ wanted mk l given p x.
Proof using.
  clear. intros HB. split.
  - induction tries as [|x tr IH] using rev_ind; [constructor|]. unfold ids. rewrite map_app. apply NoDup_app. split; [|split; [|apply NoDup_singleton]].
    + apply IH. intros b y c E. apply (HB b y (c ++ [x])). rewrite E, <- app_assoc. reflexivity.
    + intros i Hi Hx. apply elem_of_list_singleton in Hx as ->. destruct (HB tr x [] eq_refl) as [(_ & _ & _ & H & _) _]. contradiction.
  - intros x Hx. apply elem_of_list_split in Hx as (b & c & ->). destruct (HB b x c eq_refl) as [(H1 & H2 & H3 & _) [H4 _]]. auto.
Qed.

(** C66: the transactions of the block are the producer's own followed by transactions of the pool, each at most once, none locked,
    each after those it builds on; the fees are their sum, and with anything added the encoded list stays within the target size. *)
Theorem C66_contents tip tip' v given p b : collect tip tip' v a given p = Ok (Some b) ->
  exists taken, ac_txs b = ac_txs a ++ map (fun e => (te_tx e, te_size e)) taken /\
    ac_fees b = ac_fees a + sum_of te_fee taken /\ (taken = [] \/ encoded_size b <= ac_target a) /\ accum_ok b /\
    (forall x, x ∈ taken -> x ∈ l /\ unlocked (te_tx x) = true) /\
    (forall before x rest, taken = before ++ x :: rest -> forall q, parent mk l q (te_id x) -> q ∈ tx_ids a \/ q ∈ ids before).
Proof using Hiter Hcount Hhist Hrun Ha Hopen Hfees.
  intros E. destruct (collect_inv _ _ _ _ _ _ E) as (Hacc & tries & taken & done & -> & HB & Hfit & HE). exists taken.
  destruct (taken_tried v given p tries taken HB) as (tr & Et & HB').
  { destruct HE as [(_ & H & _)|(_ & tr & x & H1 & H2 & _)]; [by left|right; eauto]. }
  destruct (tried_nodup v given p tr HB') as [Hn Hin].
  assert (Hsub : taken `sublist_of` tr) by (rewrite Et; apply accepted_sub).
  assert (Hok : accum_ok (with_picks a taken done)).
  { destruct Ha as [A1 A2]. split.
    - unfold tx_ids, txs_of, with_picks. cbn [ac_txs]. rewrite !map_app, !map_map. cbn [fst]. change (map (fun x => tx_id (fst x)) (ac_txs a)) with (map (fun x => tx_id (fst x)) (ac_txs a)).
      apply NoDup_app. split; [unfold tx_ids, txs_of in A1; by rewrite map_map in A1|]. split.
      + intros i Hi Hx. apply elem_of_list_fmap in Hx as (e & -> & He). apply (sublist_in _ _ Hsub), Hin in He as (_ & _ & He & _). apply He.
        unfold tx_ids, txs_of. rewrite map_map. exact Hi.
      + apply (sublist_nodup _ _ (sublist_map te_id _ _ Hsub)). exact Hn.
    - unfold with_picks. cbn [ac_size ac_txs]. rewrite bytes_of_app, A2. f_equal. clear. induction taken as [|e x IH]; [reflexivity|].
      unfold sum_of, bytes_of in *. cbn [map fold_right snd]. by rewrite IH. }
  split; [reflexivity|]. split; [reflexivity|]. split; [|split; [exact Hok|split]].
  - destruct Hfit as [H|H]; [by left|right]. unfold accum_total in H. unfold encoded_size. by rewrite <- (ak_size _ Hok).
  - intros x Hx. apply (sublist_in _ _ Hsub), Hin in Hx as (H1 & H2 & _). auto.
  - intros before x rest Esp q Hq.
    assert (Hsplit : forall tr v0, accepted connect v0 tr = before ++ x :: rest -> exists t1 t2, tr = t1 ++ x :: t2 /\ accepted connect v0 t1 = before).
    { clear. revert before. intros before tr. revert before. induction tr as [|e tr IH]; intros before v0 Ea; [destruct before; discriminate|].
      cbn in Ea. destruct (accepts connect v0 (te_tx e)) eqn:Ee; cbn in Ea.
      - destruct before as [|e' before]; cbn in Ea.
        + injection Ea as -> _. exists [], tr. auto.
        + injection Ea as -> Ea. destruct (IH before _ Ea) as (t1 & t2 & -> & <-). exists (e' :: t1), t2. split; [reflexivity|]. cbn. by rewrite Ee.
      - destruct (IH before _ Ea) as (t1 & t2 & -> & <-). exists (e :: t1), t2. split; [reflexivity|]. cbn. by rewrite Ee. }
    rewrite Et in Esp. destruct (Hsplit tr _ Esp) as (t1 & t2 & E1 & E2). destruct (HB' t1 x t2 E1) as [(_ & _ & _ & _ & Hp) _].
    destruct (Hp q Hq) as [H|H]; [by left|right]. by rewrite E2 in H.
Qed.

(** C66: if refusing a transaction leaves no trace in the verifier, the verifier accepts all transactions of the block in their order. *)
Theorem C66_valid_if_refusals_leave_no_trace tip tip' v given p b :
  (forall v tx, accepts connect v tx = false -> after connect v [tx] = v) ->
  collect tip tip' v a given p = Ok (Some b) -> all_accepted connect v (txs_of b).
Proof using Hiter Hcount Hhist Hrun Ha Hopen Hfees.
  intros Hclean E. destruct (collect_inv _ _ _ _ _ _ E) as (Hacc & tries & taken & done & -> & HB & Hfit & HE).
  destruct (taken_tried v given p tries taken HB) as (tr & Et & HB').
  { destruct HE as [(_ & H & _)|(_ & tr & x & H1 & H2 & _)]; [by left|right; eauto]. }
  unfold txs_of, with_picks. cbn [ac_txs]. rewrite map_app, map_map. cbn [fst]. apply all_accepted_app. split; [exact Hacc|].
  change (map (fun x => te_tx x) taken) with (map te_tx taken). rewrite Et. apply (accepted_alone connect Hclean).
Qed.

(** C67: transactions are tried best first: each one that is tried could come next, and when the producer asks for no particular ones,
    none that could come next is worth more. Those the verifier accepts are taken until one would not fit. *)
Theorem C67_best_first tip tip' v given p b : collect tip tip' v a given p = Ok (Some b) ->
  exists tries, tried_best_first connect unlocked mk l (tx_ids a) (v1 v) given p tries /\
    (txs_of b = txs_of a ++ map te_tx (accepted connect (v1 v) tries) \/
     exists tr x, tries = tr ++ [x] /\ txs_of b = txs_of a ++ map te_tx (accepted connect (v1 v) tr)).
Proof using Hiter Hcount Hhist Hrun Ha Hopen Hfees.
  intros E. destruct (collect_inv _ _ _ _ _ _ E) as (Hacc & tries & taken & done & -> & HB & Hfit & HE). exists tries. split; [exact HB|].
  unfold txs_of, with_picks. cbn [ac_txs]. rewrite map_app, map_map. cbn [fst].
  destruct HE as [(_ & -> & _)|(_ & tr & x & H1 & -> & _)]; [by left|right; eauto].
Qed.
(** C67: picking ends only when a transaction of the pool does not fit any more or when every wanted transaction of the pool is in the
    block, is locked, builds on one that is not in the block, or was refused by the verifier. *)
Theorem C67_nothing_left_out tip tip' v given p b : collect tip tip' v a given p = Ok (Some b) ->
  (ac_done b = true /\ exists x, x ∈ l /\ te_id x ∉ tx_ids b /\ wanted mk l given p x /\
     ac_target a < compact_size (N.of_nat (S (length (ac_txs b)))) + bytes_of (ac_txs b) + te_size x) \/
  (forall x, x ∈ l -> wanted mk l given p x ->
     te_id x ∈ tx_ids b \/ unlocked (te_tx x) = false \/ (exists q, parent mk l q (te_id x) /\ q ∉ tx_ids b) \/
     exists before, accepts connect (after connect (v1 v) before) (te_tx x) = false).
Proof using Hiter Hcount Hhist Hrun Ha Hopen Hfees.
  intros E. destruct (C66_contents _ _ _ _ _ _ E) as (taken' & Etx & _ & _ & Hok & _).
  destruct (collect_inv _ _ _ _ _ _ E) as (Hacc & tries & taken & done & -> & HB & Hfit & HE).
  assert (Hids : forall i, i ∈ tx_ids (with_picks a taken done) <-> i ∈ tx_ids a \/ i ∈ ids taken).
  { intros i. unfold tx_ids, txs_of, with_picks. cbn [ac_txs]. rewrite !map_app, elem_of_app, !map_map. reflexivity. }
  destruct HE as [(-> & -> & Hleft)|(-> & tr & x & -> & -> & Hx & Hbig)].
  - right. intros x Hx Hw. specialize (Hleft x Hx Hw). setoid_rewrite Hids.
    destruct (decide (te_id x ∈ tx_ids a)) as [|Hno]; [by left; left|]. destruct (unlocked (te_tx x)) eqn:Eu; [|auto].
    destruct (decide (te_id x ∈ ids tries)) as [Hin|Hnin].
    + destruct (decide (te_id x ∈ ids (accepted connect (v1 v) tries))) as [|Hna]; [by left; right|]. right. right. right.
      apply ids_elem in Hin as (y & Hy & Exy). destruct (tried_nodup v given p tries HB) as [_ Hin]. destruct pool_exact as [_ HPO].
      assert (y = x) as -> by (apply (ids_inj l); [exact (po_nodup _ _ HPO)|by apply Hin in Hy as []|exact Hx|exact Exy]).
      apply elem_of_list_split in Hy as (t1 & t2 & ->). exists (map te_tx t1). destruct (accepts _ _ _) eqn:Ea; [|reflexivity]. exfalso. apply Hna, ids_elem.
      exists x. split; [|reflexivity]. rewrite accepted_app. cbn [accepted]. rewrite Ea. apply elem_of_app. right. left.
    + right. right. left.
      destruct pool_exact as [HS _]. destruct (se_entries _ _ _ HS x Hx) as (m & _ & HE).
      destruct (decide (Exists (fun q => q ∉ tx_ids a /\ q ∉ ids (accepted connect (v1 v) tries)) (elements (me_parents m)))) as [Hex|Hnex].
      * apply Exists_exists in Hex as (q & Hq & H1 & H2). exists q. split; [by apply (ee_parents _ _ _ _ HE), elem_of_elements|]. tauto.
      * exfalso. apply Hleft. split; [exact Hx|]. split; [exact Eu|]. split; [exact Hno|]. split; [exact Hnin|]. intros q Hq.
        destruct (decide (q ∈ tx_ids a)) as [|H1]; [by left|]. destruct (decide (q ∈ ids (accepted connect (v1 v) tries))) as [|H2]; [by right|].
        exfalso. apply Hnex, Exists_exists. exists q. split; [by apply elem_of_elements, (ee_parents _ _ _ _ HE)|auto].
  - left. split; [reflexivity|]. destruct (HB tr x [] eq_refl) as [(Hxl & Hu & Hno & Hnt & _) [Hw _]]. exists x. split; [exact Hxl|].
    split; [|split; [exact Hw|]].
    + rewrite Hids. intros [H|H]; [contradiction|]. apply Hnt. apply ids_elem in H as (y & Hy & <-). apply ids_elem. exists y. split; [|reflexivity].
      by apply (sublist_in _ _ (accepted_sub connect (v1 v) tr)).
    + rewrite <- (ak_size _ Hok). clear - Hbig. unfold accum_total, with_picks in *. cbn [ac_txs ac_size] in *. rewrite map_app, app_assoc, sum_of_app in Hbig.
      rewrite app_length in Hbig. cbn [length map sum_of fold_right] in Hbig. rewrite Nat.add_1_r in Hbig. lia.
Qed.
End properties.
Print Assumptions C66_outcomes.
Print Assumptions C66_contents.
Print Assumptions C66_valid_if_refusals_leave_no_trace.
Print Assumptions C67_best_first.
Print Assumptions C67_nothing_left_out.

(** ** An example: the pool of MempoolProperties. The verifier counts what it accepts and refuses [ex_b], so [ex_d], which builds on it,
    has to stay; with little space only [ex_a] fits; asked for [ex_d] alone, what it builds on comes first. *)
Definition ex_connect (refused : N) (v : N) (tx : transaction) : N * bool := if tx_id tx =? refused then (v, false) else (v + 1, true).
Example ex_connect_leaves_no_trace r v tx : accepts (ex_connect r) v tx = false -> after (ex_connect r) v [tx] = v.
Proof. unfold accepts, after, ex_connect. cbn. by destruct (tx_id tx =? r). Qed.
Example ex_accum_ok : accum_ok (accum_new 1000 7) /\ ac_done (accum_new 1000 7) = false /\
  ac_fees (accum_new 1000 7) + sum_of te_fee [ex_a; ex_b; ex_c; ex_d] <= U128_MAX.
Proof. split; [split; [constructor|reflexivity]|]. split; [reflexivity|]. vm_compute. discriminate. Qed.
Definition shown (r : res template_err (option accum)) : option (list N * bool * N * N) :=
  match r with Ok (Some a) => Some (tx_ids a, ac_done a, ac_fees a, encoded_size a) | _ => None end.
Example ex_template :
  match do_ops elements ex_makers ex_cfg empty_store ex_pool_ops with
  | Some s =>
      shown (collect_txs elements (ex_connect 0) (fun _ => true) s 7 7 0 (accum_new 10000 7) [] FillSpace) = Some ([100; 102; 101; 103], false, 14300, 1901) /\
      shown (collect_txs elements (ex_connect 101) (fun _ => true) s 7 7 0 (accum_new 10000 7) [] FillSpace) = Some ([100; 102], false, 13000, 901) /\
      shown (collect_txs elements (ex_connect 0) (fun _ => true) s 7 7 0 (accum_new 900 7) [] FillSpace) = Some ([100], true, 4000, 401) /\
      shown (collect_txs elements (ex_connect 0) (fun tx => negb (tx_id tx =? 102)) s 7 7 0 (accum_new 10000 7) [] FillSpace) = Some ([100; 101], false, 4600, 701) /\
      shown (collect_txs elements (ex_connect 0) (fun _ => true) s 7 7 0 (accum_new 10000 7) [101] LeaveSpace) = Some ([100; 101], false, 4600, 701) /\
      collect_txs elements (ex_connect 0) (fun _ => true) s 7 7 0 (accum_new 10000 7) [77] FillSpace = Err TTxNotFound /\
      collect_txs elements (ex_connect 0) (fun _ => true) s 7 8 0 (accum_new 10000 7) [] FillSpace = Ok None
  | None => False
  end.
Proof. vm_compute. repeat split. Qed.

(** ** What one might expect but does not hold *)
(** The accumulator is to be left as it was when it refuses a transaction, but its size has grown by then. *)
Theorem C66_refused_addition_changes_nothing_refuted : exists a tx size fee,
  accum_ok a /\ snd (accum_add a tx size fee) = Err tt /\ fst (accum_add a tx size fee) <> a /\ ~ accum_ok (fst (accum_add a tx size fee)).
Proof.
  exists (Accum [] 0 1000 false U128_MAX 7), (te_tx ex_a), 400, 1. split; [split; [constructor|reflexivity]|].
  split; [vm_compute; reflexivity|]. split; [vm_compute; discriminate|]. intros [_ H]. vm_compute in H. discriminate.
Qed.
Print Assumptions C66_refused_addition_changes_nothing_refuted.
