(** Proofs about the picking of transactions for a block. *)
From stdpp Require Import relations sorting.
From Verif Require Import Base AmountModel DeltaModel LayeredModel TokensModel OrdersModel PosModel PrimModel ChainModel
  MempoolModel MempoolSpec MempoolGraph MempoolTraverse MempoolFolds MempoolAdd MempoolInsert MempoolRemove MempoolHistory TemplateModel TemplateSpec.
From Coq Require Import Lia.
Local Open Scope N_scope.

(** ** Traversal from several starting points *)
Section many_roots.
Context (ch : N -> list N) (C : gset N).
Context (Hclosed : forall x c, x ∈ C -> c ∈ ch x -> c ∈ C).
Notation child := (fun x y => y ∈ ch x).
Notation wt := (fun x => S (length (ch x))).
Lemma postorder_run_any fuel stack visited :
  (todo stack + weight wt (C ∖ visited) <= fuel)%nat ->
  (forall cs x, (cs, x) ∈ stack -> x ∈ C /\ (forall c, c ∈ cs -> c ∈ ch x)) ->
  exists out, postorder_run ch fuel stack visited = Some out /\
    (forall x, x ∈ out -> x ∈ C) /\ (forall x, x ∈ map snd stack -> x ∈ out) /\
    (forall cs x c, (cs, x) ∈ stack -> c ∈ cs -> c ∈ visited \/ c ∈ out) /\
    (forall x c, x ∈ out -> x ∈ map snd stack \/ (c ∈ ch x -> c ∈ visited \/ c ∈ out)) /\
    (forall x, x ∈ out -> exists r, r ∈ map snd stack /\ rtc child r x).
Proof using Hclosed.
  revert stack visited. induction fuel as [|fuel IH]; intros stack visited Hf Hs.
  { destruct stack as [|[cs x] stack]; [|unfold todo in Hf; cbn in Hf; lia]. exists []. cbn.
    split; [reflexivity|]. repeat split; intros; inversion H. }
  destruct stack as [|[cs x] stack].
  { exists []. cbn. split; [reflexivity|]. repeat split; intros; inversion H. }
  destruct cs as [|c cs]; cbn [postorder_run].
  - destruct (IH stack visited) as (out & E & O1 & O2 & O3 & O4 & O5).
    + unfold todo in *. cbn in Hf. lia.
    + intros cs y Hy. apply Hs. by right.
    + rewrite E. exists (x :: out). split; [reflexivity|]. split; [|split; [|split; [|split]]].
      * intros y Hy. apply elem_of_cons in Hy as [->|Hy]; [|by apply O1]. by apply (Hs [] x); left.
      * intros y Hy. cbn in Hy. apply elem_of_cons in Hy as [->|Hy]; [left|right; by apply O2].
      * intros cs y c Hy Hc. apply elem_of_cons in Hy as [[= -> ->]|Hy]; [inversion Hc|].
        destruct (O3 cs y c Hy Hc); [by left|right; by right].
      * intros y c Hy. apply elem_of_cons in Hy as [->|Hy]; [left; left|]. destruct (O4 y c Hy) as [H|H]; [left; by right|].
        right. intros Hc. destruct (H Hc); [by left|right; by right].
      * intros y Hy. apply elem_of_cons in Hy as [->|Hy]; [exists x; split; [left|reflexivity]|].
        destruct (O5 y Hy) as (r & Hr & Hp). exists r. split; [by right|exact Hp].
  - destruct (Hs (c :: cs) x ltac:(left)) as [HxC Hsub]. assert (Hcx : c ∈ ch x) by (apply Hsub; left).
    destruct (decide (c ∈ visited)) as [Hc|Hc].
    + destruct (IH ((cs, x) :: stack) visited) as (out & E & O1 & O2 & O3 & O4 & O5).
      * unfold todo in *. cbn in *. lia.
      * intros cs' y Hy. apply elem_of_cons in Hy as [[= -> ->]|Hy]; [split; [exact HxC|intros d Hd; apply Hsub; by right]|apply Hs; by right].
      * exists out. split; [exact E|]. split; [exact O1|]. split; [exact O2|]. split; [|auto].
        intros cs' y d Hy Hd. apply elem_of_cons in Hy as [[= -> ->]|Hy]; [|apply (O3 cs' y d); [by right|exact Hd]].
        apply elem_of_cons in Hd as [->|Hd]; [by left|]. apply (O3 cs x d); [left|exact Hd].
    + destruct (IH ((ch c, c) :: (cs, x) :: stack) ({[c]} ∪ visited)) as (out & E & O1 & O2 & O3 & O4 & O5).
      * assert (HcC : c ∈ C ∖ visited) by (apply elem_of_difference; split; [by eapply Hclosed|exact Hc]).
        rewrite (weight_take _ _ c HcC) in Hf. replace (C ∖ ({[c]} ∪ visited)) with (C ∖ visited ∖ {[c]}) by set_solver.
        unfold todo in *. cbn in *. lia.
      * intros cs' y Hy. apply elem_of_cons in Hy as [[= -> ->]|Hy]; [split; [by eapply Hclosed|auto]|].
        apply elem_of_cons in Hy as [[= -> ->]|Hy]; [split; [exact HxC|intros d Hd; apply Hsub; by right]|apply Hs; by right].
      * assert (Hco : c ∈ out) by (apply O2; cbn; left).
        assert (Hv : forall d, d ∈ {[c]} ∪ visited \/ d ∈ out -> d ∈ visited \/ d ∈ out).
        { intros d [Hd|Hd]; [|by right]. apply elem_of_union in Hd as [Hd|Hd]; [|by left]. apply elem_of_singleton in Hd as ->. by right. }
        exists out. split; [exact E|]. split; [exact O1|]. split; [|split; [|split]].
        -- intros y Hy. apply O2. cbn. by right.
        -- intros cs' y d Hy Hd. apply elem_of_cons in Hy as [[= -> ->]|Hy].
           ++ apply elem_of_cons in Hd as [->|Hd]; [by right|]. apply Hv. apply (O3 cs x d); [right; left|exact Hd].
           ++ apply Hv. apply (O3 cs' y d); [right; by right|exact Hd].
        -- intros y d Hy. destruct (O4 y d Hy) as [H|H]; [|right; auto]. cbn in H. apply elem_of_cons in H as [->|H]; [|by left].
           right. intros Hd. apply Hv. apply (O3 (ch c) c d); [left|exact Hd].
        -- intros y Hy. destruct (O5 y Hy) as (r & Hr & Hp). cbn in Hr. apply elem_of_cons in Hr as [->|Hr]; [|eauto].
           exists x. split; [left|]. eapply rtc_l; [exact Hcx|exact Hp].
Qed.
Lemma postorder_any fuel roots :
  (sum_list_with (fun t => S (length (ch t))) roots + weight wt C <= fuel)%nat -> (forall x, x ∈ roots -> x ∈ C) ->
  exists out, postorder ch fuel roots = Some out /\ (forall x, x ∈ out -> x ∈ C) /\
    (forall x, x ∈ out <-> exists r, r ∈ roots /\ rtc child r x).
Proof using Hclosed.
  intros Hf Hr. unfold postorder.
  assert (Hsnd : forall x, x ∈ map snd (map (fun x => (ch x, x)) roots) <-> x ∈ roots).
  { intros x. rewrite map_map. cbn. rewrite map_id. reflexivity. }
  destruct (postorder_run_any fuel (map (fun x => (ch x, x)) roots) (list_to_set roots)) as (out & E & O1 & O2 & O3 & O4 & O5).
  - assert (Ht : todo (map (fun x => (ch x, x)) roots) = sum_list_with (fun t => S (length (ch t))) roots).
    { clear. induction roots as [|x roots IH]; [reflexivity|]. unfold todo in *. cbn. lia. }
    assert (Hw : (weight wt (C ∖ list_to_set roots) <= weight wt C)%nat).
    { clear. unfold weight. generalize (list_to_set roots : gset N). intros X.
      assert (E : elements C ≡ₚ elements (C ∖ X) ++ elements (C ∩ X)).
      { rewrite <- elements_disj_union by set_solver. f_equiv. intros x. destruct (decide (x ∈ X)); set_solver. }
      rewrite (sum_list_with_perm wt _ _ E), sum_list_with_app. lia. }
    lia.
  - intros cs x Hx. apply elem_of_list_fmap in Hx as (y & [= -> ->] & Hy). split; [by apply Hr|auto].
  - exists out. split; [exact E|]. split; [exact O1|]. intros x. split.
    + intros Hx. destruct (O5 x Hx) as (r & H1 & H2). exists r. split; [by apply Hsnd|exact H2].
    + intros (r & H1 & H2). assert (Hro : r ∈ out) by (apply O2, Hsnd, H1). clear H1.
      induction H2 as [|a b c Hab _ IH]; [exact Hro|]. apply IH. clear IH.
      assert (Hany : b ∈ (list_to_set roots : gset N) \/ b ∈ out).
      { destruct (O4 a b Hro) as [H|H]; [|by apply H]. apply Hsnd in H. apply (O3 (ch a) a b); [|exact Hab].
        apply elem_of_list_fmap. exists a. auto. }
      destruct Hany as [Hb|Hb]; [|exact Hb]. apply O2, Hsnd. by apply elem_of_list_to_set in Hb.
Qed.
End many_roots.

(** ** The accumulator *)
Lemma bytes_of_app x y : bytes_of (x ++ y) = bytes_of x + bytes_of y.
Proof. unfold bytes_of. induction x as [|p x IH]; cbn [app fold_right]; [lia|]. rewrite IH. lia. Qed.
Definition with_tx (a : accum) (tx : transaction) (size fee : N) : accum :=
  Accum (ac_txs a ++ [(tx, size)]) (ac_size a + size) (ac_target a) (ac_done a) (ac_fees a + fee) (ac_tip a).
Definition full (a : accum) : accum := Accum (ac_txs a) (ac_size a) (ac_target a) true (ac_fees a) (ac_tip a).
Lemma accum_add_ok a tx size fee : ac_fees a + fee <= U128_MAX ->
  accum_add a tx size fee = ((if accum_total (with_tx a tx size fee) <=? ac_target a then with_tx a tx size fee else full a), Ok tt).
Proof.
  intros Hf. unfold accum_add, accum_total, accum_total_with, with_tx, full. cbn [ac_txs ac_size ac_target ac_done ac_fees ac_tip].
  rewrite app_length. cbn [length]. replace (N.of_nat (length (ac_txs a) + 1)) with (N.of_nat (length (ac_txs a)) + 1) by lia.
  replace (compact_size (N.of_nat (length (ac_txs a)) + 1) + (ac_size a + size)) with (compact_size (N.of_nat (length (ac_txs a)) + 1) + ac_size a + size) by lia.
  destruct (_ <=? _); [|reflexivity]. unfold amount_add, checked_add. replace (ac_fees a + fee <=? U128_MAX) with true by (symmetry; by apply N.leb_le).
  cbn [ok_or on_ok]. rewrite N.eqb_refl. reflexivity.
Qed.

(** ** Tries *)
Section tries.
Context {V : Type} (connect : V -> transaction -> V * bool).
Lemma after_app v x y : after connect v (x ++ y) = after connect (after connect v x) y.
Proof using. apply fold_left_app. Qed.
Lemma accepted_app v x y : accepted connect v (x ++ y) = accepted connect v x ++ accepted connect (after connect v (map te_tx x)) y.
Proof using.
  revert v. induction x as [|e x IH]; intros v; [reflexivity|]. cbn. rewrite IH, app_assoc. reflexivity.
Qed.
Lemma accepted_sub v x : accepted connect v x `sublist_of` x.
Proof using.
  revert v. induction x as [|e x IH]; intros v; cbn; [constructor|]. destruct (accepts _ _ _); cbn; constructor; apply IH.
Qed.
Lemma all_accepted_app v x y : all_accepted connect v (x ++ y) <-> all_accepted connect v x /\ all_accepted connect (after connect v x) y.
Proof using. revert v. induction x as [|e x IH]; intros v; cbn; [tauto|]. rewrite IH. cbn. tauto. Qed.
(** A verifier which forgets what it refused accepts the accepted ones alone. *)
Lemma accepted_alone : (forall v tx, accepts connect v tx = false -> after connect v [tx] = v) ->
  forall x v, all_accepted connect v (map te_tx (accepted connect v x)) /\ after connect v (map te_tx (accepted connect v x)) = after connect v (map te_tx x).
Proof using.
  intros Hk. induction x as [|e x IH]; intros v; cbn; [auto|]. destruct (accepts connect v (te_tx e)) eqn:E; cbn.
  - destruct (IH (after connect v [te_tx e])) as [H1 H2]. split; [split; [exact E|exact H1]|exact H2].
  - destruct (IH v) as [H1 H2]. pose proof (Hk _ _ E) as Ev. cbn in Ev. rewrite Ev. split; [exact H1|exact H2].
Qed.
Lemma connect_given_ok v x v' : connect_given connect v x = Ok v' <-> all_accepted connect v (map fst x) /\ v' = after connect v (map fst x).
Proof using.
  revert v. induction x as [|[tx sz] x IH]; intros v; cbn.
  - split; [intros [= ->]; auto|intros [_ ->]; reflexivity].
  - unfold accepts. destruct (connect v tx) as [v1 ok] eqn:E. cbn. destruct ok; cbn.
    + rewrite IH. tauto.
    + split; [discriminate|intros [[H _] _]; discriminate].
Qed.
Lemma connect_given_no_panic v x : connect_given connect v x <> Panic.
Proof using.
  revert v. induction x as [|[tx sz] x IH]; intros v; cbn; [discriminate|]. destruct (connect v tx) as [v1 []]; cbn; [apply IH|discriminate].
Qed.
End tries.

Section pick.
Context (iter : gset N -> list N) (Hiter : forall s, iter s ≡ₚ elements s) (mk : id_makers) (l : list tx_entry) (s : store).
Context (HS : store_exact mk l s) (HPO : pool_ok mk l).
Context (unlocked : transaction -> bool).

Lemma entry_score i m : st_txs s !! i = Some m -> ancestor_score m = Ok (score_a m).
Proof using HS HPO. intros E. destruct (entry_of mk l s HS i m E) as (e & He & <- & HE). apply entry_ok_a. by apply (entry_exact_ok mk l e m). Qed.
Lemma entry_id i m : st_txs s !! i = Some m -> me_id m = i.
Proof using HS. intros E. destruct (entry_of mk l s HS i m E) as (e & He & <- & HE). unfold me_id. by rewrite (ee_entry _ _ _ _ HE). Qed.

(** *** Candidates *)
Lemma candidates_spec ts processed : (forall t, t ∈ ts -> t ∈ ids l) ->
  exists it, candidates unlocked s ts processed = Ok it /\ NoDup (map me_id it) /\
    (forall m, m ∈ it <-> st_txs s !! me_id m = Some m /\ me_id m ∈ ts /\ me_id m ∉ processed /\ unlocked (te_tx (me_entry m)) = true) /\
    map me_id it `sublist_of` ts.
Proof using HS.
  clear HPO Hiter iter. revert processed. induction ts as [|t ts IH]; intros processed Ht; cbn [candidates].
  { exists []. split; [reflexivity|]. split; [constructor|]. split; [|constructor]. intros m. split; [intros H; inversion H|intros (_ & H & _); inversion H]. }
  destruct (decide (t ∈ processed)) as [Hp|Hp].
  - destruct (IH processed) as (it & E & H1 & H2 & H3); [intros; apply Ht; by right|]. exists it. split; [exact E|]. split; [exact H1|]. split; [|by apply sublist_cons].
    intros m. rewrite H2, elem_of_cons. split; [tauto|]. intros (A & [->|B] & D & F); [contradiction|auto].
  - assert (Htl : t ∈ ids l) by (apply Ht; left). destruct (proj2 (se_ids _ _ _ HS t) Htl) as [m Em]. rewrite Em. cbn [expect rbind].
    destruct (IH ({[t]} ∪ processed)) as (it & E & H1 & H2 & H3); [intros; apply Ht; by right|]. rewrite E. cbn [rbind].
    pose proof (entry_id t m Em) as Hid.
    assert (Hnot : t ∉ map me_id it).
    { intros H. apply elem_of_list_fmap in H as (m' & -> & Hm'). apply H2 in Hm' as (_ & _ & Hm' & _). apply Hm'. apply elem_of_union. left. by apply elem_of_singleton. }
    eexists. split; [reflexivity|]. destruct (unlocked (te_tx (me_entry m))) eqn:Eu.
    + split; [cbn; rewrite Hid; constructor; assumption|]. split; [|cbn; rewrite Hid; by apply sublist_skip].
      intros x. rewrite !elem_of_cons, H2. split.
      * intros [->|(A & B & D & F)]; [rewrite Hid; auto|]. split; [exact A|]. split; [by right|]. split; [set_solver|exact F].
      * intros (A & B & D & F). destruct (decide (me_id x = t)) as [Ex|Hne]; [left; rewrite Ex in A; congruence|]. right. destruct B as [B|B]; [contradiction|].
        split; [exact A|]. split; [exact B|]. split; [set_solver|exact F].
    + split; [exact H1|]. split; [|by apply sublist_cons]. intros x. rewrite elem_of_cons, H2. split.
      * intros (A & B & D & F). split; [exact A|]. split; [by right|]. split; [set_solver|exact F].
      * intros (A & B & D & F). destruct (decide (me_id x = t)) as [Ex|Hne]; [rewrite Ex in A; congruence|]. destruct B as [B|B]; [contradiction|].
        split; [exact A|]. split; [exact B|]. split; [set_solver|exact F].
Qed.

(** *** Parents not there yet *)
Lemma missing_size emitted m : missing_parents iter emitted m = N.of_nat (size (me_parents m ∖ emitted)).
Proof using Hiter.
  unfold missing_parents. f_equal. rewrite <- (iter_length iter Hiter (me_parents m ∖ emitted)).
  apply Permutation_length. apply NoDup_Permutation.
  - apply NoDup_ListNoDup, List.NoDup_filter, NoDup_ListNoDup. by apply iter_nodup.
  - by apply iter_nodup.
  - intros x. rewrite (iter_elem iter Hiter), elem_of_list_In, List.filter_In, <- elem_of_list_In, (iter_elem iter Hiter), elem_of_difference, negb_true_iff, bool_decide_eq_false. tauto.
Qed.

Lemma parents_of i m p : st_txs s !! i = Some m -> p ∈ me_parents m <-> parent mk l p i.
Proof using HS. intros E. destruct (entry_of mk l s HS i m E) as (e & He & <- & HE). apply (ee_parents _ _ _ _ HE). Qed.
Lemma children_of i m c : st_txs s !! i = Some m -> c ∈ me_children m <-> parent mk l i c.
Proof using HS. intros E. destruct (entry_of mk l s HS i m E) as (e & He & <- & HE). apply (ee_children _ _ _ _ HE). Qed.

(** The bookkeeping of those which wait: each with the number of its parents not there yet, those with none left are ready. *)
Section waiting.
Context (cands : list mentry) (Hc_nodup : NoDup (map me_id cands)) (Hc_store : forall m, m ∈ cands -> st_txs s !! me_id m = Some m).

Record waiting (it tried : list mentry) (pending : gmap N N) (ready : gset (N * N)) (emitted : gset N) : Prop := {
  wa_all : forall m, m ∈ cands <-> m ∈ it \/ m ∈ tried \/ (m ∈ cands /\ is_Some (pending !! me_id m)) \/ (m ∈ cands /\ (score_a m, me_id m) ∈ ready);
  wa_suffix : exists gone, cands = gone ++ it;
  wa_it_tried : forall m, m ∈ it -> m ∈ tried -> False;
  wa_it_pending : forall m, m ∈ it -> pending !! me_id m = None;
  wa_it_ready : forall m sc, m ∈ it -> (sc, me_id m) ∉ ready;
  wa_tried_pending : forall m, m ∈ tried -> pending !! me_id m = None;
  wa_tried_ready : forall m sc, m ∈ tried -> (sc, me_id m) ∉ ready;
  wa_tried_once : NoDup tried;
  wa_pending : forall c n, pending !! c = Some n -> exists m, m ∈ cands /\ me_id m = c /\ n = N.of_nat (size (me_parents m ∖ emitted)) /\ 0 < n;
  wa_ready : forall sc c, (sc, c) ∈ ready -> exists m, m ∈ cands /\ me_id m = c /\ sc = score_a m /\ me_parents m ⊆ emitted /\ pending !! c = None;
}.
Lemma cand_inj m m' : m ∈ cands -> m' ∈ cands -> me_id m = me_id m' -> m = m'.
Proof using Hc_store. intros H H' E. apply Hc_store in H, H'. rewrite E in H. congruence. Qed.

Lemma skip_pending_spec emitted tried : forall it pending ready it' pending',
  waiting it tried pending ready emitted -> skip_pending iter emitted it pending = (it', pending') ->
  waiting it' tried pending' ready emitted /\ (forall m it2, it' = m :: it2 -> me_parents m ⊆ emitted).
Proof using Hiter Hc_store Hc_nodup.
  clear HPO HS. induction it as [|m it IH]; intros pending ready it' pending' HW E; cbn [skip_pending] in E.
  { injection E as <- <-. split; [exact HW|]. intros; discriminate. }
  rewrite missing_size in E. destruct (_ =? 0) eqn:En.
  - injection E as <- <-. split; [exact HW|]. intros ? ? [= <- <-]. apply N.eqb_eq in En.
    assert (Hz : size (me_parents m ∖ emitted) = 0%nat) by lia. apply size_empty_inv in Hz. set_solver.
  - apply N.eqb_neq in En. refine (IH _ ready _ _ _ E). destruct HW as [W1 W2 W3 W4 W5 W6 W7 W8 W9 W10].
    assert (Hm : m ∈ cands) by (apply W1; left; left). destruct W2 as (gone & Eg).
    assert (Hnot : forall m', m' ∈ it -> me_id m' <> me_id m).
    { intros m' Hm' Eq. rewrite Eg, map_app in Hc_nodup. apply NoDup_app in Hc_nodup as (_ & _ & Hn). cbn in Hn. apply NoDup_cons in Hn as [Hn _].
      apply Hn. apply elem_of_list_fmap. exists m'. auto. }
    split.
    + intros x. rewrite W1 at 1. rewrite elem_of_cons. split.
      * intros [[->|H]|[H|[[H1 H2]|H]]]; auto.
        -- right. right. left. split; [exact Hm|]. rewrite lookup_insert. eauto.
        -- right. right. left. split; [exact H1|]. destruct (decide (me_id m = me_id x)) as [Ee|Ee]; [rewrite Ee, lookup_insert; eauto|by rewrite lookup_insert_ne].
      * intros [H|[H|[[H1 H2]|H]]]; auto. destruct (decide (me_id m = me_id x)) as [Ee|Ee]; [left; left; symmetry; by apply cand_inj|]. right. right. left. split; [exact H1|].
        by rewrite lookup_insert_ne in H2.
    + exists (gone ++ [m]). by rewrite <- app_assoc.
    + intros x Hx. apply W3. by right.
    + intros x Hx. rewrite lookup_insert_ne by (intros Ee; by apply (Hnot x Hx)). apply W4. by right.
    + intros x sc Hx. apply W5. by right.
    + intros x Hx. rewrite lookup_insert_ne; [by apply W6|]. intros Ee. apply (W3 m); [left|]. replace m with x; [exact Hx|].
      apply cand_inj; auto. apply W1. auto.
    + exact W7.
    + exact W8.
    + intros c n H. destruct (decide (c = me_id m)) as [->|Hne].
      * rewrite lookup_insert in H. injection H as <-. exists m. split; [exact Hm|]. split; [reflexivity|]. split; [reflexivity|lia].
      * rewrite lookup_insert_ne in H by congruence. by apply W9.
    + intros sc c H. destruct (W10 sc c H) as (x & Hx & E1 & E2 & E3 & E4). exists x. split; [exact Hx|]. split; [exact E1|]. split; [exact E2|]. split; [exact E3|].
      rewrite lookup_insert_ne; [exact E4|]. intros Ee. apply (W5 m sc); [left|]. by rewrite Ee.
Qed.

(** after [m] came: its children *)
Lemma release_spec (m : mentry) (emitted : gset N) (it tried : list mentry) : m ∈ cands -> me_id m ∉ emitted -> m ∈ tried ->
  forall (cs : list N) (pending : gmap N N) (ready : gset (N * N)), NoDup cs -> (forall c, c ∈ cs -> c ∈ me_children m) ->
  (forall c n, pending !! c = Some n -> exists x, x ∈ cands /\ me_id x = c /\
     n = N.of_nat (size (me_parents x ∖ (if decide (c ∈ cs) then emitted else {[me_id m]} ∪ emitted))) /\ 0 < n) ->
  (forall x, x ∈ cands <-> x ∈ it \/ x ∈ tried \/ (x ∈ cands /\ is_Some (pending !! me_id x)) \/ (x ∈ cands /\ (score_a x, me_id x) ∈ ready)) ->
  (forall x sc, x ∈ it -> (sc, me_id x) ∉ ready) -> (forall x, x ∈ it -> pending !! me_id x = None) ->
  (forall x, x ∈ tried -> pending !! me_id x = None) -> (forall x sc, x ∈ tried -> (sc, me_id x) ∉ ready) ->
  (forall sc c, (sc, c) ∈ ready -> exists x, x ∈ cands /\ me_id x = c /\ sc = score_a x /\ me_parents x ⊆ {[me_id m]} ∪ emitted /\ pending !! c = None) ->
  exists pending' ready', release s cs pending ready = Ok (pending', ready') /\
  (forall c n, pending' !! c = Some n -> exists x, x ∈ cands /\ me_id x = c /\ n = N.of_nat (size (me_parents x ∖ ({[me_id m]} ∪ emitted))) /\ 0 < n) /\
  (forall x, x ∈ cands <-> x ∈ it \/ x ∈ tried \/ (x ∈ cands /\ is_Some (pending' !! me_id x)) \/ (x ∈ cands /\ (score_a x, me_id x) ∈ ready')) /\
  (forall x sc, x ∈ it -> (sc, me_id x) ∉ ready') /\ (forall x, x ∈ it -> pending' !! me_id x = None) /\
  (forall x, x ∈ tried -> pending' !! me_id x = None) /\ (forall x sc, x ∈ tried -> (sc, me_id x) ∉ ready') /\
  (forall sc c, (sc, c) ∈ ready' -> exists x, x ∈ cands /\ me_id x = c /\ sc = score_a x /\ me_parents x ⊆ {[me_id m]} ∪ emitted /\ pending' !! c = None).
Proof using HS HPO Hc_store Hiter.
  intros Hm Hne Hmt. induction cs as [|c cs IH]; intros pending ready Hn Hch P1 P2 P3 P4 P5 P6 P7; cbn [release].
  { exists pending, ready. split; [reflexivity|]. split; [|auto 10]. intros c n H. destruct (P1 c n H) as (x & A & B & D & F).
    rewrite decide_False in D by (intros X; inversion X). eauto 10. }
  apply NoDup_cons in Hn as [Hnc Hn]. destruct (pending !! c) as [n|] eqn:Ec.
  2:{ apply IH; auto; [intros; apply Hch; by right|]. intros d n H. destruct (P1 d n H) as (x & A & B & D & F). exists x. split; [exact A|]. split; [exact B|]. split; [|exact F].
      rewrite D. destruct (decide (d = c)) as [->|Hdc]; [congruence|]. do 3 f_equal.
      destruct (decide (d ∈ c :: cs)) as [H1|H1], (decide (d ∈ cs)) as [H2|H2]; try reflexivity; exfalso; clear - H1 H2 Hdc; set_solver. }
  destruct (P1 c n Ec) as (x & Hx & Ex & En & Hpos). rewrite decide_True in En by left.
  rewrite (proj2 (N.eqb_neq n 0)) by lia.
  assert (Hpar : me_id m ∈ me_parents x).
  { apply (parents_of _ _ _ (Hc_store x Hx)). rewrite Ex. apply (children_of _ _ _ (Hc_store m Hm)). apply Hch. left. }
  assert (Hless : size (me_parents x ∖ emitted) = S (size (me_parents x ∖ ({[me_id m]} ∪ emitted)))).
  { replace (me_parents x ∖ emitted) with ({[me_id m]} ∪ (me_parents x ∖ ({[me_id m]} ∪ emitted))).
    - rewrite size_union, size_singleton by (clear; set_solver). reflexivity.
    - apply leibniz_equiv. intros y. clear - Hpar Hne. destruct (decide (y = me_id m)) as [->|]; set_solver. }
  assert (Hrest : forall d k, d <> c -> pending !! d = Some k -> exists x, x ∈ cands /\ me_id x = d /\
     k = N.of_nat (size (me_parents x ∖ (if decide (d ∈ cs) then emitted else {[me_id m]} ∪ emitted))) /\ 0 < k).
  { intros d k Hdc H. destruct (P1 d k H) as (y & A & B & D & F). exists y. split; [exact A|]. split; [exact B|]. split; [|exact F].
    rewrite D. do 3 f_equal. destruct (decide (d ∈ c :: cs)) as [H1|H1], (decide (d ∈ cs)) as [H2|H2]; try reflexivity; exfalso; clear - H1 H2 Hdc; set_solver. }
  assert (Hxit : x ∉ it) by (intros H; specialize (P4 x H); rewrite Ex in P4; congruence).
  assert (Hxtr : x ∉ tried) by (intros H; specialize (P5 x H); rewrite Ex in P5; congruence).
  assert (Hin : forall y, y ∈ it \/ y ∈ tried -> y ∈ cands) by (intros y Hy; apply P2; tauto).
  assert (Hidne : forall y, y ∈ it \/ y ∈ tried -> me_id y <> c).
  { intros y Hy Ee. assert (y = x) as -> by (apply cand_inj; auto; congruence). tauto. }
  destruct (n =? 1) eqn:E1.
  - apply N.eqb_eq in E1. assert (Hall : me_parents x ⊆ {[me_id m]} ∪ emitted).
    { assert (Hz : size (me_parents x ∖ ({[me_id m]} ∪ emitted)) = 0%nat) by (clear - E1 En Hless; lia). apply size_empty_inv in Hz. intros y Hy. destruct (decide (y ∈ {[me_id m]} ∪ emitted)) as [|Hq]; [assumption|].
      exfalso. apply (not_elem_of_empty (C := gset N) y), Hz, elem_of_difference. auto. }
    pose proof (Hc_store x Hx) as Hst. rewrite Ex in Hst. rewrite Hst. cbn [expect rbind]. rewrite (entry_score _ _ (Hc_store x Hx)). cbn [rmap_err rbind].
    apply IH; auto.
    + intros; apply Hch; by right.
    + intros d k H. destruct (decide (d = c)) as [->|Hdc]; [rewrite lookup_delete in H; discriminate|]. rewrite lookup_delete_ne in H by congruence. by apply Hrest.
    + intros y. rewrite P2 at 1. split.
      * intros [H|[H|[[H1 H2]|[H1 H2]]]]; auto.
        -- destruct (decide (me_id y = c)) as [Ey|Ey].
           ++ right. right. right. split; [exact H1|]. assert (y = x) as -> by (apply cand_inj; auto; congruence). rewrite Ex. apply elem_of_union. left. by apply elem_of_singleton.
           ++ right. right. left. split; [exact H1|]. by rewrite lookup_delete_ne.
        -- right. right. right. split; [exact H1|]. apply elem_of_union. by right.
      * intros [H|[H|[[H1 H2]|[H1 H2]]]]; auto.
        -- right. right. left. split; [exact H1|]. destruct (decide (me_id y = c)) as [Ey|Ey]; [rewrite Ey, lookup_delete in H2; by destruct H2|by rewrite lookup_delete_ne in H2].
        -- apply elem_of_union in H2 as [H2|H2]; [|auto]. apply elem_of_singleton in H2. injection H2 as H2 H3. right. right. left. split; [exact H1|]. rewrite H3, Ec. eauto.
    + intros y sc Hy H. apply elem_of_union in H as [H|H]; [|by apply (P3 y sc)]. apply elem_of_singleton in H. injection H as _ H. by apply (Hidne y); [left|].
    + intros y Hy. rewrite lookup_delete_ne by (intros Ee; by apply (Hidne y); [left|]). by apply P4.
    + intros y Hy. rewrite lookup_delete_ne by (intros Ee; by apply (Hidne y); [right|]). by apply P5.
    + intros y sc Hy H. apply elem_of_union in H as [H|H]; [|by apply (P6 y sc)]. apply elem_of_singleton in H. injection H as _ H. by apply (Hidne y); [right|].
    + intros sc d H. apply elem_of_union in H as [H|H].
      * apply elem_of_singleton in H. injection H as -> ->. exists x. split; [exact Hx|]. split; [exact Ex|]. split; [reflexivity|]. split; [exact Hall|]. by rewrite lookup_delete.
      * destruct (P7 sc d H) as (y & A & B & D & F & G). exists y. split; [exact A|]. split; [exact B|]. split; [exact D|]. split; [exact F|].
        rewrite lookup_delete_ne; [exact G|]. intros <-. congruence.
  - apply N.eqb_neq in E1. apply IH; auto.
    + intros; apply Hch; by right.
    + intros d k H. destruct (decide (d = c)) as [->|Hdc].
      * rewrite lookup_insert in H. injection H as <-. exists x. split; [exact Hx|]. split; [exact Ex|]. rewrite decide_False by exact Hnc. split; [|lia]. lia.
      * rewrite lookup_insert_ne in H by congruence. by apply Hrest.
    + intros y. rewrite P2 at 1. split.
      * intros [H|[H|[[H1 H2]|[H1 H2]]]]; auto. right. right. left. split; [exact H1|].
        destruct (decide (me_id y = c)) as [Ey|Ey]; [rewrite Ey, lookup_insert; eauto|by rewrite lookup_insert_ne].
      * intros [H|[H|[[H1 H2]|[H1 H2]]]]; auto. right. right. left. split; [exact H1|].
        destruct (decide (me_id y = c)) as [Ey|Ey]; [rewrite Ey, Ec; eauto|by rewrite lookup_insert_ne in H2].
    + intros y Hy. rewrite lookup_insert_ne by (intros Ee; by apply (Hidne y); [left|]). by apply P4.
    + intros y Hy. rewrite lookup_insert_ne by (intros Ee; by apply (Hidne y); [right|]). by apply P5.
    + intros sc d H. destruct (P7 sc d H) as (y & A & B & D & F & G). exists y. split; [exact A|]. split; [exact B|]. split; [exact D|]. split; [exact F|].
      rewrite lookup_insert_ne; [exact G|]. intros <-. congruence.
Qed.
End waiting.

(** *** The queue of ready transactions *)
Lemma sorted_last {A} (R : A -> A -> Prop) (x : list A) (b : A) : StronglySorted R x -> last x = Some b -> forall y, y ∈ x -> y = b \/ R y b.
Proof using.
  induction 1 as [|c x H IH Hc]; [discriminate|]. intros E y Hy. destruct x as [|d x].
  - cbn in E. injection E as <-. apply elem_of_list_singleton in Hy. by left.
  - apply elem_of_cons in Hy as [->|Hy]; [|by apply IH]. right. rewrite Forall_forall in Hc. apply Hc. 
    change (last (d :: x) = Some b) in E. apply last_Some in E as (k & ->). apply elem_of_app. right. left.
Qed.
Lemma in_order_elem (x : N * N) (y : gset (N * N)) : x ∈ in_order y <-> x ∈ y.
Proof using. unfold in_order. rewrite merge_sort_Permutation. apply elem_of_elements. Qed.
Lemma in_order_sorted (y : gset (N * N)) : StronglySorted pair_le (in_order y).
Proof using.
  clear. apply StronglySorted_merge_sort; [|intros [a b] [c d]; unfold pair_le; cbn; lia].
  intros [a b] [c d] [e f]. unfold pair_le. cbn. lia.
Qed.
Lemma best_ready_some ready x : best_ready ready = Some x -> x ∈ ready /\ forall y, y ∈ ready -> fst y <= fst x.
Proof using.
  unfold best_ready. intros E. assert (Hx : x ∈ in_order ready) by (apply last_Some in E as (k & ->); apply elem_of_app; right; left).
  split; [by apply in_order_elem|]. intros y Hy. apply in_order_elem in Hy. destruct (sorted_last _ _ _ (in_order_sorted ready) E y Hy) as [->|H]; [lia|].
  destruct y, x. clear - H. unfold pair_le in H. cbn in *. lia.
Qed.
Lemma best_ready_none ready : best_ready ready = None -> ready = ∅.
Proof using.
  unfold best_ready. intros E. apply last_None in E. apply leibniz_equiv. intros x. rewrite <- in_order_elem, E. clear. split; intros H; [inversion H|set_solver].
Qed.

(** *** The loop *)
Section loop.
Context {V : Type} (connect : V -> transaction -> V * bool) (v0 : V) (a0 : accum) (own : gset N).
Context (cands : list mentry) (Hc_nodup : NoDup (map me_id cands)) (Hc_store : forall m, m ∈ cands -> st_txs s !! me_id m = Some m).
Context (Hc_own : forall m, m ∈ cands -> me_id m ∉ own) (Hfees : ac_fees a0 + sum_of te_fee l <= U128_MAX).

Definition yes (tried : list mentry) : list tx_entry := accepted connect v0 (map me_entry tried).
Definition there (tried : list mentry) : gset N := own ∪ list_to_set (ids (yes tried)).
Definition holds (x : list tx_entry) : accum :=
  Accum (ac_txs a0 ++ map (fun e => (te_tx e, te_size e)) x) (ac_size a0 + sum_of te_size x) (ac_target a0) false (ac_fees a0 + sum_of te_fee x) (ac_tip a0).
Definition descending : Prop := StronglySorted (fun x y => score_a y <= score_a x) cands.
Definition right_order (tries : list mentry) : Prop :=
  forall b m c, tries = b ++ m :: c ->
    me_parents m ⊆ there b /\
    (descending -> forall y, y ∈ cands -> y ∉ b -> me_parents y ⊆ there b -> score_a y <= score_a m).
Definition fits (a : accum) (x : list tx_entry) : Prop := x = [] \/ accum_total a <= ac_target a.
Record outcome (tries : list mentry) (a : accum) : Prop := {
  ou_once : NoDup tries;
  ou_from : forall m, m ∈ tries -> m ∈ cands;
  ou_order : right_order tries;
  ou_end : (a = holds (yes tries) /\ fits a (yes tries) /\ forall m, m ∈ cands -> m ∈ tries \/ ~ me_parents m ⊆ there tries) \/
           (exists tr m, tries = tr ++ [m] /\ a = full (holds (yes tr)) /\ fits a (yes tr) /\ yes tries = yes tr ++ [me_entry m] /\
              ac_target a < accum_total (holds (yes tries)));
}.
Lemma yes_snoc tried m : yes (tried ++ [m]) =
  yes tried ++ (if accepts connect (after connect v0 (map te_tx (map me_entry tried))) (te_tx (me_entry m)) then [me_entry m] else []).
Proof using. unfold yes. rewrite map_app, accepted_app. cbn. by rewrite app_nil_r. Qed.
Lemma yes_in tried e : e ∈ yes tried -> exists m, m ∈ tried /\ me_entry m = e.
Proof using.
  clear. intros H. apply (sublist_in _ _ (accepted_sub connect v0 _)) in H. apply elem_of_list_fmap in H as (m & -> & Hm). eauto.
Qed.
Lemma holds_snoc x m : with_tx (holds x) (te_tx (me_entry m)) (me_size m) (me_fee m) = holds (x ++ [me_entry m]).
Proof using.
  clear. unfold with_tx, holds. cbn [ac_txs ac_size ac_target ac_done ac_fees ac_tip]. rewrite map_app, app_assoc, !sum_of_app. cbn [map sum_of fold_right].
  rewrite !N.add_0_r, !N.add_assoc. reflexivity.
Qed.
Lemma there_mono b c x : x ∈ there b -> x ∈ there (b ++ c).
Proof using.
  clear. unfold there, yes, ids. rewrite map_app, accepted_app, map_app, !elem_of_union, !elem_of_list_to_set, elem_of_app. tauto.
Qed.

Lemma fill_spec fuel : forall it tried pending ready v,
  waiting cands it tried pending ready (there tried) -> v = after connect v0 (map te_tx (map me_entry tried)) ->
  fits (holds (yes tried)) (yes tried) -> right_order tried -> (length cands < fuel + length tried)%nat ->
  exists tries a', fill iter connect s fuel it pending ready (there tried) v (holds (yes tried)) = Ok a' /\ outcome tries a'.
Proof using HS HPO Hiter Hc_nodup Hc_store Hc_own Hfees.
  induction fuel as [|fuel IH]; intros it tried pending ready v HW -> Hfit Hord Hfuel.
  all: assert (Hsub : forall m, m ∈ tried -> m ∈ cands) by (intros m Hm; apply (wa_all _ _ _ _ _ _ HW); auto).
  all: assert (Hlen : (length tried <= length cands)%nat) by (apply submseteq_length, NoDup_submseteq; [exact (wa_tried_once _ _ _ _ _ _ HW)|exact Hsub]).
  { exfalso. clear - Hfuel Hlen. lia. }
  cbn [fill]. change (ac_done (holds (yes tried))) with false. cbn match.
  destruct (skip_pending iter (there tried) it pending) as [it1 pending1] eqn:Es.
  destruct (skip_pending_spec cands Hc_nodup Hc_store (there tried) tried it pending ready it1 pending1 HW Es) as [HW1 Hhead]. clear HW Es it pending.
  rename it1 into it, pending1 into pending, HW1 into HW.
  (* whatever is picked *)
  assert (Hgo : forall m it' ready', m ∈ cands -> m ∉ tried -> me_parents m ⊆ there tried ->
    (descending -> forall y, y ∈ cands -> y ∉ tried -> me_parents y ⊆ there tried -> score_a y <= score_a m) ->
    waiting cands it' (tried ++ [m]) pending ready' (there tried) ->
    exists tries a',
    (let '(v', ok) := connect (after connect v0 (map te_tx (map me_entry tried))) (te_tx (me_entry m)) in
     if ok then
            match accum_add (holds (yes tried)) (te_tx (me_entry m)) (me_size m) (me_fee m) with
            | (a', Ok _) =>
                let? pr := release s (iter (me_children m)) pending ready' in
                fill iter connect s fuel it' (fst pr) (snd pr) ({[me_id m]} ∪ there tried) v' a'
            | (a', Err _) => Ok a'
            | (_, Panic) => Panic
            end
          else fill iter connect s fuel it' pending ready' (there tried) v' (holds (yes tried))) = Ok a' /\ outcome tries a').
  { clear Hhead. intros m it' ready' Hm Hnew Hpar Hbest HW'.
    assert (Hord' : right_order (tried ++ [m])).
    { intros b x c E. destruct c as [|z c _] using rev_ind.
      - apply app_inj_tail in E as [-> ->]. auto.
      - rewrite app_comm_cons, app_assoc in E. apply app_inj_tail in E as [E _]. by apply (Hord b x c). }
    assert (Hmid : me_id m ∉ there tried).
    { unfold there. rewrite elem_of_union, elem_of_list_to_set. intros [H|H]; [by apply (Hc_own m Hm)|].
      apply ids_elem in H as (e & He & Ee). apply yes_in in He as (m' & Hm' & <-). apply Hnew.
      replace m with m'; [exact Hm'|]. apply (cand_inj cands Hc_store); [by apply Hsub|exact Hm|exact Ee]. }
    assert (Hlen' : (length cands < fuel + length (tried ++ [m]))%nat) by (rewrite app_length; cbn; clear - Hfuel; lia).
    pose proof (yes_snoc tried m) as Eyes. unfold accepts in Eyes.
    assert (Eaf : after connect v0 (map te_tx (map me_entry (tried ++ [m]))) = fst (connect (after connect v0 (map te_tx (map me_entry tried))) (te_tx (me_entry m)))).
    { rewrite !map_app, after_app. reflexivity. }
    destruct (connect (after connect v0 (map te_tx (map me_entry tried))) (te_tx (me_entry m))) as [v' ok] eqn:Ec. cbn [fst snd] in Eyes, Eaf.
    destruct ok.
    2:{ rewrite app_nil_r in Eyes. assert (Eth : there (tried ++ [m]) = there tried) by (unfold there; by rewrite Eyes).
        destruct (IH it' (tried ++ [m]) pending ready' v') as (tries & a' & E & HO); auto.
        - by rewrite Eth.
        - by rewrite Eyes.
        - rewrite Eth, Eyes in E. eauto. }
    assert (Hfee : ac_fees (holds (yes tried)) + me_fee m <= U128_MAX).
    { unfold holds. cbn [ac_fees]. assert (Hr : sum_of te_fee (yes (tried ++ [m])) <= sum_of te_fee l).
      { apply sum_of_incl.
        - apply (sublist_nodup _ _ (accepted_sub connect v0 _)). apply (NoDup_fmap_2_strong me_entry); [|exact (wa_tried_once _ _ _ _ _ _ HW')].
          intros x y Hx Hy E. apply (cand_inj cands Hc_store); [by apply (wa_all _ _ _ _ _ _ HW'); auto..|]. unfold me_id. by rewrite E.
        - intros e He. apply yes_in in He as (x & Hx & <-). assert (Hxc : x ∈ cands) by (apply (wa_all _ _ _ _ _ _ HW'); auto).
          destruct (entry_of mk l s HS _ _ (Hc_store x Hxc)) as (e & He & _ & HE). by rewrite (ee_entry _ _ _ _ HE). }
      rewrite Eyes, sum_of_app in Hr. cbn [sum_of fold_right] in Hr. change (te_fee (me_entry m)) with (me_fee m) in Hr. clear - Hr Hfees.
      generalize dependent U128_MAX. intros. lia. }
    rewrite accum_add_ok by exact Hfee. rewrite holds_snoc, <- Eyes. cbn [ac_target holds].
    assert (Eth : there (tried ++ [m]) = {[me_id m]} ∪ there tried).
    { unfold there. rewrite Eyes. unfold ids. rewrite map_app. apply leibniz_equiv. intros x. rewrite !elem_of_union, !elem_of_list_to_set, elem_of_app. cbn [map].
      rewrite elem_of_list_singleton, elem_of_singleton. unfold me_id. clear. tauto. }
    destruct HW' as [W1 W2 W3 W4 W5 W6 W7 W8 W9 W10].
    destruct (release_spec cands Hc_store m (there tried) it' (tried ++ [m]) Hm Hmid) with (cs := iter (me_children m)) (pending := pending) (ready := ready')
      as (pending' & ready2 & Er & R1 & R2 & R3 & R4 & R5 & R6 & R7).
    { apply elem_of_app. right. left. }
    { by apply iter_nodup. }
    { intros c Hc. by apply (iter_elem iter Hiter) in Hc. }
    { intros c n H. destruct (W9 c n H) as (x & Hx & Ex & En & Hp). exists x. split; [exact Hx|]. split; [exact Ex|]. split; [|exact Hp].
      rewrite En. destruct (decide (c ∈ iter (me_children m))) as [Hc|Hc]; [reflexivity|]. do 2 f_equal.
      assert (Hno : me_id m ∉ me_parents x).
      { intros Hq. apply Hc. apply (iter_elem iter Hiter). apply (children_of _ _ _ (Hc_store m Hm)). rewrite <- Ex.
        by apply (parents_of _ _ _ (Hc_store x Hx)). }
      apply leibniz_equiv. intros y. rewrite !elem_of_difference, elem_of_union, elem_of_singleton. split; [|tauto].
      intros [H1 H2]. split; [exact H1|]. intros [->|H3]; [contradiction|contradiction]. }
    { exact W1. } { exact W5. } { exact W4. } { exact W6. } { exact W7. }
    { intros sc c H. destruct (W10 sc c H) as (x & A & B & D & F & G). exists x. split; [exact A|]. split; [exact B|]. split; [exact D|]. split; [|exact G].
      etrans; [exact F|]. apply union_subseteq_r. }
    rewrite Er. cbn [rbind fst snd].
    destruct (accum_total (holds (yes (tried ++ [m]))) <=? ac_target a0) eqn:Et.
    - apply N.leb_le in Et. rewrite <- Eth. apply (IH it' (tried ++ [m]) pending' ready2 v'); auto; [|by right].
      rewrite Eth. split; auto.
    - apply N.leb_gt in Et. exists (tried ++ [m]), (full (holds (yes tried))). split.
      { destruct fuel; reflexivity. }
      split; [exact W8| |exact Hord'|].
      + intros x Hx. apply W1. auto.
      + right. exists tried, m. split; [reflexivity|]. split; [reflexivity|]. split; [exact Hfit|]. split; [exact Eyes|]. exact Et. }
  (* what is picked *)
  assert (Hscore : descending -> forall m it2 y, it = m :: it2 -> y ∈ it -> score_a y <= score_a m).
  { intros Hd m it2 y E Hy. destruct (wa_suffix _ _ _ _ _ _ HW) as (gone & Eg). unfold descending in Hd. rewrite Eg, E in Hd. rewrite E in Hy. clear - Hd Hy.
    induction gone as [|g gone IHg]; cbn in Hd; [|inversion Hd; by apply IHg]. apply StronglySorted_inv in Hd as [_ Hd].
    apply elem_of_cons in Hy as [->|Hy]; [reflexivity|]. rewrite Forall_forall in Hd. by apply Hd. }
  assert (Hwhere : forall y, y ∈ cands -> y ∉ tried -> me_parents y ⊆ there tried -> y ∈ it \/ (score_a y, me_id y) ∈ ready).
  { intros y Hy Hnt Hp. apply (wa_all _ _ _ _ _ _ HW) in Hy as [H|[H|[[H [n Hn]]|[_ H]]]]; [by left|contradiction| |by right].
    exfalso. destruct (wa_pending _ _ _ _ _ _ HW _ _ Hn) as (x & Hx & Ex & En & Hpos). assert (x = y) as -> by (by apply (cand_inj cands Hc_store)).
    assert (Hz : me_parents y ∖ there tried = ∅) by (apply leibniz_equiv; clear - Hp; set_solver). rewrite Hz, size_empty in En. clear - En Hpos. lia. }
  assert (Hfrom_it : forall m it2, it = m :: it2 ->
    (descending -> forall x, x ∈ ready -> fst x <= score_a m) ->
    m ∈ cands /\ m ∉ tried /\ me_parents m ⊆ there tried /\
    (descending -> forall y, y ∈ cands -> y ∉ tried -> me_parents y ⊆ there tried -> score_a y <= score_a m) /\
    waiting cands it2 (tried ++ [m]) pending ready (there tried)).
  { intros m it2 E Hr. assert (Hm : m ∈ it) by (rewrite E; left). destruct HW as [W1 W2 W3 W4 W5 W6 W7 W8 W9 W10].
    assert (Hmc : m ∈ cands) by (apply W1; by left). split; [exact Hmc|]. split; [intros H; by apply (W3 m)|]. split; [by apply (Hhead m it2)|].
    split; [intros Hd y Hy Hny Hp; destruct (Hwhere y Hy Hny Hp) as [H|H]; [by apply (Hscore Hd m it2)|by apply (Hr Hd (score_a y, me_id y))]|].
    assert (Hnot2 : m ∉ it2).
    { destruct W2 as (gone & Eg). rewrite Eg, E, map_app in Hc_nodup. apply NoDup_app in Hc_nodup as (_ & _ & Hn). cbn in Hn. apply NoDup_cons in Hn as [Hn _].
      intros H. apply Hn. apply elem_of_list_fmap. eauto. }
    split.
    - intros x. rewrite W1 at 1. rewrite E, elem_of_app, elem_of_cons, elem_of_list_singleton. tauto.
    - destruct W2 as (gone & Eg). exists (gone ++ [m]). rewrite Eg, E, <- app_assoc. reflexivity.
    - intros x Hx Ht. apply elem_of_app in Ht as [Ht|Ht]; [apply (W3 x); [rewrite E; by right|exact Ht]|]. apply elem_of_list_singleton in Ht as ->. contradiction.
    - intros x Hx. apply W4. rewrite E. by right.
    - intros x sc Hx. apply W5. rewrite E. by right.
    - intros x Hx. apply elem_of_app in Hx as [Hx|Hx]; [by apply W6|]. apply elem_of_list_singleton in Hx as ->. by apply W4.
    - intros x sc Hx. apply elem_of_app in Hx as [Hx|Hx]; [by apply W7|]. apply elem_of_list_singleton in Hx as ->. by apply W5.
    - apply NoDup_app. split; [exact W8|]. split; [|apply NoDup_singleton]. intros x Hx Ht. apply elem_of_list_singleton in Ht as ->. by apply (W3 m).
    - exact W9.
    - exact W10. }
  assert (Hfrom_ready : forall sc c, best_ready ready = Some (sc, c) ->
    (descending -> forall m it2, it = m :: it2 -> score_a m <= sc) ->
    exists m, st_txs s !! c = Some m /\ m ∈ cands /\ m ∉ tried /\ me_parents m ⊆ there tried /\
    (descending -> forall y, y ∈ cands -> y ∉ tried -> me_parents y ⊆ there tried -> score_a y <= score_a m) /\
    waiting cands it (tried ++ [m]) pending (ready ∖ {[(sc, c)]}) (there tried)).
  { intros sc c Eb Hr. destruct (best_ready_some _ _ Eb) as [Hin Hmax]. destruct (wa_ready _ _ _ _ _ _ HW _ _ Hin) as (m & Hm & Em & Esc & Hp & Hnp).
    exists m. split; [rewrite <- Em; by apply Hc_store|]. split; [exact Hm|].
    split; [intros H; apply (wa_tried_ready _ _ _ _ _ _ HW m sc H); by rewrite Em|]. split; [exact Hp|].
    split.
    { intros Hd y Hy Hny Hpy. destruct (Hwhere y Hy Hny Hpy) as [H|H]; [|rewrite <- Esc; by apply (Hmax (score_a y, me_id y))].
      destruct it as [|m0 it2] eqn:Eit; [inversion H|]. etrans; [by apply (Hscore Hd m0 it2)|]. rewrite <- Esc. by apply (Hr Hd m0 it2). }
    destruct HW as [W1 W2 W3 W4 W5 W6 W7 W8 W9 W10].
    assert (Hrd : forall x, x ∈ ready ∖ {[(sc, c)]} <-> x ∈ ready /\ x <> (sc, c)) by (intros x; rewrite elem_of_difference, elem_of_singleton; tauto).
    split.
    - intros x. rewrite W1 at 1. rewrite elem_of_app, elem_of_list_singleton, Hrd. split.
      + intros [H|[H|[H|[H1 H2]]]]; auto. destruct (decide (me_id x = c)) as [Ex|Ex].
        * right. left. right. apply (cand_inj cands Hc_store); auto. congruence.
        * right. right. right. split; [exact H1|]. split; [exact H2|]. intros [=]. contradiction.
      + intros [H|[[H|H]|[H|[H1 [H2 H3]]]]]; auto. subst x. right. right. right. split; [exact Hm|]. by rewrite <- Esc, Em.
    - exact W2.
    - intros x Hx Ht. apply elem_of_app in Ht as [Ht|Ht]; [by apply (W3 x)|]. apply elem_of_list_singleton in Ht as ->. apply (W5 m sc Hx). by rewrite Em.
    - exact W4.
    - intros x sc' Hx H. apply Hrd in H as [H _]. by apply (W5 x sc').
    - intros x Hx. apply elem_of_app in Hx as [Hx|Hx]; [by apply W6|]. apply elem_of_list_singleton in Hx as ->. by rewrite Em.
    - intros x sc' Hx H. apply Hrd in H as [H Hne]. apply elem_of_app in Hx as [Hx|Hx]; [by apply (W7 x sc')|]. apply elem_of_list_singleton in Hx as ->.
      apply Hne. rewrite Em in *. destruct (W10 _ _ H) as (m' & Hm' & Em' & Es' & _). assert (m' = m) as -> by (apply (cand_inj cands Hc_store); auto; congruence). congruence.
    - apply NoDup_app. split; [exact W8|]. split; [|apply NoDup_singleton]. intros x Hx Ht. apply elem_of_list_singleton in Ht as ->. apply (W7 m sc Hx). by rewrite Em.
    - exact W9.
    - intros sc' d H. apply Hrd in H as [H _]. by apply W10. }
  unfold pick. destruct it as [|m it2] eqn:Eit.
  - destruct (best_ready ready) as [[sc c]|] eqn:Eb; cbn [rbind].
    + destruct (Hfrom_ready sc c eq_refl) as (m & Em & F1 & F2 & F3 & F4 & F5); [intros; discriminate|]. cbn [snd]. rewrite Em. cbn [expect rbind]. by apply Hgo.
    + exists tried, (holds (yes tried)). split; [reflexivity|]. split; [exact (wa_tried_once _ _ _ _ _ _ HW)|exact Hsub|exact Hord|]. left.
      split; [reflexivity|]. split; [exact Hfit|]. intros m Hm. apply best_ready_none in Eb. subst ready.
      destruct (decide (me_parents m ⊆ there tried)) as [Hp|Hp]; [|by right]. left.
      pose proof (proj1 (wa_all _ _ _ _ _ _ HW m) Hm) as [H|[H|[[_ [n H]]|[_ H]]]]; [inversion H|exact H| |set_solver].
      exfalso. destruct (wa_pending _ _ _ _ _ _ HW _ _ H) as (x & Hx & Ex & En & Hpos). assert (x = m) as -> by (by apply (cand_inj cands Hc_store)).
      assert (Hz : me_parents m ∖ there tried = ∅) by (apply leibniz_equiv; clear - Hp; set_solver). rewrite Hz, size_empty in En. clear - En Hpos. lia.
  - assert (Hmc : m ∈ cands) by (apply (wa_all _ _ _ _ _ _ HW); left; left).
    destruct (best_ready ready) as [[sc c]|] eqn:Eb; cbn [rbind].
    + rewrite (entry_score _ _ (Hc_store m Hmc)). cbn [rmap_err rbind]. destruct (sc <? score_a m) eqn:El.
      * apply N.ltb_lt in El. destruct (Hfrom_it m it2 eq_refl) as (F1 & F2 & F3 & F4 & F5).
        { intros _ x Hx. apply best_ready_some in Eb as [_ Hmax]. specialize (Hmax x Hx). cbn in Hmax. clear - Hmax El. lia. }
        cbn [rbind]. by apply Hgo.
      * apply N.ltb_ge in El. destruct (Hfrom_ready sc c eq_refl) as (m' & Em & F1 & F2 & F3 & F4 & F5); [intros _ ? ? [= <- _]; exact El|].
        cbn [snd]. rewrite Em. cbn [expect rbind]. by apply Hgo.
    + destruct (Hfrom_it m it2 eq_refl) as (F1 & F2 & F3 & F4 & F5).
      { intros _ x Hx. apply best_ready_none in Eb. subst ready. set_solver. }
      cbn [rbind]. by apply Hgo.
Qed.
End loop.
End pick.
