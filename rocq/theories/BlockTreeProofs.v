(** Proofs about the block tree. *)
From Verif Require Import Base StatusModel StatusSpec BlockTreeModel BlockTreeSpec.
Local Open Scope N_scope.

(** ** Skip heights *)
Lemma land_le a b : N.land a b <= a.
Proof.
  assert (a - N.ldiff a b = N.land a b) as <-; [|lia].
  rewrite N.sub_nocarry_ldiff; apply N.bits_inj; intro n; rewrite ?N.ldiff_spec, ?N.land_spec, ?N.bits_0;
    destruct (N.testbit a n), (N.testbit b n); reflexivity.
Qed.
Lemma invert_le n : invert_lowest_one n <= n.
Proof. apply land_le. Qed.
Lemma invert_even n : N.even n = true -> 0 < n -> invert_lowest_one n + 2 <= n.
Proof.
  intros He Hn. unfold invert_lowest_one.
  assert (Hle : N.land n (N.pred n) <= N.pred n) by (rewrite N.land_comm; apply land_le).
  assert (He' : N.even (N.land n (N.pred n)) = true).
  { rewrite <- N.negb_odd, <- N.bit0_odd, N.land_spec, N.bit0_odd, <- N.negb_even, He. reflexivity. }
  revert Hle He'. generalize (N.land n (N.pred n)). intros x Hle He'.
  apply N.even_spec in He as [k ->]. apply N.even_spec in He' as [j ->]. lia.
Qed.
Lemma skip_small h : 2 <= h -> get_skip_height h + 2 <= h.
Proof.
  intro H. unfold get_skip_height. destruct (h <? 2) eqn:E; [lia|].
  destruct (N.odd h) eqn:Eo.
  - apply N.odd_spec in Eo as [k ->].
    assert (H1 := invert_even (2 * k + 1 - 1)).
    assert (H2 := invert_le (invert_lowest_one (2 * k + 1 - 1))).
    assert (N.even (2 * k + 1 - 1) = true) as He by (apply N.even_spec; exists k; lia).
    specialize (H1 He). lia.
  - apply invert_even; [|lia]. rewrite <- N.negb_odd, Eo. reflexivity.
Qed.
Lemma skip_lt h : 0 < h -> get_skip_height h < h.
Proof.
  intro H. destruct (N.lt_ge_cases h 2) as [?|H2].
  - unfold get_skip_height. replace (h <? 2) with true by lia. lia.
  - pose proof (skip_small h H2). lia.
Qed.
Lemma skip_prev_fits h : 0 < h <= U64_MAX -> get_skip_height (h - 1) + 2 <= U64_MAX.
Proof.
  intro H. destruct (N.lt_ge_cases (h - 1) 2) as [H1|H1].
  - unfold get_skip_height. replace (h - 1 <? 2) with true by lia. unfold U64_MAX. lia.
  - pose proof (skip_small (h - 1) H1). lia.
Qed.

(** ** Well-formed trees *)
Section tree.
Context (cf : tree_cfg).

Definition wf (t : index_map) : Prop :=
  forall id b, t !! id = Some b ->
    bi_id b = id /\ id <> genesis_id cf /\ bi_height b <= U64_MAX /\
    (exists p, get_gen cf t (bi_prev b) = Some p /\ bi_height b = gen_height p + 1 /\ gen_trust p <= bi_trust b /\
               bi_time_max b = N.max (gen_time_max cf p) (bi_time b)) /\
    up cf t (N.to_nat (bi_height b - get_skip_height (bi_height b))) id = Some (bi_skip b).

Lemma get_gen_genesis t : get_gen cf t (genesis_id cf) = Some Genesis.
Proof. unfold get_gen. rewrite N.eqb_refl. reflexivity. Qed.
Lemma get_gen_block t id b : get_gen cf t id = Some (Block b) <-> id <> genesis_id cf /\ t !! id = Some b.
Proof.
  unfold get_gen. destruct (id =? genesis_id cf) eqn:E.
  - split; [discriminate|]. intros [? ?]. lia.
  - destruct (t !! id); cbn; split; intro H; [injection H as ->; split; [lia|reflexivity]|destruct H as [_ [= ->]]; reflexivity|discriminate|
      destruct H; discriminate].
Qed.
Lemma get_gen_gen t id : get_gen cf t id = Some Genesis <-> id = genesis_id cf.
Proof.
  unfold get_gen. destruct (id =? genesis_id cf) eqn:E; [split; [lia|reflexivity]|].
  destruct (t !! id); cbn; split; intro H; try discriminate; lia.
Qed.
Lemma wf_gen_id t id g : wf t -> get_gen cf t id = Some g -> gen_id cf g = id.
Proof.
  intros Hwf H. destruct g; [apply get_gen_gen in H; exact (eq_sym H)|].
  apply get_gen_block in H as [_ H]. apply Hwf in H. apply H.
Qed.
Lemma wf_height_pos t id b : wf t -> t !! id = Some b -> 0 < bi_height b.
Proof. intros Hwf H. apply Hwf in H as (_ & _ & _ & (p & _ & H & _) & _). lia. Qed.
Lemma wf_height_0 t id g : wf t -> get_gen cf t id = Some g -> gen_height g = 0 -> g = Genesis.
Proof.
  intros Hwf H H0. destruct g as [|b]; [reflexivity|]. apply get_gen_block in H as [_ H]. pose proof (wf_height_pos _ _ _ Hwf H). cbn in H0. lia.
Qed.
Lemma parent_some t id p : parent cf t id = Some p <-> exists b, get_gen cf t id = Some (Block b) /\ bi_prev b = p.
Proof.
  unfold parent, get_gen. destruct (id =? genesis_id cf); [split; [discriminate|intros (b & [=] & _)]|].
  destruct (t !! id) as [b|]; cbn; split; intro H.
  - injection H as <-. exists b. split; reflexivity.
  - destruct H as (b' & [= ->] & <-). reflexivity.
  - discriminate.
  - destruct H as (b & [=] & _).
Qed.

Lemma up_add t n m id : up cf t (n + m) id = match up cf t n id with Some a => up cf t m a | None => None end.
Proof.
  revert id. induction n as [|n IH]; intro id; [reflexivity|]. cbn. destruct (parent cf t id); [apply IH|reflexivity].
Qed.
Lemma up_height t n id g a : wf t -> get_gen cf t id = Some g -> up cf t n id = Some a ->
  exists ga, get_gen cf t a = Some ga /\ gen_height ga + N.of_nat n = gen_height g.
Proof.
  intro Hwf. revert id g. induction n as [|n IH]; intros id g Hg Hup.
  - injection Hup as ->. exists g. split; [exact Hg|lia].
  - cbn in Hup. destruct (parent cf t id) as [p|] eqn:Ep; [|discriminate].
    apply parent_some in Ep as (b & Hb & <-). rewrite Hg in Hb. injection Hb as ->.
    apply get_gen_block in Hg as [_ Hg]. apply Hwf in Hg as (_ & _ & _ & (p & Hp & Hh & _) & _).
    destruct (IH _ _ Hp Hup) as (ga & Hga & Heq). exists ga. split; [exact Hga|]. cbn. lia.
Qed.
Lemma up_ex t n id g : wf t -> get_gen cf t id = Some g -> N.of_nat n <= gen_height g -> exists a, up cf t n id = Some a.
Proof.
  intro Hwf. revert id g. induction n as [|n IH]; intros id g Hg Hn; [exists id; reflexivity|].
  destruct g as [|b]; [cbn in Hn; lia|].
  pose proof Hg as Hb. apply get_gen_block in Hb as [_ Hb]. apply Hwf in Hb as (_ & _ & _ & (p & Hp & Hh & _) & _).
  cbn. replace (parent cf t id) with (Some (bi_prev b)) by (symmetry; apply parent_some; exists b; split; [exact Hg|reflexivity]).
  apply (IH _ _ Hp). cbn in Hn. lia.
Qed.
Lemma up_genesis t id g : wf t -> get_gen cf t id = Some g -> up cf t (N.to_nat (gen_height g)) id = Some (genesis_id cf).
Proof.
  intros Hwf Hg. destruct (up_ex t (N.to_nat (gen_height g)) id g Hwf Hg) as [a Ha]; [lia|].
  destruct (up_height _ _ _ _ _ Hwf Hg Ha) as (ga & Hga & Heq).
  rewrite (wf_height_0 t a ga Hwf Hga) in Hga by lia. apply get_gen_gen in Hga as ->. exact Ha.
Qed.
Lemma ancestor_refl t a : ancestor cf t a a.
Proof. exists O. reflexivity. Qed.
Lemma ancestor_trans t a b c : ancestor cf t a b -> ancestor cf t b c -> ancestor cf t a c.
Proof. intros [n Hn] [m Hm]. exists (m + n)%nat. rewrite up_add, Hm. exact Hn. Qed.
Lemma ancestor_parent t a p id b : get_gen cf t id = Some (Block b) -> bi_prev b = p -> ancestor cf t a p -> ancestor cf t a id.
Proof.
  intros Hg Hp [n Hn]. exists (S n). cbn. replace (parent cf t id) with (Some p); [exact Hn|].
  symmetry. apply parent_some. exists b. split; assumption.
Qed.
Lemma ancestor_known t a id g : wf t -> get_gen cf t id = Some g -> ancestor cf t a id -> exists ga, get_gen cf t a = Some ga /\ gen_height ga <= gen_height g.
Proof. intros Hwf Hg [n Hn]. destruct (up_height _ _ _ _ _ Hwf Hg Hn) as (ga & Hga & Heq). exists ga. split; [exact Hga|lia]. Qed.
(** Two ancestors of one block at the same height are the same block. *)
Lemma ancestor_same_height t a b id ga gb g : wf t -> get_gen cf t id = Some g -> ancestor cf t a id -> ancestor cf t b id ->
  get_gen cf t a = Some ga -> get_gen cf t b = Some gb -> gen_height ga = gen_height gb -> a = b.
Proof.
  intros Hwf Hg [n Hn] [m Hm] Ha Hb Heq.
  destruct (up_height _ _ _ _ _ Hwf Hg Hn) as (ga' & Ha' & H1). destruct (up_height _ _ _ _ _ Hwf Hg Hm) as (gb' & Hb' & H2).
  rewrite Ha in Ha'. rewrite Hb in Hb'. injection Ha' as <-. injection Hb' as <-.
  assert (n = m) as -> by lia. rewrite Hn in Hm. injection Hm as ->. reflexivity.
Qed.
(** Of two ancestors of one block, the lower one is an ancestor of the higher one. *)
Lemma ancestor_linear t a b id ga gb g : wf t -> get_gen cf t id = Some g -> ancestor cf t a id -> ancestor cf t b id ->
  get_gen cf t a = Some ga -> get_gen cf t b = Some gb -> gen_height ga <= gen_height gb -> ancestor cf t a b.
Proof.
  intros Hwf Hg [n Hn] [m Hm] Ha Hb Hle.
  destruct (up_height _ _ _ _ _ Hwf Hg Hn) as (ga' & Ha' & H1). destruct (up_height _ _ _ _ _ Hwf Hg Hm) as (gb' & Hb' & H2).
  rewrite Ha in Ha'. rewrite Hb in Hb'. injection Ha' as <-. injection Hb' as <-.
  exists (n - m)%nat. replace n with (m + (n - m))%nat in Hn by lia. rewrite up_add, Hm in Hn. exact Hn.
Qed.

(** ** Ancestor lookup *)
Lemma ancestor_loop_spec t fuel target hw id g : wf t -> get_gen cf t id = Some g -> gen_height g = hw -> target <= hw -> (N.to_nat hw < fuel)%nat ->
  exists ga, ancestor_loop cf t fuel target hw g = Ok ga /\ get_gen cf t (gen_id cf ga) = Some ga /\ up cf t (N.to_nat (hw - target)) id = Some (gen_id cf ga).
Proof.
  intro Hwf. revert hw id g. induction fuel as [|fuel IH]; intros hw id g Hg Hh Ht Hf; [lia|]. cbn [ancestor_loop].
  replace (target <=? hw) with true by lia. destruct (hw =? target) eqn:Eeq.
  { exists g. replace (N.to_nat (hw - target)) with O by lia. rewrite (wf_gen_id t id g Hwf Hg). repeat split; assumption. }
  destruct g as [|b]; [cbn in Hh; lia|]. cbn [gen_height] in Hh.
  pose proof Hg as Hb. apply get_gen_block in Hb as [Hne Hb]. pose proof (Hwf _ _ Hb) as (Hid & _ & Hmax & (p & Hp & Hhp & _) & Hskip).
  assert (0 < hw) as Hpos by lia.
  replace (prev_height hw) with (Some (hw - 1)) by (unfold prev_height, checked_sub; destruct (1 <=? hw) eqn:?; [reflexivity|lia]).
  cbn [expect rbind]. rewrite Hh in *.
  pose proof (skip_prev_fits hw (conj Hpos Hmax)) as Hfit. pose proof (skip_lt hw Hpos) as Hlt.
  unfold next_height, checked_add.
  replace (get_skip_height (hw - 1) + 1 <=? U64_MAX) with true by (clear -Hfit; lia). cbn [expect rbind].
  replace (get_skip_height (hw - 1) + 1 + 1 <=? U64_MAX) with true by (clear -Hfit; lia). cbn [expect rbind].
  match goal with |- context [if ?c then _ else _] => destruct c eqn:Ec end.
  - assert (Hge : target <= get_skip_height hw) by (clear -Ec; lia).
    destruct (up_height _ _ _ _ _ Hwf Hg Hskip) as (ga & Hga & Heq). cbn [gen_height] in Heq. rewrite Hh in Heq.
    rewrite Hga. cbn [expect rbind].
    destruct (IH (get_skip_height hw) (bi_skip b) ga Hga ltac:(clear -Heq Hlt; lia) Hge ltac:(clear -Hlt Hf; lia)) as (gr & Hr & Hst & Hup).
    exists gr. split; [exact Hr|]. split; [exact Hst|].
    replace (N.to_nat (hw - target)) with (N.to_nat (hw - get_skip_height hw) + N.to_nat (get_skip_height hw - target))%nat by (clear -Hlt Hge; lia).
    rewrite up_add, Hskip. exact Hup.
  - rewrite Hp. cbn [ok_or rbind].
    destruct (IH (hw - 1) (bi_prev b) p Hp ltac:(lia) ltac:(clear -Eeq Ht; lia) ltac:(clear -Hf Hpos; lia)) as (gr & Hr & Hst & Hup).
    exists gr. split; [exact Hr|]. split; [exact Hst|].
    replace (N.to_nat (hw - target)) with (S (N.to_nat (hw - 1 - target)))%nat by (clear -Eeq Ht Hpos; lia).
    cbn [up]. replace (parent cf t id) with (Some (bi_prev b)) by (symmetry; apply parent_some; exists b; split; [exact Hg|reflexivity]). exact Hup.
Qed.
Lemma get_ancestor_spec t id g h : wf t -> get_gen cf t id = Some g -> h <= gen_height g ->
  exists ga, get_ancestor cf t g h = Ok ga /\ get_gen cf t (gen_id cf ga) = Some ga /\ up cf t (N.to_nat (gen_height g - h)) id = Some (gen_id cf ga).
Proof.
  intros Hwf Hg Hh. unfold get_ancestor. replace (gen_height g <? h) with false by lia.
  apply (ancestor_loop_spec t _ h (gen_height g) id g Hwf Hg eq_refl Hh). lia.
Qed.

(** ** Building trees *)
Lemma get_gen_insert_new t id b x g : t !! id = None -> id <> genesis_id cf -> get_gen cf t x = Some g -> get_gen cf (<[id := b]> t) x = Some g.
Proof.
  intros Hn Hne Hx. unfold get_gen in *. destruct (x =? genesis_id cf); [exact Hx|].
  destruct (decide (x = id)) as [->|Hd]; [rewrite Hn in Hx; discriminate|]. rewrite lookup_insert_ne by (intro; apply Hd; congruence). exact Hx.
Qed.
Lemma up_insert_new t id b n x a : t !! id = None -> id <> genesis_id cf -> is_Some (get_gen cf t x) -> wf t -> up cf t n x = Some a -> up cf (<[id := b]> t) n x = Some a.
Proof.
  intros Hn Hne Hx Hwf. revert x Hx. induction n as [|n IH]; intros x [g Hg] Hup; [exact Hup|]. cbn in *.
  destruct (parent cf t x) as [p|] eqn:Ep; [|discriminate].
  apply parent_some in Ep as (bx & Hbx & <-).
  replace (parent cf (<[id := b]> t) x) with (Some (bi_prev bx)).
  - apply IH; [|exact Hup]. apply get_gen_block in Hbx as [_ Hbx]. apply Hwf in Hbx as (_ & _ & _ & (p & Hp & _) & _). exists p. exact Hp.
  - symmetry. apply parent_some. exists bx. split; [|reflexivity]. apply get_gen_insert_new; assumption.
Qed.

(** Maps with the same blocks, up to status and persistence. *)
Definition same_tree (t t' : index_map) : Prop := forall id, match t !! id, t' !! id with
  | Some b, Some b' => same_block b b' | None, None => True | _, _ => False end.
Lemma same_tree_refl t : same_tree t t.
Proof. intro id. destruct (t !! id); [|exact I]. unfold same_block. tauto. Qed.
Lemma same_block_trans a b c : same_block a b -> same_block b c -> same_block a c.
Proof. unfold same_block. intros (H1 & H2 & H3 & H4 & H5 & H6 & H7 & H8) (K1 & K2 & K3 & K4 & K5 & K6 & K7 & K8).
  rewrite K1, K2, K3, K4, K5, K6, K7, K8. tauto. Qed.
Lemma same_tree_trans t1 t2 t3 : same_tree t1 t2 -> same_tree t2 t3 -> same_tree t1 t3.
Proof.
  intros H1 H2 id. specialize (H1 id). specialize (H2 id). destruct (t1 !! id), (t2 !! id), (t3 !! id); try tauto.
  eapply same_block_trans; eassumption.
Qed.
Lemma same_tree_insert t id b b' : t !! id = Some b -> same_block b b' -> same_tree t (<[id := b']> t).
Proof.
  intros Hb Hs x. destruct (decide (x = id)) as [->|Hd].
  - rewrite Hb, lookup_insert. exact Hs.
  - rewrite lookup_insert_ne by congruence. apply same_tree_refl.
Qed.
Lemma same_tree_parent t t' id : same_tree t t' -> parent cf t' id = parent cf t id.
Proof.
  intro H. unfold parent. destruct (id =? genesis_id cf); [reflexivity|]. specialize (H id).
  destruct (t !! id), (t' !! id); cbn; try tauto. destruct H as (_ & -> & _). reflexivity.
Qed.
Lemma same_tree_up t t' n id : same_tree t t' -> up cf t' n id = up cf t n id.
Proof.
  intro H. revert id. induction n as [|n IH]; intro id; [reflexivity|]. cbn. rewrite (same_tree_parent t t' id H).
  destruct (parent cf t id); [apply IH|reflexivity].
Qed.
Lemma same_tree_ancestor t t' a id : same_tree t t' -> ancestor cf t' a id <-> ancestor cf t a id.
Proof. intro H. split; intros [n Hn]; exists n; [rewrite <- (same_tree_up t t')|rewrite (same_tree_up t t')]; assumption. Qed.
Lemma same_tree_gen t t' id g : same_tree t t' -> get_gen cf t id = Some g ->
  exists g', get_gen cf t' id = Some g' /\ gen_height g' = gen_height g /\ gen_trust g' = gen_trust g /\ gen_time cf g' = gen_time cf g /\
             gen_time_max cf g' = gen_time_max cf g /\ gen_id cf g' = gen_id cf g.
Proof.
  intros H Hg. unfold get_gen in *. destruct (id =? genesis_id cf); [exists g; tauto|].
  specialize (H id). destruct (t !! id) as [b|]; [|discriminate]. cbn in Hg. injection Hg as <-.
  destruct (t' !! id) as [b'|]; [|tauto]. destruct H as (H1 & H2 & H3 & H4 & H5 & H6 & H7 & H8).
  exists (Block b'). cbn. tauto.
Qed.
Lemma same_tree_sym t t' : same_tree t t' -> same_tree t' t.
Proof.
  intros H id. specialize (H id). destruct (t !! id), (t' !! id); try tauto. unfold same_block in *.
  destruct H as (H1 & H2 & H3 & H4 & H5 & H6 & H7 & H8). repeat split; congruence.
Qed.
Lemma same_tree_wf t t' : same_tree t t' -> wf t -> wf t'.
Proof.
  intros H Hwf id b' Hb'. pose proof (H id) as Hid. rewrite Hb' in Hid.
  destruct (t !! id) as [b|] eqn:Hb; [|tauto]. destruct Hid as (H1 & H2 & H3 & H4 & H5 & H6 & H7 & H8).
  destruct (Hwf id b Hb) as (Ha & Hne & Hm & (p & Hp & Hh & Htr & Htm) & Hs).
  rewrite H1, H2, H3, H4, H5, H6, H7. split; [exact Ha|]. split; [exact Hne|]. split; [exact Hm|]. split.
  - destruct (same_tree_gen _ _ _ _ H Hp) as (p' & Hp' & Eh & Et & _ & Em & _). exists p'. rewrite Eh, Et, Em. repeat split; assumption.
  - rewrite (same_tree_up t t' _ _ H). exact Hs.
Qed.

Lemma create_index_spec t blk st b : wf t -> create_block_index cf t blk st = Ok b ->
  exists p, get_gen cf t (nb_prev blk) = Some p /\ bi_id b = nb_id blk /\ bi_prev b = nb_prev blk /\ bi_time b = nb_time blk /\
    bi_height b = gen_height p + 1 /\ bi_height b <= U64_MAX /\ bi_time_max b = N.max (gen_time_max cf p) (nb_time blk) /\
    (exists proof, nb_proof blk = Some proof /\ bi_trust b = gen_trust p + proof) /\ bi_txs b = gen_txs p + nb_txs blk /\
    bi_status b = st /\ bi_persisted b = false /\
    up cf t (N.to_nat (gen_height p - get_skip_height (bi_height b))) (nb_prev blk) = Some (bi_skip b).
Proof.
  intros Hwf H. unfold create_block_index in H.
  destruct (get_gen cf t (nb_prev blk)) as [p|] eqn:Hp; [|discriminate]. cbn [ok_or rbind] in H.
  unfold next_height, checked_add in H. destruct (gen_height p + 1 <=? U64_MAX) eqn:Eh; [|discriminate]. cbn [expect rbind] in H.
  assert (Hsk : get_skip_height (gen_height p + 1) <= gen_height p) by (pose proof (skip_lt (gen_height p + 1)); lia).
  destruct (get_ancestor_spec t _ p _ Hwf Hp Hsk) as (ga & Ha & Hst & Hup). rewrite Ha in H. cbn [rbind] in H.
  destruct (gen_txs p + nb_txs blk <=? U128_MAX) eqn:Etx; [|discriminate]. cbn [expect rbind] in H.
  destruct (nb_proof blk) as [proof|]; [|discriminate]. cbn [ok_or rbind] in H.
  destruct (gen_trust p + proof <=? U256_MAX) eqn:Etr; [|discriminate]. cbn [expect rbind] in H. injection H as <-.
  exists p. cbn. split; [reflexivity|]. repeat (split; [reflexivity|]). split; [lia|]. split; [reflexivity|]. split; [exists proof; split; reflexivity|].
  repeat (split; [reflexivity|]). exact Hup.
Qed.
Lemma wf_add t blk st b b' : wf t -> nb_id blk <> genesis_id cf -> t !! nb_id blk = None -> create_block_index cf t blk st = Ok b -> same_block b b' ->
  wf (<[bi_id b := b']> t).
Proof.
  intros Hwf Hne Hnew Hc (S1 & S2 & S3 & S4 & S5 & S6 & S7 & S8).
  destruct (create_index_spec t blk st b Hwf Hc) as (p & Hp & Hid & Hpr & Hti & Hh & Hm & Htm & (proof & Hpf & Htr) & _ & _ & _ & Hsk).
  assert (Hnew' : t !! bi_id b = None) by (rewrite Hid; exact Hnew). assert (Hne' : bi_id b <> genesis_id cf) by (rewrite Hid; exact Hne).
  intros id c Hcx. destruct (decide (id = bi_id b)) as [->|Hd].
  - rewrite lookup_insert in Hcx. injection Hcx as <-. rewrite S1, S2, S3, S4, S5, S6, S7.
    split; [reflexivity|]. split; [exact Hne'|]. split; [exact Hm|]. split.
    + exists p. rewrite Hpr, Hti. split; [apply get_gen_insert_new; assumption|]. split; [exact Hh|]. split; [rewrite Htr; lia|exact Htm].
    + assert (Hlt : get_skip_height (bi_height b) < bi_height b) by (apply skip_lt; lia).
      replace (N.to_nat (bi_height b - get_skip_height (bi_height b))) with (S (N.to_nat (gen_height p - get_skip_height (bi_height b)))) by lia.
      cbn [up]. unfold parent. replace (bi_id b =? genesis_id cf) with false by lia. rewrite lookup_insert. cbn. rewrite S2, Hpr.
      apply up_insert_new; try assumption. exists p. exact Hp.
  - rewrite lookup_insert_ne in Hcx by congruence. destruct (Hwf id c Hcx) as (Ha & Hne2 & Hm2 & (q & Hq & Hhq & Htrq & Htmq) & Hs).
    split; [exact Ha|]. split; [exact Hne2|]. split; [exact Hm2|]. split.
    + exists q. split; [apply get_gen_insert_new; assumption|]. repeat split; assumption.
    + apply up_insert_new; try assumption. exists (Block c). apply get_gen_block. split; [exact Hne2|exact Hcx].
Qed.

Lemma lookup_drop (t : index_map) (S : gset N) id :
  filter (fun p : N * bindex => fst p ∉ S) t !! id = (if decide (id ∈ S) then None else t !! id).
Proof.
  destruct (decide (id ∈ S)) as [Hin|Hni].
  - apply map_filter_lookup_None. right. intros x _ Hx. exact (Hx Hin).
  - destruct (t !! id) as [b|] eqn:E.
    + apply map_filter_lookup_Some. split; [exact E|exact Hni].
    + apply map_filter_lookup_None. left. exact E.
Qed.
Lemma wf_drop t (S : gset N) : wf t -> (forall id b, t !! id = Some b -> bi_prev b ∈ S -> id ∈ S) -> wf (filter (fun p : N * bindex => fst p ∉ S) t).
Proof.
  intros Hwf Hcl.
  assert (Hgen : forall id b, t !! id = Some b -> id ∉ S -> forall p, get_gen cf t (bi_prev b) = Some p ->
    get_gen cf (filter (fun p : N * bindex => fst p ∉ S) t) (bi_prev b) = Some p).
  { intros id b Hb Hni p Hp. unfold get_gen in *. destruct (bi_prev b =? genesis_id cf); [exact Hp|].
    rewrite lookup_drop. destruct (decide (bi_prev b ∈ S)) as [Hin|_]; [|exact Hp]. exfalso. apply Hni. eapply Hcl; eassumption. }
  assert (Hup : forall n id a, id ∉ S -> is_Some (get_gen cf t id) -> up cf t n id = Some a -> up cf (filter (fun p : N * bindex => fst p ∉ S) t) n id = Some a).
  { induction n as [|n IH]; intros id a Hni Hk H; [exact H|]. cbn in *.
    destruct (parent cf t id) as [p|] eqn:Ep; [|discriminate]. pose proof Ep as Ep'.
    apply parent_some in Ep as (b & Hb & <-). apply get_gen_block in Hb as [Hne Hb].
    replace (parent cf (filter (fun p : N * bindex => fst p ∉ S) t) id) with (Some (bi_prev b)).
    - apply IH; [intro Hin; apply Hni; eapply Hcl; eassumption| |exact H].
      apply Hwf in Hb as (_ & _ & _ & (p & Hp & _) & _). exists p. exact Hp.
    - symmetry. unfold parent. replace (id =? genesis_id cf) with false by lia. rewrite lookup_drop.
      destruct (decide (id ∈ S)); [tauto|]. rewrite Hb. reflexivity. }
  intros id b Hb. rewrite lookup_drop in Hb. destruct (decide (id ∈ S)) as [|Hni]; [discriminate|].
  destruct (Hwf id b Hb) as (Ha & Hne & Hm & (p & Hp & Hh & Htr & Htm) & Hs).
  split; [exact Ha|]. split; [exact Hne|]. split; [exact Hm|]. split.
  - exists p. split; [eapply Hgen; eassumption|]. repeat split; assumption.
  - apply Hup; [exact Hni| |exact Hs]. exists (Block b). apply get_gen_block. split; assumption.
Qed.
Lemma built_wf t : built cf t -> wf t.
Proof.
  induction 1 as [|t blk st b b' _ IH Hne Hn Hc Hs|t id b b' _ IH Hb Hs|t S _ IH Hcl].
  - intros id b H. rewrite lookup_empty in H. discriminate.
  - eapply wf_add; eassumption.
  - apply (same_tree_wf t); [|exact IH]. eapply same_tree_insert; eassumption.
  - apply wf_drop; assumption.
Qed.

(** ** Fork points *)
Lemma lockstep_spec t fuel id1 id2 g1 g2 : wf t -> get_gen cf t id1 = Some g1 -> get_gen cf t id2 = Some g2 -> gen_height g1 = gen_height g2 ->
  (N.to_nat (gen_height g1) < fuel)%nat ->
  exists g, lockstep cf t fuel g1 g2 = Ok g /\ get_gen cf t (gen_id cf g) = Some g /\ ancestor cf t (gen_id cf g) id1 /\ ancestor cf t (gen_id cf g) id2 /\
    forall x, ancestor cf t x id1 -> ancestor cf t x id2 -> ancestor cf t x (gen_id cf g).
Proof.
  intro Hwf. revert id1 id2 g1 g2. induction fuel as [|fuel IH]; intros id1 id2 g1 g2 H1 H2 Hh Hf; [lia|]. cbn [lockstep].
  rewrite (wf_gen_id _ _ _ Hwf H1), (wf_gen_id _ _ _ Hwf H2). destruct (id1 =? id2) eqn:E.
  { assert (id1 = id2) as <- by lia. exists g1. rewrite (wf_gen_id _ _ _ Hwf H1). split; [reflexivity|]. split; [exact H1|].
    split; [apply ancestor_refl|]. split; [apply ancestor_refl|]. intros x Hx _. exact Hx. }
  assert (Hne : id1 <> id2) by lia.
  destruct g1 as [|b1]; destruct g2 as [|b2].
  - exfalso. apply Hne. apply get_gen_gen in H1, H2. congruence.
  - exfalso. apply get_gen_block in H2 as [_ H2]. pose proof (wf_height_pos _ _ _ Hwf H2). cbn in Hh. lia.
  - exfalso. apply get_gen_block in H1 as [_ H1]. pose proof (wf_height_pos _ _ _ Hwf H1). cbn in Hh. lia.
  - pose proof H1 as K1. pose proof H2 as K2. apply get_gen_block in K1 as [_ K1]. apply get_gen_block in K2 as [_ K2].
    destruct (Hwf _ _ K1) as (_ & _ & _ & (p1 & Hp1 & Hh1 & _) & _). destruct (Hwf _ _ K2) as (_ & _ & _ & (p2 & Hp2 & Hh2 & _) & _).
    unfold get_previous. rewrite Hp1, Hp2. cbn [ok_or rbind]. cbn [gen_height] in Hh, Hf.
    destruct (IH _ _ _ _ Hp1 Hp2 ltac:(lia) ltac:(lia)) as (g & Hg & Hst & A1 & A2 & Hmax).
    exists g. split; [exact Hg|]. split; [exact Hst|]. split; [eapply ancestor_parent; [exact H1|reflexivity|exact A1]|].
    split; [eapply ancestor_parent; [exact H2|reflexivity|exact A2]|].
    intros x [n Hn] [m Hm].
    destruct (up_height _ _ _ _ _ Hwf H1 Hn) as (gx & Hgx & Ex). destruct (up_height _ _ _ _ _ Hwf H2 Hm) as (gx' & Hgx' & Ex').
    rewrite Hgx in Hgx'. injection Hgx' as <-. cbn [gen_height] in Ex, Ex'. assert (n = m) as <- by lia.
    destruct n as [|n]; [cbn in Hn, Hm; congruence|]. cbn in Hn, Hm.
    replace (parent cf t id1) with (Some (bi_prev b1)) in Hn by (symmetry; apply parent_some; exists b1; split; [exact H1|reflexivity]).
    replace (parent cf t id2) with (Some (bi_prev b2)) in Hm by (symmetry; apply parent_some; exists b2; split; [exact H2|reflexivity]).
    apply Hmax; exists n; assumption.
Qed.
Lemma lca_spec t id1 id2 g1 g2 : wf t -> get_gen cf t id1 = Some g1 -> get_gen cf t id2 = Some g2 ->
  exists g, last_common_ancestor cf t g1 g2 = Ok g /\ get_gen cf t (gen_id cf g) = Some g /\ ancestor cf t (gen_id cf g) id1 /\ ancestor cf t (gen_id cf g) id2 /\
    forall x, ancestor cf t x id1 -> ancestor cf t x id2 -> ancestor cf t x (gen_id cf g).
Proof.
  intros Hwf H1 H2. unfold last_common_ancestor.
  assert (Hdrop : forall idh idl gh gl, get_gen cf t idh = Some gh -> get_gen cf t idl = Some gl -> gen_height gl < gen_height gh ->
     exists ga, get_ancestor cf t gh (gen_height gl) = Ok ga /\ get_gen cf t (gen_id cf ga) = Some ga /\ gen_height ga = gen_height gl /\
       ancestor cf t (gen_id cf ga) idh /\ forall x, ancestor cf t x idh -> ancestor cf t x idl -> ancestor cf t x (gen_id cf ga)).
  { intros idh idl gh gl Hh Hl Hlt. destruct (get_ancestor_spec t idh gh (gen_height gl) Hwf Hh ltac:(lia)) as (ga & Ha & Hst & Hup).
    exists ga. split; [exact Ha|]. split; [exact Hst|].
    destruct (up_height _ _ _ _ _ Hwf Hh Hup) as (ga' & Hga' & Eh). rewrite Hst in Hga'. injection Hga' as <-.
    split; [lia|]. split; [exists (N.to_nat (gen_height gh - gen_height gl)); exact Hup|].
    intros x Hx1 Hx2. destruct (ancestor_known _ _ _ _ Hwf Hl Hx2) as (gx & Hgx & Hle).
    eapply (ancestor_linear t x (gen_id cf ga) idh gx ga gh); try eassumption; [exists (N.to_nat (gen_height gh - gen_height gl)); exact Hup|lia]. }
  destruct (gen_height g2 <? gen_height g1) eqn:E1.
  - destruct (Hdrop id1 id2 g1 g2 H1 H2 ltac:(lia)) as (ga & Ha & Hst & Eh & Aa & Hmax). rewrite Ha. cbn [rbind].
    replace (gen_height g1 <? gen_height g2) with false by lia. cbn [rbind].
    destruct (lockstep_spec t (S (N.to_nat (gen_height ga))) (gen_id cf ga) id2 ga g2 Hwf Hst H2 Eh ltac:(lia)) as (g & Hg & Hgs & A1 & A2 & Hm).
    exists g. split; [exact Hg|]. split; [exact Hgs|]. split; [exact (ancestor_trans t _ _ _ A1 Aa)|]. split; [exact A2|].
    intros x Hx1 Hx2. apply Hm; [apply Hmax; assumption|exact Hx2].
  - cbn [rbind]. destruct (gen_height g1 <? gen_height g2) eqn:E2.
    + destruct (Hdrop id2 id1 g2 g1 H2 H1 ltac:(lia)) as (ga & Ha & Hst & Eh & Aa & Hmax). rewrite Ha. cbn [rbind].
      destruct (lockstep_spec t (S (N.to_nat (gen_height g1))) id1 (gen_id cf ga) g1 ga Hwf H1 Hst ltac:(lia) ltac:(lia)) as (g & Hg & Hgs & A1 & A2 & Hm).
      exists g. split; [exact Hg|]. split; [exact Hgs|]. split; [exact A1|]. split; [exact (ancestor_trans t _ _ _ A2 Aa)|].
      intros x Hx1 Hx2. apply Hm; [exact Hx1|apply Hmax; assumption].
    + cbn [rbind]. apply (lockstep_spec t _ id1 id2 g1 g2 Hwf H1 H2); lia.
Qed.
End tree.
