(** Dependencies, the graph of parents and totals over it. *)
From stdpp Require Import relations sorting.
From Verif Require Import Base AmountModel DeltaModel LayeredModel TokensModel OrdersModel PosModel PrimModel ChainModel MempoolModel MempoolSpec.
From Coq Require Import Lia.
Local Open Scope N_scope.

(** ** Dependencies *)
Lemma elem_concat_map {A B} (f : A -> list B) (l : list A) y : y ∈ concat (map f l) <-> exists x, x ∈ l /\ y ∈ f x.
Proof.
  induction l as [|a l IH]; cbn.
  - split; [intros H; inversion H|intros (x & H & _); inversion H].
  - rewrite elem_of_app, IH. split.
    + intros [H|(x & H & H')]; [exists a|exists x]; split; auto; [left|right; exact H].
    + intros (x & H & H'). apply elem_of_cons in H as [->|H]; [left; exact H'|right; eauto].
Qed.
Lemma uses_up_spec tx c : c ∈ consumed_deps tx <-> uses_up tx c.
Proof.
  unfold consumed_deps, required_deps. rewrite elem_of_list_omap. setoid_rewrite elem_of_app. split.
  - intros (r & [H|H] & E); apply elem_concat_map in H as (x & Hx & H).
    + destruct x as [[[t|b] i]|n d a|n cmd|oc]; cbn in H.
      * apply elem_of_list_singleton in H as ->. injection E as <-. by constructor.
      * inversion H.
      * apply elem_of_cons in H as [->|H].
        -- injection E as <-. by econstructor.
        -- destruct (n =? 0); [apply elem_of_list_singleton in H as ->; discriminate|inversion H].
      * destruct (command_token cmd) as [t|] eqn:Et; [|inversion H].
        apply elem_of_cons in H as [->|H].
        -- injection E as <-. by econstructor.
        -- destruct (n =? 0); [apply elem_of_list_singleton in H as ->; discriminate|inversion H].
      * apply elem_of_list_singleton in H as ->. discriminate.
    + destruct x; cbn in H; try (inversion H; fail); apply elem_of_list_singleton in H as ->; discriminate.
  - intros H. destruct H as [t i H|n d a H|n cmd t H Et].
    + exists (RqOutput t i). split; [|reflexivity]. left. apply elem_concat_map. eexists. split; [exact H|]. cbn. left.
    + exists (RqDelegationSpending d n). split; [|reflexivity]. left. apply elem_concat_map. eexists. split; [exact H|]. cbn. left.
    + exists (RqTokenManagement t n). split; [|reflexivity]. left. apply elem_concat_map. eexists. split; [exact H|]. cbn. rewrite Et. left.
Qed.
Lemma asks_for_spec tx d : (exists r, r ∈ required_deps tx /\ from_requirement r = Some d) <-> asks_for tx d.
Proof.
  unfold required_deps. setoid_rewrite elem_of_app. split.
  - intros (r & [H|H] & E); apply elem_concat_map in H as (x & Hx & H).
    + destruct x as [[[t|b] i]|n d0 a|n cmd|oc]; cbn in H.
      * apply elem_of_list_singleton in H as ->. discriminate.
      * inversion H.
      * apply elem_of_cons in H as [->|H].
        -- injection E as <-. by econstructor.
        -- destruct (N.eqb_spec n 0) as [->|]; [|inversion H].
           apply elem_of_list_singleton in H as ->. injection E as <-. by eapply asks_delegation_to_spend.
      * destruct (command_token cmd) as [t|] eqn:Et; [|inversion H].
        apply elem_of_cons in H as [->|H].
        -- injection E as <-. by econstructor.
        -- destruct (N.eqb_spec n 0) as [->|]; [|inversion H].
           apply elem_of_list_singleton in H as ->. injection E as <-. by eapply asks_token.
      * apply elem_of_list_singleton in H as ->. injection E as <-. by constructor.
    + destruct x; cbn in H; try (inversion H; fail); apply elem_of_list_singleton in H as ->; injection E as <-.
      * by eapply asks_pool.
      * by eapply asks_delegation_to_stake.
  - intros H. destruct H as [d p H|a d H|a d H|n d a H|c t H Et|n c t H Et|c H].
    + exists (RqPool p). split; [|reflexivity]. right. apply elem_concat_map. eexists. split; [exact H|left].
    + exists (RqDelegation d). split; [|reflexivity]. right. apply elem_concat_map. eexists. split; [exact H|left].
    + exists (RqDelegation d). split; [|reflexivity]. left. apply elem_concat_map. eexists. split; [exact H|right; left].
    + exists (RqDelegationSpending d n). split; [|reflexivity]. left. apply elem_concat_map. eexists. split; [exact H|left].
    + exists (RqToken t). split; [|reflexivity]. left. apply elem_concat_map. eexists. split; [exact H|]. cbn. rewrite Et. right; left.
    + exists (RqTokenManagement t n). split; [|reflexivity]. left. apply elem_concat_map. eexists. split; [exact H|]. cbn. rewrite Et. left.
    + exists (RqOrder (command_order c)). split; [|reflexivity]. left. apply elem_concat_map. eexists. split; [exact H|left].
Qed.
Lemma next_nonce_spec n k : next_nonce n = Some k <-> n < U64_MAX /\ k = n + 1.
Proof.
  unfold next_nonce, checked_add. destruct (N.leb_spec (n + 1) U64_MAX) as [H|H].
  - split; [intros [= <-]; lia|intros [_ ->]; reflexivity].
  - split; [discriminate|lia].
Qed.
Lemma creates_spec mk tx d : d ∈ provided_deps mk tx <-> creates mk tx d.
Proof.
  unfold provided_deps. rewrite elem_of_app. split.
  - intros [H|H]; apply elem_concat_map in H as (x & Hx & H).
    + destruct x as [k|n d0 a|n cmd|oc]; cbn in H; try (inversion H; fail).
      * destruct (next_nonce n) as [n'|] eqn:En; [|inversion H]. apply elem_of_list_singleton in H as ->.
        apply next_nonce_spec in En as [? ->]. by econstructor.
      * destruct (next_nonce n) as [n'|] eqn:En; [|inversion H]. apply next_nonce_spec in En as [? ->].
        destruct (command_token cmd) as [t|] eqn:Et; [|inversion H]. apply elem_of_list_singleton in H as ->. by econstructor.
    + destruct x; cbn in H; try (inversion H; fail); try (destruct (first_spent (tx_inputs tx)) as [k|] eqn:Ek; [|inversion H]);
        apply elem_of_list_singleton in H as ->; by econstructor.
  - intros H. destruct H as [p x H|d p k H Ek|n d a H Hn|i k H Ek|n c t H Et Hn|x k H Ek];
      [right|right|left|right|left|right]; apply elem_concat_map; eexists; (split; [exact H|]); cbn.
    + left.
    + rewrite Ek. left.
    + rewrite (proj2 (next_nonce_spec n (n + 1)) (conj Hn eq_refl)). left.
    + rewrite Ek. left.
    + rewrite (proj2 (next_nonce_spec n (n + 1)) (conj Hn eq_refl)), Et. left.
    + rewrite Ek. left.
Qed.

(** ** Pairs of a list in order *)
Lemma sublist_in {A} (l l' : list A) : l `sublist_of` l' -> forall x, x ∈ l -> x ∈ l'.
Proof. intros H x Hx. eapply elem_of_submseteq; [exact Hx|]. by apply sublist_submseteq. Qed.
Lemma sublist_nodup {A} (l l' : list A) : l `sublist_of` l' -> NoDup l' -> NoDup l.
Proof.
  induction 1 as [|x l l' H IH|x l l' H IH]; intros HN; [exact HN| |].
  - apply NoDup_cons in HN as [Hx HN]. apply NoDup_cons. split; [|by apply IH]. intros H'. apply Hx. by apply (sublist_in _ _ H).
  - apply NoDup_cons in HN as [_ HN]. by apply IH.
Qed.
Lemma sublist_map {A B} (f : A -> B) (l l' : list A) : l `sublist_of` l' -> map f l `sublist_of` map f l'.
Proof. induction 1; cbn; constructor; assumption. Qed.
Lemma pair_sublist_app {A} (a b : A) l x : [a; b] `sublist_of` l ++ [x] <-> [a; b] `sublist_of` l \/ (b = x /\ a ∈ l).
Proof.
  split.
  - intros H. apply sublist_app_r in H as (k1 & k2 & E & H1 & H2).
    destruct k1 as [|u k1]; cbn in E; subst.
    + apply sublist_length in H2. cbn in H2. lia.
    + injection E as <- E. destruct k1 as [|v k1]; cbn in E; subst.
      * right. apply sublist_cons_r in H2 as [H2|(l' & [= -> <-] & H2)]; [apply sublist_nil_r in H2; discriminate|].
        split; [reflexivity|]. apply (sublist_in _ _ H1). left.
      * injection E as <- E. destruct k1; [|discriminate]. left. exact H1.
  - intros [H|[-> H]].
    + by apply sublist_inserts_r.
    + apply (sublist_app [a] l [x] [x]); [|reflexivity]. apply elem_of_list_split in H as (u & v & ->).
      apply sublist_inserts_l, sublist_skip, sublist_nil_l.
Qed.
Lemma pair_sublist_elem {A} (a b : A) l : [a; b] `sublist_of` l -> a ∈ l /\ b ∈ l.
Proof. intros H. split; apply (sublist_in _ _ H); [left|right; left]. Qed.
Lemma elem_sublist {A} (a : A) l : a ∈ l -> [a] `sublist_of` l.
Proof. intros H. apply elem_of_list_split in H as (u & v & ->). apply sublist_inserts_l, sublist_skip, sublist_nil_l. Qed.
Lemma pair_sublist_restrict {A} (a b : A) l l' :
  NoDup l -> l' `sublist_of` l -> [a; b] `sublist_of` l -> a ∈ l' -> b ∈ l' -> [a; b] `sublist_of` l'.
Proof.
  intros HN H. revert HN. induction H as [|x l' l H IH|x l' l H IH]; intros HN Hs Ha Hb.
  - inversion Ha.
  - apply NoDup_cons in HN as [Hx HN].
    apply sublist_cons_r in Hs as [Hs|(k & [= -> <-] & Hs)].
    + destruct (pair_sublist_elem _ _ _ Hs) as [Ia Ib].
      apply elem_of_cons in Ha as [->|Ha]; [contradiction|]. apply elem_of_cons in Hb as [->|Hb]; [contradiction|].
      apply sublist_cons. by apply IH.
    + apply sublist_skip. apply elem_sublist.
      apply elem_of_cons in Hb as [->|Hb]; [|exact Hb]. exfalso. apply Hx. apply (sublist_in _ _ Hs). left.
  - apply NoDup_cons in HN as [Hx HN].
    apply sublist_cons_r in Hs as [Hs|(k & [= -> <-] & Hs)].
    + by apply IH.
    + exfalso. apply Hx. by apply (sublist_in _ _ H).
Qed.

(** ** A leaf of a graph *)
Section leaf.
Context (G G0 : N -> N -> Prop) (e : N).
Hypothesis H0 : forall p c, G0 p c <-> G p c /\ c <> e.
Hypothesis Hleaf : forall c, ~ G e c.
Lemma leaf_no_child y : ~ tc G e y.
Proof. intros H. inversion H; subst; eapply Hleaf; eassumption. Qed.
Lemma leaf_tc x y : y <> e -> tc G x y <-> tc G0 x y.
Proof using H0 Hleaf.
  intros Hy. split.
  - intros H. induction H as [x y H|x z y H H' IH].
    + apply tc_once. by apply H0.
    + eapply tc_l; [|by apply IH]. apply H0. split; [exact H|]. intros ->. by apply leaf_no_child in H'.
  - intros H. induction H as [x y H|x z y H H' IH].
    + apply tc_once. by apply H0 in H as [].
    + eapply tc_l; [|by apply IH]. by apply H0 in H as [].
Qed.
Lemma leaf_tc_e x : tc G x e <-> exists p, G p e /\ (x = p \/ tc G0 x p).
Proof using H0 Hleaf.
  split.
  - intros H. remember e as y eqn:Ey in H. induction H as [x y H|x z y H H' IH]; subst y.
    + exists x. auto.
    + destruct (IH eq_refl) as (p & Hp & Hz). exists p. split; [exact Hp|]. right.
      assert (Hze : z <> e) by (intros ->; by apply leaf_no_child in H').
      destruct Hz as [->|Hz]; [apply tc_once|eapply tc_l; [|exact Hz]]; by apply H0.
  - intros (p & Hp & [->|Hx]).
    + by apply tc_once.
    + eapply tc_r; [|exact Hp]. apply leaf_tc; [|exact Hx]. intros ->. by apply (Hleaf e).
Qed.
Lemma leaf_rel x y : x <> e -> y <> e -> (G x y \/ G y x) <-> (G0 x y \/ G0 y x).
Proof using H0. intros Hx Hy. rewrite !H0. tauto. Qed.
Lemma leaf_rtc_in x y : rtc (fun a b => G0 a b \/ G0 b a) x y -> rtc (fun a b => G a b \/ G b a) x y.
Proof using H0.
  intros H. induction H as [|x z y H H' IH]; [reflexivity|]. eapply rtc_l; [|exact IH]. cbn in *. rewrite !H0 in H. tauto.
Qed.
Lemma leaf_cluster y :
  rtc (fun a b => G a b \/ G b a) e y <-> y = e \/ exists p, G p e /\ rtc (fun a b => G0 a b \/ G0 b a) p y.
Proof using H0 Hleaf.
  split.
  - revert y. apply (rtc_ind_r (fun y => y = e \/ exists p, G p e /\ rtc (fun a b => G0 a b \/ G0 b a) p y)); [by left|].
    intros z y H H' IH. destruct (decide (y = e)) as [->|Hy]; [by left|]. right.
    destruct IH as [->|(p & Hp & Hz)].
    + exists y. split; [|reflexivity]. destruct H' as [H'|H']; [by apply Hleaf in H'|exact H'].
    + destruct (decide (z = e)) as [->|Hz'].
      * exists y. split; [|reflexivity]. destruct H' as [H'|H']; [by apply Hleaf in H'|exact H'].
      * exists p. split; [exact Hp|]. eapply rtc_r; [exact Hz|]. by apply leaf_rel.
  - intros [->|(p & Hp & H)]; [reflexivity|]. eapply rtc_l; [right; exact Hp|]. by apply leaf_rtc_in.
Qed.
Lemma leaf_cluster_other x y : x <> e -> ~ rtc (fun a b => G a b \/ G b a) x e ->
  rtc (fun a b => G a b \/ G b a) x y <-> rtc (fun a b => G0 a b \/ G0 b a) x y.
Proof using H0.
  intros Hx Hn. split; [|apply leaf_rtc_in].
  revert y. apply (rtc_ind_r (fun y => rtc (fun a b => G0 a b \/ G0 b a) x y)); [reflexivity|]. intros z y H H' IH.
  eapply rtc_r; [exact IH|]. apply leaf_rel; [| |exact H'].
  - intros ->. contradiction.
  - intros ->. apply Hn. eapply rtc_r; eassumption.
Qed.
End leaf.

(** ** Totals *)
Lemma sum_of_cons f e l : sum_of f (e :: l) = f e + sum_of f l.
Proof. reflexivity. Qed.
Lemma sum_of_perm f (l l' : list tx_entry) : l ≡ₚ l' -> sum_of f l = sum_of f l'.
Proof. induction 1; rewrite ?sum_of_cons; lia. Qed.
Lemma sum_of_app f l l' : sum_of f (l ++ l') = sum_of f l + sum_of f l'.
Proof. induction l as [|a l IH]; [reflexivity|]. rewrite <- app_comm_cons, !sum_of_cons. lia. Qed.
Lemma sum_of_elem f l e : e ∈ l -> f e <= sum_of f l.
Proof. induction 1; rewrite ?sum_of_cons; lia. Qed.
Lemma sum_of_incl f (l l' : list tx_entry) : NoDup l -> (forall x, x ∈ l -> x ∈ l') -> sum_of f l <= sum_of f l'.
Proof.
  revert l'. induction l as [|a l IH]; intros l' HN H; [cbn; lia|]. rewrite sum_of_cons.
  apply NoDup_cons in HN as [Ha HN].
  destruct (elem_of_Permutation l' a) as [Hp _]. destruct Hp as [k Hk]; [apply H; left|].
  rewrite (sum_of_perm f _ _ Hk), sum_of_cons. enough (sum_of f l <= sum_of f k) by lia.
  apply IH; [exact HN|]. intros x Hx. assert (Hx' : x ∈ l') by (apply H; by right). rewrite Hk in Hx'.
  apply elem_of_cons in Hx' as [->|]; [contradiction|assumption].
Qed.
Lemma totals_unique l P c f b c' f' b' : totals l P c f b -> totals l P c' f' b' -> c = c' /\ f = f' /\ b = b'.
Proof.
  intros (ds & Hn & H & -> & -> & ->) (ds' & Hn' & H' & -> & -> & ->).
  assert (E : ds ≡ₚ ds') by (apply NoDup_Permutation; auto; intros x; rewrite H, H'; reflexivity).
  split; [by rewrite E|]. split; by apply sum_of_perm.
Qed.
Lemma totals_ext l l' (P Q : N -> Prop) c f b :
  (forall x, x ∈ l /\ P (te_id x) <-> x ∈ l' /\ Q (te_id x)) -> totals l P c f b -> totals l' Q c f b.
Proof. intros E (ds & Hn & H & E'). exists ds. split; [exact Hn|]. split; [|exact E']. intros x. rewrite H. apply E. Qed.
Lemma totals_bound l P c f b : totals l P c f b -> f <= sum_of te_fee l /\ b <= sum_of te_size l /\ c <= N.of_nat (length l).
Proof.
  intros (ds & Hn & H & -> & -> & ->).
  split; [apply sum_of_incl; [exact Hn|intros x Hx; by apply H in Hx as []]|].
  split; [apply sum_of_incl; [exact Hn|intros x Hx; by apply H in Hx as []]|].
  enough (length ds <= length l)%nat by lia.
  apply submseteq_length, NoDup_submseteq; [exact Hn|]. intros x Hx. by apply H in Hx as [].
Qed.
Lemma totals_pos l (P : N -> Prop) c f b x : (forall e, e ∈ l -> 0 < te_size e) -> x ∈ l -> P (te_id x) -> totals l P c f b -> 0 < c /\ te_size x <= b /\ te_fee x <= f.
Proof.
  intros Hs Hx HP (ds & Hn & H & -> & -> & ->). assert (Hd : x ∈ ds) by (by apply H).
  split; [|split; by apply sum_of_elem]. destruct ds; [inversion Hd|cbn; lia].
Qed.

Lemma fits_totals mk cfg l x c f b : totals l (same_cluster mk l x) c f b ->
  cluster_fits mk cfg l x <-> c <= pc_max_count cfg /\ b <= pc_max_bytes cfg.
Proof.
  intros (ds & Hn & Hd & -> & -> & ->). split.
  - intros H. apply H; [exact Hn|]. intros y Hy. by apply Hd.
  - intros [Hc Hb] ds' Hn' Hd'. assert (Hsub : forall y, y ∈ ds' -> y ∈ ds) by (intros y Hy; by apply Hd, Hd').
    pose proof (sum_of_incl te_size ds' ds Hn' Hsub). assert (length ds' <= length ds)%nat by (by apply submseteq_length, NoDup_submseteq). lia.
Qed.

(** [l] is [l0] with [e] added somewhere *)
Record extends (l0 : list tx_entry) (e : tx_entry) (l : list tx_entry) : Prop := {
  ex_sub : l0 `sublist_of` l;
  ex_nodup : NoDup (ids l);
  ex_elem : forall x, x ∈ l <-> x ∈ l0 \/ x = e;
  ex_new : te_id e ∉ ids l0;
}.
Lemma ids_elem l x : x ∈ ids l <-> exists e, e ∈ l /\ te_id e = x.
Proof. unfold ids. rewrite elem_of_list_fmap. split; intros (e & H & H'); exists e; auto. Qed.
Lemma ids_nodup l : NoDup (ids l) -> NoDup l.
Proof. apply NoDup_fmap_1. Qed.
Lemma ids_inj l e e' : NoDup (ids l) -> e ∈ l -> e' ∈ l -> te_id e = te_id e' -> e = e'.
Proof.
  intros HN H H' E. induction l as [|a l IH]; [inversion H|]. cbn in HN. apply NoDup_cons in HN as [Ha HN].
  apply elem_of_cons in H as [->|H]; apply elem_of_cons in H' as [->|H']; auto.
  - exfalso. apply Ha. apply ids_elem. eauto.
  - exfalso. apply Ha. apply ids_elem. eauto.
Qed.
Lemma extends_app l e : NoDup (ids l) -> te_id e ∉ ids l -> extends l e (l ++ [e]).
Proof.
  intros HN Hn. split; [by apply sublist_inserts_r| | |exact Hn].
  - unfold ids. rewrite map_app. apply NoDup_app. split; [exact HN|]. split; [|apply NoDup_singleton].
    intros x Hx Hx'. cbn in Hx'. apply elem_of_list_singleton in Hx' as ->. contradiction.
  - intros x. rewrite elem_of_app, elem_of_list_singleton. reflexivity.
Qed.
Lemma extends_remove l1 e l2 : NoDup (ids (l1 ++ e :: l2)) -> extends (l1 ++ l2) e (l1 ++ e :: l2).
Proof.
  intros HN. split; [apply sublist_app; [reflexivity|by apply sublist_cons]|exact HN| |].
  - intros x. rewrite !elem_of_app, elem_of_cons. tauto.
  - unfold ids in *. rewrite map_app in *. cbn in HN. apply NoDup_app in HN as (H1 & H2 & H3).
    apply NoDup_cons in H3 as [H3 _]. rewrite elem_of_app. intros [H|H]; [|contradiction].
    apply (H2 _ H). left.
Qed.
Section extends.
Context (mk : id_makers) (l0 : list tx_entry) (e : tx_entry) (l : list tx_entry).
Hypothesis HE : extends l0 e l.
Lemma ext_elem0 x : x ∈ l0 <-> x ∈ l /\ te_id x <> te_id e.
Proof using HE.
  rewrite (ex_elem _ _ _ HE). split.
  - intros H. split; [by left|]. intros E. apply (ex_new _ _ _ HE). rewrite <- E. apply ids_elem. eauto.
  - intros [[H| ->] Hn]; [exact H|contradiction].
Qed.
Lemma ext_ids x : x ∈ ids l <-> x ∈ ids l0 \/ x = te_id e.
Proof using HE.
  rewrite !ids_elem. setoid_rewrite (ex_elem _ _ _ HE). split.
  - intros (y & [H| ->] & <-); eauto.
  - intros [(y & H & <-)| ->]; eauto.
Qed.
Lemma ext_nodup0 : NoDup (ids l0).
Proof using HE. eapply sublist_nodup; [apply sublist_map; exact (ex_sub _ _ _ HE)|exact (ex_nodup _ _ _ HE)]. Qed.
Lemma ext_perm : l ≡ₚ e :: l0.
Proof using HE.
  apply NoDup_Permutation.
  - apply ids_nodup. exact (ex_nodup _ _ _ HE).
  - apply NoDup_cons. split; [|apply ids_nodup, ext_nodup0]. intros H. apply (ex_new _ _ _ HE). apply ids_elem. eauto.
  - intros x. rewrite (ex_elem _ _ _ HE), elem_of_cons. tauto.
Qed.
Lemma ext_sum f : sum_of f l = f e + sum_of f l0.
Proof using HE. rewrite (sum_of_perm f _ _ ext_perm). reflexivity. Qed.
Lemma ext_parent : (forall c, ~ parent mk l (te_id e) c) ->
  forall p c, parent mk l0 p c <-> parent mk l p c /\ c <> te_id e.
Proof using HE.
  intros Hleaf p c. split.
  - intros (ep & ec & Hs & <- & <- & Hb). split.
    + exists ep, ec. split; [etrans; [exact Hs|exact (ex_sub _ _ _ HE)]|auto].
    + apply pair_sublist_elem in Hs as [_ Hs]. by apply ext_elem0.
  - intros [H Hc]. assert (Hp : p <> te_id e) by (intros ->; by apply Hleaf in H).
    destruct H as (ep & ec & Hs & <- & <- & Hb). exists ep, ec. split; [|auto].
    destruct (pair_sublist_elem _ _ _ Hs) as [Ha Hb'].
    eapply pair_sublist_restrict; [| |exact Hs| |].
    + apply ids_nodup. exact (ex_nodup _ _ _ HE).
    + exact (ex_sub _ _ _ HE).
    + by apply ext_elem0.
    + by apply ext_elem0.
Qed.
(** gaining and losing [e] *)
Lemma totals_gain (P0 P : N -> Prop) c f b :
  (forall x, x <> te_id e -> P x <-> P0 x) -> P (te_id e) -> totals l0 P0 c f b -> totals l P (c + 1) (f + te_fee e) (b + te_size e).
Proof using HE.
  intros HP He (ds & Hn & H & -> & -> & ->). exists (e :: ds). split; [|split; [|split; [|split]]].
  - apply NoDup_cons. split; [|exact Hn]. intros Hd. apply H in Hd as [Hd _]. apply ext_elem0 in Hd as [_ Hd]. congruence.
  - intros x. rewrite elem_of_cons, H, ext_elem0. split.
    + intros [->|[[Hx Hne] HPx]]; [split; [apply (ex_elem _ _ _ HE); by right|exact He]|split; [exact Hx|by apply HP]].
    + intros [Hx HPx]. destruct (decide (te_id x = te_id e)) as [E|E].
      * left. eapply ids_inj; [exact (ex_nodup _ _ _ HE)|exact Hx|apply (ex_elem _ _ _ HE); by right|exact E].
      * right. split; [auto|]. by apply HP.
  - cbn. lia.
  - rewrite sum_of_cons. lia.
  - rewrite sum_of_cons. lia.
Qed.
Lemma totals_keep (P0 P : N -> Prop) c f b :
  (forall x, x <> te_id e -> P x <-> P0 x) -> ~ P (te_id e) -> totals l0 P0 c f b <-> totals l P c f b.
Proof using HE.
  intros HP He. assert (E : forall x, x ∈ l0 /\ P0 (te_id x) <-> x ∈ l /\ P (te_id x)).
  { intros x. rewrite ext_elem0. split.
    - intros [[Hx Hn] H]. split; [exact Hx|by apply HP].
    - intros [Hx H]. assert (Hn : te_id x <> te_id e) by (intros E; apply He; by rewrite <- E). split; [auto|by apply HP]. }
  split; apply totals_ext; [exact E|intros x; symmetry; apply E].
Qed.
Lemma totals_lose (P0 P : N -> Prop) c f b :
  (forall x, x <> te_id e -> P x <-> P0 x) -> P (te_id e) -> totals l P c f b ->
  exists c0 f0 b0, totals l0 P0 c0 f0 b0 /\ c = c0 + 1 /\ f = f0 + te_fee e /\ b = b0 + te_size e.
Proof using HE.
  intros HP He (ds & Hn & H & -> & -> & ->).
  assert (Hd : e ∈ ds) by (apply H; split; [apply (ex_elem _ _ _ HE); by right|exact He]).
  apply elem_of_Permutation in Hd as [k Hk].
  assert (Hn' : NoDup (e :: k)) by (by rewrite <- Hk). apply NoDup_cons in Hn' as [Hek Hnk].
  exists (N.of_nat (length k)), (sum_of te_fee k), (sum_of te_size k). split.
  - exists k. split; [exact Hnk|]. split; [|auto]. intros x. rewrite ext_elem0. split.
    + intros Hx. assert (Hx' : x ∈ ds) by (rewrite Hk; by right). apply H in Hx' as [Hx' HPx].
      assert (Hne : te_id x <> te_id e).
      { intros E. apply Hek. replace e with x; [exact Hx|]. eapply ids_inj; [exact (ex_nodup _ _ _ HE)|exact Hx'|apply (ex_elem _ _ _ HE); by right|exact E]. }
      split; [auto|]. by apply HP.
    + intros [[Hx Hne] HPx]. assert (Hx' : x ∈ ds) by (apply H; split; [exact Hx|by apply HP]).
      rewrite Hk in Hx'. apply elem_of_cons in Hx' as [->|]; [contradiction|assumption].
  - rewrite (Permutation_length Hk), (sum_of_perm te_fee _ _ Hk), (sum_of_perm te_size _ _ Hk), !sum_of_cons. cbn [length]. lia.
Qed.
End extends.

(** ** Parents in a pool that grows *)
Section parents.
Context (mk : id_makers).
Notation parent := (parent mk).
Notation ancestor := (ancestor mk).
Lemma parent_in l p c : parent l p c -> p ∈ ids l /\ c ∈ ids l.
Proof. intros (ep & ec & H & <- & <- & _). apply pair_sublist_elem in H as [H H']. split; apply ids_elem; eauto. Qed.
Lemma ancestor_in l p c : ancestor l p c -> p ∈ ids l /\ c ∈ ids l.
Proof.
  intros H. induction H as [x y H|x z y H H' IH]; [by apply parent_in in H|]. split; [by apply parent_in in H as []|by destruct IH].
Qed.
Lemma parent_app l e p c : parent (l ++ [e]) p c <->
  parent l p c \/ (c = te_id e /\ exists ep, ep ∈ l /\ te_id ep = p /\ builds_on mk (te_tx e) (te_tx ep)).
Proof.
  split.
  - intros (ep & ec & H & <- & <- & Hb). apply pair_sublist_app in H as [H|[-> H]].
    + left. exists ep, ec. auto.
    + right. split; [reflexivity|]. eauto.
  - intros [(ep & ec & H & H')|(-> & ep & H & <- & Hb)].
    + exists ep, ec. split; [|exact H']. apply pair_sublist_app. auto.
    + exists ep, e. split; [apply pair_sublist_app; auto|auto].
Qed.
Lemma new_leaf l e : te_id e ∉ ids l -> forall c, ~ parent (l ++ [e]) (te_id e) c.
Proof.
  intros Hn c H. apply parent_app in H as [H|(-> & ep & H & E & _)].
  - apply parent_in in H as []. contradiction.
  - apply Hn. rewrite <- E. apply ids_elem. eauto.
Qed.
Lemma ancestor_irrefl l x : NoDup (ids l) -> ~ ancestor l x x.
Proof.
  induction l as [|e l IH] using rev_ind; intros HN H.
  - apply ancestor_in in H as [H _]. inversion H.
  - assert (Hx : NoDup (ids l) /\ te_id e ∉ ids l).
    { unfold ids in *. rewrite map_app in HN. apply NoDup_app in HN as (H1 & H2 & _). split; [exact H1|].
      intros H'. apply (H2 _ H'). left. }
    destruct Hx as [HN' Hn]. pose proof (extends_app l e HN' Hn) as HE.
    pose proof (new_leaf l e Hn) as Hleaf. pose proof (ext_parent mk l e _ HE Hleaf) as H0.
    destruct (decide (x = te_id e)) as [->|Hx].
    + by apply (leaf_no_child (parent (l ++ [e])) (te_id e) Hleaf) in H.
    + apply (IH HN'). by apply (leaf_tc _ _ _ H0 Hleaf) in H.
Qed.
End parents.
