(** Order accounting refines its specification. *)
From Verif Require Import Base BaseProofs AmountModel DeltaModel DeltaProofs DeltaDbModel LayerProofs
  LayeredModel LayeredSpec LayeredProofs OrdersModel OrdersSpec.
Local Open Scope Z_scope.

Definition ord_good (s : ord_state) : Prop := bounded (os_ask s) /\ bounded (os_give s) /\ sound_book s.

(** A delta read over a parent as three tables, soundness of the book left aside. *)
Definition inv0 (p : ord_state) (d : ord_delta) (D : N -> option order_data) (A G : N -> N) : Prop :=
  dreads (os_data p) (ordd_data d) D /\
  (amounts_wf (ordd_ask d) /\ areads (os_ask p) (ordd_ask d) A /\ bounded (os_ask p) /\ bounded A) /\
  (amounts_wf (ordd_give d) /\ areads (os_give p) (ordd_give d) G /\ bounded (os_give p) /\ bounded G).
Definition ord_inv (p : ord_state) (d : ord_delta) (s : ord_state) : Prop :=
  inv0 p d (os_data s) (os_ask s) (os_give s) /\ sound_book s.

Lemma inv0_ext p d D A G D' A' G' :
  inv0 p d D A G -> (forall k, D k = D' k) -> (forall k, A k = A' k) -> (forall k, G k = G' k) -> inv0 p d D' A' G'.
Proof.
  intros (H1 & (H2 & H3 & H4 & H5) & (H6 & H7 & H8 & H9)) E1 E2 E3.
  split; [|split; (split; [assumption|split; [|split; [assumption|]]])].
  - intros k. rewrite <- E1. apply H1.
  - intros k. rewrite <- E2. apply H3.
  - intros k. rewrite <- E2. apply H5.
  - intros k. rewrite <- E3. apply H7.
  - intros k. rewrite <- E3. apply H9.
Qed.

Lemma inv0_data p d D A G id old new :
  inv0 p d D A G -> D id = old ->
  exists d', ord_merge_data d id (DataDelta old new) = (d', Ok (DataDelta new old)) /\ inv0 p d' (fupd D id new) A G.
Proof.
  intros (H1 & H2 & H3) Ho. destruct (dreads_set _ _ _ _ _ new H1 Ho) as (m' & Hm & Hr).
  unfold ord_merge_data. rewrite Hm. cbn. eexists. split; [reflexivity|]. exact (conj Hr (conj H2 H3)).
Qed.

Lemma inv0_undo_data p d D A G id old new :
  inv0 p d D A G -> D id = old ->
  exists d', ord_undo_merge_data d id (DataDelta old new) = (d', Ok tt) /\ inv0 p d' (fupd D id new) A G.
Proof.
  intros Hi Ho. destruct (inv0_data _ _ _ _ _ _ _ new Hi Ho) as (d' & Hm & Hr). exists d'. split; [|exact Hr].
  unfold ord_merge_data in Hm. unfold ord_undo_merge_data, undo_merge_delta_data_element.
  destruct (merge_delta_data_element (ordd_data d) id (DataDelta old new)) as [m [x| |]]; cbn in *; congruence.
Qed.

Lemma inv0_add_ask p d D A G id a :
  inv0 p d D A G -> Z.of_N (A id + a) <= I128_MAX ->
  exists d', ord_add_ask d id a = (d', Ok tt) /\ inv0 p d' D (fupd A id (A id + a)%N) G.
Proof.
  intros (H1 & (Hwf & Hr & Hp & Hs) & H3) Hle. destruct (areads_add _ _ _ id a Hwf Hp Hs Hr Hle) as (m' & Hm & W & R & B).
  unfold ord_add_ask. rewrite Hm. cbn. eexists. split; [reflexivity|].
  exact (conj H1 (conj (conj W (conj R (conj Hp B))) H3)).
Qed.
Lemma inv0_sub_ask p d D A G id a :
  inv0 p d D A G -> (a <= A id)%N ->
  exists d', ord_sub_ask d id a = (d', Ok tt) /\ inv0 p d' D (fupd A id (A id - a)%N) G.
Proof.
  intros (H1 & (Hwf & Hr & Hp & Hs) & H3) Hle. destruct (areads_sub _ _ _ id a Hwf Hp Hs Hr Hle) as (m' & Hm & W & R & B).
  unfold ord_sub_ask. rewrite Hm. cbn. eexists. split; [reflexivity|].
  exact (conj H1 (conj (conj W (conj R (conj Hp B))) H3)).
Qed.
Lemma inv0_add_give p d D A G id a :
  inv0 p d D A G -> Z.of_N (G id + a) <= I128_MAX ->
  exists d', ord_add_give d id a = (d', Ok tt) /\ inv0 p d' D A (fupd G id (G id + a)%N).
Proof.
  intros (H1 & H2 & (Hwf & Hr & Hp & Hs)) Hle. destruct (areads_add _ _ _ id a Hwf Hp Hs Hr Hle) as (m' & Hm & W & R & B).
  unfold ord_add_give. rewrite Hm. cbn. eexists. split; [reflexivity|].
  exact (conj H1 (conj H2 (conj W (conj R (conj Hp B))))).
Qed.
Lemma inv0_sub_give p d D A G id a :
  inv0 p d D A G -> (a <= G id)%N ->
  exists d', ord_sub_give d id a = (d', Ok tt) /\ inv0 p d' D A (fupd G id (G id - a)%N).
Proof.
  intros (H1 & H2 & (Hwf & Hr & Hp & Hs)) Hle. destruct (areads_sub _ _ _ id a Hwf Hp Hs Hr Hle) as (m' & Hm & W & R & B).
  unfold ord_sub_give. rewrite Hm. cbn. eexists. split; [reflexivity|].
  exact (conj H1 (conj H2 (conj W (conj R (conj Hp B))))).
Qed.

Lemma inv0_get_data P p d D A G id : ord_reads P p -> inv0 p d D A G -> ord_get_data P d id = Ok (D id).
Proof.
  intros [HP _] (Hd & _). destruct (HP id) as [H _]. unfold ord_get_data. rewrite H. cbn.
  pose proof (dreads_get _ _ _ id Hd) as Hg. destruct (get_data (ordd_data d) id); congruence.
Qed.
Lemma inv0_get_ask P p d D A G id : ord_reads P p -> inv0 p d D A G -> ord_get_ask P d id = Ok (A id).
Proof.
  intros [HP _] (_ & (_ & Hr & Hp & Hs) & _). destruct (HP id) as (_ & H & _). unfold ord_get_ask. rewrite H. cbn.
  rewrite (areads_combine _ _ _ id Hp Hs Hr). reflexivity.
Qed.
Lemma inv0_get_give P p d D A G id : ord_reads P p -> inv0 p d D A G -> ord_get_give P d id = Ok (G id).
Proof.
  intros [HP _] (_ & _ & (_ & Hr & Hp & Hs)). destruct (HP id) as (_ & _ & H). unfold ord_get_give. rewrite H. cbn.
  rewrite (areads_combine _ _ _ id Hp Hs Hr). reflexivity.
Qed.

Lemma ord_reads_cache P p d s : ord_reads P p -> ord_inv p d s -> ord_reads (ord_cache_view P d) s.
Proof.
  intros HP [Hi _]. split.
  - intros id. cbn. rewrite (inv0_get_data _ _ _ _ _ _ _ HP Hi), (inv0_get_ask _ _ _ _ _ _ _ HP Hi),
      (inv0_get_give _ _ _ _ _ _ _ HP Hi). auto.
  - destruct HP as [_ (ids & Hids & Hmem)]. cbn. unfold ord_get_ids. rewrite Hids. cbn [rmap_err rbind].
    eexists. split; [reflexivity|]. intros id. rewrite elem_of_union, !elem_of_filter, elem_of_dom.
    destruct Hi as (Hd & _). specialize (Hd id). specialize (Hmem id). unfold get_data.
    destruct (ordd_data d !! id) as [[o n]|] eqn:E.
    + cbn in *. destruct Hd as [_ ->]. destruct n as [n|]; cbn.
      * split; [|intros _; right; split; [reflexivity|eauto]]. eauto.
      * split; [intros [[H _]|[H _]]; discriminate|intros [x Hx]; discriminate].
    + cbn in *. rewrite Hd, <- Hmem. split; [intros [[_ H]|[H _]]; [exact H|discriminate]|intros H; left; auto].
Qed.

Lemma ord_inv_good p d s : ord_inv p d s -> ord_good s.
Proof. intros [(_ & (_ & _ & _ & H1) & (_ & _ & _ & H2)) H]. exact (conj H1 (conj H2 H)). Qed.

(** What an undo record says about the states before and after its operation. *)
Definition same_elsewhere (id : N) (s' s : ord_state) : Prop := forall k, k <> id ->
  os_data s' k = os_data s k /\ os_ask s' k = os_ask s k /\ os_give s' k = os_give s k.

Definition ord_undoes (u : ord_undo) (s' s : ord_state) : Prop :=
  ord_good s /\
  match u with
  | UndoCreate id u a g => same_elsewhere id s' s /\ u = DataDelta (os_data s' id) (os_data s id) /\
      is_none (os_data s' id) = false /\ os_ask s' id = a /\ os_give s' id = g /\ os_ask s id = 0%N /\ os_give s id = 0%N
  | UndoConclude id u a g => same_elsewhere id s' s /\ u = DataDelta (os_data s' id) (os_data s id) /\
      os_data s' id = None /\ os_ask s' id = 0%N /\ os_give s' id = 0%N /\ os_ask s id = a /\ os_give s id = g
  | UndoFill id a g => same_elsewhere id s' s /\ os_data s' id = os_data s id /\
      os_ask s id = (os_ask s' id + a)%N /\ os_give s id = (os_give s' id + g)%N
  | UndoFreezeOrder id u => same_elsewhere id s' s /\ u = DataDelta (os_data s' id) (os_data s id) /\
      is_none (os_data s' id) = false /\ os_ask s' id = os_ask s id /\ os_give s' id = os_give s id
  end.

Lemma put_order_same s id d a g : same_elsewhere id (put_order s id d a g) s.
Proof. intros k Hk. cbn. destruct (decide (id = k)); [congruence|auto]. Qed.
Lemma put_order_data s id d a g : os_data (put_order s id d a g) id = d.
Proof. cbn. destruct (decide (id = id)); congruence. Qed.
Lemma put_order_ask s id d a g : os_ask (put_order s id d a g) id = a.
Proof. cbn. destruct (decide (id = id)); congruence. Qed.
Lemma put_order_give s id d a g : os_give (put_order s id d a g) id = g.
Proof. cbn. destruct (decide (id = id)); congruence. Qed.

Lemma put_order_sound s id d a g : sound_book s -> sound_order d a g -> sound_book (put_order s id d a g).
Proof. intros Hs Ho k. cbn. destruct (decide (id = k)); [exact Ho|apply Hs]. Qed.

Lemma amount_of_side v a : side_amount v = Some a -> output_value_amount v = Ok a.
Proof. destruct v; cbn; congruence. Qed.

(** What a fill does to a sound order. *)
Lemma fill_v1_sound a0 g0 ask give fill : (0 < a0 -> fill <= ask -> give <= g0 -> ask <= a0 -> g0 * ask <= give * a0 ->
  g0 * fill / a0 <= give /\ g0 * (ask - fill) <= (give - g0 * fill / a0) * a0)%N.
Proof.
  intros Ha Hf Hg Hk Hr. pose proof (N.div_mod (g0 * fill) a0) as Hd. pose proof (N.mod_lt (g0 * fill) a0) as Hm.
  set (q := (g0 * fill / a0)%N) in *. set (r := ((g0 * fill) mod a0)%N) in *. clearbody q r.
  assert (q * a0 <= g0 * fill)%N as H1 by lia.
  assert (g0 * fill <= g0 * ask)%N as H2 by (apply N.mul_le_mono_l; exact Hf).
  assert (q <= give)%N as H3 by nia. split; [exact H3|]. nia.
Qed.

Lemma fill_v0_sound a0 g0 ask give fill : (0 < ask -> fill <= ask -> g0 * ask <= give * a0 ->
  give * fill / ask <= give /\ g0 * (ask - fill) <= (give - give * fill / ask) * a0)%N.
Proof.
  intros Ha Hf Hr. pose proof (N.div_mod (give * fill) ask) as Hd.
  set (q := (give * fill / ask)%N) in *. set (r := ((give * fill) mod ask)%N) in *. clearbody q r.
  assert (q * ask <= give * fill)%N as H1 by lia.
  assert (give * fill <= give * ask)%N as H2 by (apply N.mul_le_mono_l; exact Hf).
  assert (q <= give)%N as H3 by nia. split; [exact H3|].
  assert (give * (ask - fill) <= (give - q) * ask)%N as H4 by nia.
  assert (ask * (g0 * (ask - fill)) <= ask * ((give - q) * a0))%N as H5.
  { apply N.le_trans with (give * a0 * (ask - fill))%N; nia. }
  nia.
Qed.

Lemma calc_div a g f : (0 < a)%N -> (g * f / a <= U128_MAX)%N -> calculate_filled_amount a g f = Some (g * f / a)%N.
Proof.
  intros Ha Hr. unfold calculate_filled_amount, checked_div.
  destruct (N.eqb_spec a 0); [lia|]. destruct (N.leb_spec (g * f / a) U128_MAX); [reflexivity|lia].
Qed.

Lemma bounded_u128 (p : N -> N) k a : bounded p -> (a <= p k)%N -> (a <= U128_MAX)%N.
Proof. intros H. specialize (H k). unfold I128_MAX in H. unfold U128_MAX. lia. Qed.

(** The bookkeeping part of an accepted fill. *)
Lemma fill_writes p d s id fill paid dd :
  ord_inv p d s -> os_data s id = Some dd -> (fill <= os_ask s id)%N -> (paid <= os_give s id)%N ->
  sound_order (Some dd) (os_ask s id - fill) (os_give s id - paid) ->
  let s' := put_order s id (Some dd) (os_ask s id - fill)%N (os_give s id - paid)%N in
  exists d' u, sbind (ord_sub_give d id paid) (fun c _ => sbind (ord_sub_ask c id fill) (fun c _ =>
      (c, (Ok (UndoFill id fill paid) : res ord_err ord_undo)))) = (d', Ok u) /\ ord_inv p d' s' /\ ord_undoes u s' s.
Proof.
  intros Hi Hd Hf Hp Hs s'. pose proof (ord_inv_good _ _ _ Hi) as Hgood. destruct Hi as [Hi Hbook].
  destruct (inv0_sub_give _ _ _ _ _ id paid Hi Hp) as (d1 & -> & Hi1). cbn [sbind].
  destruct (inv0_sub_ask _ _ _ _ _ id fill Hi1 Hf) as (d2 & -> & Hi2). cbn [sbind].
  subst s'. do 2 eexists. split; [reflexivity|]. split.
  - split; [|apply put_order_sound; assumption].
    apply (inv0_ext _ _ _ _ _ _ _ _ Hi2); intros k; unfold fupd, put_order; cbn [os_data os_ask os_give]; destruct (decide (id = k)); congruence.
  - split; [exact Hgood|]. split; [apply put_order_same|]. rewrite put_order_data, put_order_ask, put_order_give.
    split; [congruence|]. lia.
Qed.

Lemma ord_op_refines P p d s o : ord_reads P p -> ord_inv p d s -> ord_fits s o ->
  match ord_step s o with
  | Ok s' => exists d' u, ord_run P d o = (d', Ok u) /\ ord_inv p d' s' /\ ord_undoes u s' s
  | Err e => exists d', ord_run P d o = (d', Err e) /\ ord_inv p d' s
  | Panic => False
  end.
Proof.
  intros HP Hinv Hfit. pose proof Hinv as [Hi Hbook]. pose proof (ord_inv_good _ _ _ Hinv) as Hgood.
  pose proof Hgood as (HbA & HbG & _).
  pose proof (fun id => inv0_get_data _ _ _ _ _ _ id HP Hi) as RD. pose proof (fun id => inv0_get_ask _ _ _ _ _ _ id HP Hi) as RA.
  pose proof (fun id => inv0_get_give _ _ _ _ _ _ id HP Hi) as RG.
  destruct o as [id data|id|id fill ver|id]; cbn [ord_step ord_run].
  - (* create *)
    unfold create_order. rewrite RD. cbn [rbind]. pose proof (Hbook id) as Hso. cbn [ord_fits ord_step] in Hfit.
    destruct (os_data s id) as [d0|] eqn:Hd; cbn [is_none ensure rbind on_ok]; [eauto|].
    cbn in Hso. destruct Hso as [Hz1 Hz2]. rewrite RA. cbn [rbind]. rewrite Hz1. cbn [N.eqb ensure rbind].
    destruct (od_ask data) as [a| |t1 a] eqn:Ha; cbn [side_amount output_value_amount rbind on_ok]; try (eauto; fail);
    (destruct (od_give data) as [g| |t2 g] eqn:Hg; cbn [side_amount output_value_amount rbind on_ok]; try (eauto; fail)).
    all: rewrite ?Ha, ?Hg in Hfit; cbn [side_amount] in Hfit;
      destruct (decide (a = 0 \/ g = 0)%N) as [Hz|Hz];
      destruct (N.ltb_spec 0 a); destruct (N.ltb_spec 0 g); try lia; cbn [andb ensure rbind on_ok]; try (eauto; fail).
    all: specialize (Hfit _ eq_refl); rewrite put_order_ask, put_order_give in Hfit; destruct Hfit as [Hfa Hfg];
      destruct (inv0_data _ _ _ _ _ _ _ (Some data) Hi Hd) as (d1 & -> & Hi1); cbn [sbind];
      destruct (inv0_add_ask _ _ _ _ _ id a Hi1) as (d2 & -> & Hi2); [rewrite Hz1; exact Hfa|]; cbn [sbind];
      destruct (inv0_add_give _ _ _ _ _ id g Hi2) as (d3 & -> & Hi3); [rewrite Hz2; exact Hfg|]; cbn [sbind];
      do 2 eexists; (split; [reflexivity|]); split.
    all: try (split; [exact Hgood|]; split; [apply put_order_same|];
              rewrite put_order_data, put_order_ask, put_order_give, Hd; repeat split; assumption).
    all: split; [apply (inv0_ext _ _ _ _ _ _ _ _ Hi3); intros k; unfold fupd, put_order; cbn [os_data os_ask os_give]; destruct (decide (id = k)) as [<-|];
                   (reflexivity || (rewrite ?Hz1, ?Hz2; reflexivity))|].
    all: apply put_order_sound; [exact Hbook|]; exists a, g; rewrite Ha, Hg; cbn; repeat split; try assumption; lia.
  - (* conclude *)
    unfold conclude_order. rewrite RD. cbn [rbind].
    destruct (os_data s id) as [d0|] eqn:Hd; cbn [ok_or rbind on_ok]; [|eauto].
    rewrite RA, RG. cbn [rbind on_ok].
    destruct (inv0_data _ _ _ _ _ _ _ None Hi Hd) as (d1 & -> & Hi1); cbn [sbind].
    destruct (inv0_sub_ask _ _ _ _ _ id (os_ask s id) Hi1) as (d2 & -> & Hi2); [lia|]; cbn [sbind].
    destruct (inv0_sub_give _ _ _ _ _ id (os_give s id) Hi2) as (d3 & -> & Hi3); [lia|]; cbn [sbind].
    do 2 eexists. split; [reflexivity|]. split.
    + split.
      * apply (inv0_ext _ _ _ _ _ _ _ _ Hi3); intros k; unfold fupd, put_order; cbn [os_data os_ask os_give]; destruct (decide (id = k)); try reflexivity; lia.
      * apply put_order_sound; [exact Hbook|]. split; reflexivity.
    + split; [exact Hgood|]. split; [apply put_order_same|].
      rewrite put_order_data, put_order_ask, put_order_give, Hd. repeat split.
  - (* fill *)
    unfold fill_order. rewrite RD. cbn [rbind]. pose proof (Hbook id) as Hso.
    destruct (os_data s id) as [d0|] eqn:Hd; cbn [ok_or rbind on_ok]; [|eauto].
    cbn in Hso. destruct Hso as (a0 & g0 & Ha0 & Hg0 & Hpa & Hpg & Hla & Hlg & Hpr).
    destruct (od_frozen d0) eqn:Hfr; cbn [negb ensure rbind on_ok]; [eauto|].
    destruct ver; cbn [calculate_fill_order].
    + unfold fill_remaining. cbn [ord_cache_view ov_ask ov_give]. rewrite RA, RG. cbn [rmap_err rbind].
      destruct (decide (os_ask s id < fill)%N) as [Hlt|Hge]; destruct (N.leb_spec fill (os_ask s id)); try lia; cbn [ensure rbind on_ok]; [eauto|].
      destruct (decide (os_ask s id = 0%N)) as [Hz|Hz].
      * unfold calculate_filled_amount, checked_div. rewrite Hz. cbn. eauto.
      * assert (0 < os_ask s id)%N as Hpos by lia.
        destruct (fill_v0_sound a0 g0 _ _ fill Hpos H Hpr) as [Hq Hr'].
        rewrite calc_div; [|exact Hpos|exact (bounded_u128 _ _ _ HbG Hq)]. cbn [ok_or on_ok].
        apply (fill_writes _ _ _ _ _ _ _ Hinv Hd H Hq). exists a0, g0. apply (conj Ha0), (conj Hg0), (conj Hpa), (conj Hpg).
        split; [clear -Hla; lia|]. split; [|exact Hr']. apply (N.le_trans _ (os_give s id)); [apply N.le_sub_l|exact Hlg].
    + unfold fill_original. cbn [ord_cache_view ov_ask ov_data]. rewrite RA, RD, Hd. cbn [rmap_err rbind ok_or].
      rewrite (amount_of_side _ _ Ha0), (amount_of_side _ _ Hg0), Ha0, Hg0. cbn [rbind].
      destruct (decide (os_ask s id < fill)%N) as [Hlt|Hge]; destruct (N.leb_spec fill (os_ask s id)); try lia; cbn [ensure rbind on_ok]; [eauto|].
      destruct (fill_v1_sound a0 g0 _ _ fill Hpa H Hlg Hla Hpr) as [Hq Hr'].
      rewrite calc_div; [|exact Hpa|exact (bounded_u128 _ _ _ HbG Hq)]. cbn [ok_or rbind].
      set (q := (g0 * fill / a0)%N) in *. clearbody q.
      destruct (decide (q = 0)%N) as [Hz|Hz]; destruct (N.ltb_spec 0 q); try lia; cbn [ensure rbind on_ok]; [eauto|].
      apply (fill_writes _ _ _ _ _ _ _ Hinv Hd H Hq). exists a0, g0. apply (conj Ha0), (conj Hg0), (conj Hpa), (conj Hpg).
        split; [clear -Hla; lia|]. split; [|exact Hr']. apply (N.le_trans _ (os_give s id)); [apply N.le_sub_l|exact Hlg].
  - (* freeze *)
    unfold freeze_order. rewrite RD. cbn [rbind]. pose proof (Hbook id) as Hso.
    destruct (os_data s id) as [d0|] eqn:Hd; cbn [ok_or rbind on_ok]; [|eauto].
    unfold try_freeze_order. destruct (od_frozen d0) eqn:Hfr; cbn [ok_or rbind on_ok]; [eauto|].
    destruct (inv0_data _ _ _ _ _ _ _ (Some (OrderData (od_key d0) (od_ask d0) (od_give d0) true)) Hi Hd) as (d1 & -> & Hi1); cbn [sbind].
    do 2 eexists. split; [reflexivity|]. split.
    + split.
      * apply (inv0_ext _ _ _ _ _ _ _ _ Hi1); intros k; unfold fupd, put_order; cbn [os_data os_ask os_give]; destruct (decide (id = k)); congruence.
      * apply put_order_sound; [exact Hbook|]. exact Hso.
    + split; [exact Hgood|]. split; [apply put_order_same|].
      rewrite put_order_data, put_order_ask, put_order_give, Hd. repeat split.
Qed.

Lemma ord_undo_refines P p d s' u s : ord_reads P p -> ord_inv p d s' -> ord_undoes u s' s ->
  exists d', undo_order_op P d u = (d', Ok tt) /\ ord_inv p d' s.
Proof.
  intros HP [Hi Hbook] (Hgood & Hu). pose proof Hgood as (HbA & HbG & Hsound).
  destruct u as [id u a g|id u a g|id a g|id u]; cbn [undo_order_op].
  - destruct Hu as (Hse & -> & Hn & <- & <- & Hz1 & Hz2).
    rewrite (inv0_get_ask _ _ _ _ _ _ _ HP Hi). cbn [rbind]. rewrite N.eqb_refl. cbn [ensure on_ok].
    destruct (inv0_sub_ask _ _ _ _ _ id (os_ask s' id) Hi) as (d1 & -> & Hi1); [lia|]; cbn [sbind].
    rewrite (inv0_get_give _ _ _ _ _ _ _ HP Hi1). cbn [rbind]. rewrite N.eqb_refl. cbn [ensure on_ok].
    destruct (inv0_sub_give _ _ _ _ _ id (os_give s' id) Hi1) as (d2 & -> & Hi2); [lia|]; cbn [sbind].
    rewrite (inv0_get_data _ _ _ _ _ _ _ HP Hi2). cbn [rbind]. rewrite Hn. cbn [negb ensure on_ok].
    destruct (inv0_undo_data _ _ _ _ _ id _ (os_data s id) Hi2 eq_refl) as (d3 & -> & Hi3). eexists. split; [reflexivity|].
    split; [|exact Hsound].
    apply (inv0_ext _ _ _ _ _ _ _ _ Hi3); intros k; unfold fupd; destruct (decide (id = k)) as [<-|Hne];
      try lia; try reflexivity; apply Hse; congruence.
  - destruct Hu as (Hse & -> & Hn & Hz1 & Hz2 & <- & <-).
    rewrite (inv0_get_data _ _ _ _ _ _ _ HP Hi). cbn [rbind]. rewrite Hn. cbn [is_none ensure on_ok].
    destruct (inv0_undo_data _ _ _ _ _ _ _ (os_data s id) Hi Hn) as (d1 & -> & Hi1). cbn [sbind].
    rewrite (inv0_get_ask _ _ _ _ _ _ _ HP Hi1). cbn [rbind]. rewrite Hz1. cbn [N.eqb ensure on_ok].
    destruct (inv0_add_ask _ _ _ _ _ id (os_ask s id) Hi1) as (d2 & -> & Hi2); [rewrite Hz1; apply HbA|]; cbn [sbind].
    rewrite (inv0_get_give _ _ _ _ _ _ _ HP Hi2). cbn [rbind]. rewrite Hz2. cbn [N.eqb ensure on_ok].
    destruct (inv0_add_give _ _ _ _ _ id (os_give s id) Hi2) as (d3 & -> & Hi3); [rewrite Hz2; apply HbG|].
    eexists. split; [reflexivity|]. split; [|exact Hsound].
    apply (inv0_ext _ _ _ _ _ _ _ _ Hi3); intros k; unfold fupd; destruct (decide (id = k)) as [<-|Hne];
      try lia; try reflexivity; apply Hse; congruence.
  - destruct Hu as (Hse & Hd & Ha & Hg).
    destruct (inv0_add_ask _ _ _ _ _ id a Hi) as (d1 & -> & Hi1); [rewrite <- Ha; apply HbA|]; cbn [sbind].
    destruct (inv0_add_give _ _ _ _ _ id g Hi1) as (d2 & -> & Hi2); [rewrite <- Hg; apply HbG|].
    eexists. split; [reflexivity|]. split; [|exact Hsound].
    apply (inv0_ext _ _ _ _ _ _ _ _ Hi2); intros k; unfold fupd; destruct (decide (id = k)) as [<-|Hne];
      try congruence; try (apply Hse; congruence).
  - destruct Hu as (Hse & -> & Hn & Ha & Hg).
    rewrite (inv0_get_data _ _ _ _ _ _ _ HP Hi). cbn [rbind]. rewrite Hn. cbn [negb ensure on_ok].
    destruct (inv0_undo_data _ _ _ _ _ id _ (os_data s id) Hi eq_refl) as (d1 & -> & Hi1). eexists. split; [reflexivity|].
    split; [|exact Hsound].
    apply (inv0_ext _ _ _ _ _ _ _ _ Hi1); intros k; unfold fupd.
    + destruct (decide (id = k)) as [<-|]; [reflexivity|apply Hse; congruence].
    + destruct (decide (k = id)) as [->|]; [exact Ha|apply Hse; congruence].
    + destruct (decide (k = id)) as [->|]; [exact Hg|apply Hse; congruence].
Qed.

Lemma ord_merge_refines p d s e t : ord_inv p d s -> ord_inv s e t ->
  exists d' u, ord_merge d e = (d', Ok u) /\ ord_inv p d' t.
Proof.
  intros [(Hd & (Hwf & Ha & Hp & Hs) & (Hwg & Hg & Hpg & Hsg)) _] [(Hd2 & (Hwf2 & Ha2 & _ & Ht) & (Hwg2 & Hg2 & _ & Htg)) Hb2].
  destruct (dreads_merge _ _ _ _ _ Hd Hd2) as (m & Hm & Hr).
  destruct (areads_merge _ _ _ _ _ Hwf Hwf2 Hp Ht Ha Ha2) as (m2 & Hm2 & W & R).
  destruct (areads_merge _ _ _ _ _ Hwg Hwg2 Hpg Htg Hg Hg2) as (m3 & Hm3 & W3 & R3).
  unfold ord_merge. rewrite Hm. cbn. rewrite Hm2. cbn. rewrite Hm3. cbn. do 2 eexists. split; [reflexivity|].
  split; [|exact Hb2]. exact (conj Hr (conj (conj W (conj R (conj Hp Ht))) (conj W3 (conj R3 (conj Hpg Htg))))).
Qed.

Lemma ord_db_merge_refines db p d s : ord_db_is db p -> ord_inv p d s ->
  exists db' u, ord_db_merge db d = (db', Ok u) /\ ord_db_is db' s.
Proof.
  intros (H1 & H2 & H3 & H4 & H5 & H6 & H7 & H8) [(Hd & (Hwf & Ha & Hp & Hs) & (Hwg & Hg & Hpg & Hsg)) Hb].
  destruct (dreads_flush_db (odb_data db) (ordd_data d) (os_data s)) as (m & Hm & Hr).
  { intros k. specialize (Hd k). rewrite H1. exact Hd. }
  destruct (areads_flush_db (odb_ask db) (ordd_ask d) (os_ask s) Hwf) as (m2 & Hm2 & Hr2 & Hc2).
  { intros k. unfold db_val. rewrite H2. apply H6. } { exact Hs. } { intros k. unfold db_val. rewrite H2. apply Ha. } { exact H3. }
  destruct (areads_flush_db (odb_give db) (ordd_give d) (os_give s) Hwg) as (m3 & Hm3 & Hr3 & Hc3).
  { intros k. unfold db_val. rewrite H4. apply H7. } { exact Hsg. } { intros k. unfold db_val. rewrite H4. apply Hg. } { exact H5. }
  unfold ord_db_merge. rewrite Hm. cbn. rewrite Hm2. cbn. rewrite Hm3. cbn. do 2 eexists. split; [reflexivity|].
  exact (conj Hr (conj Hr2 (conj Hc2 (conj Hr3 (conj Hc3 (conj Hs (conj Hsg Hb))))))).
Qed.

Lemma ord_db_good db s : ord_db_is db s -> ord_good s.
Proof. intros (_ & _ & _ & _ & _ & H6 & H7 & H8). exact (conj H6 (conj H7 H8)). Qed.
Lemma ord_reads_db db s : ord_db_is db s -> ord_reads (ord_db_view db) s.
Proof.
  intros (H1 & H2 & _ & H4 & _). split.
  - intros id. cbn. rewrite H1, H2, H4. auto.
  - cbn. eexists. split; [reflexivity|]. intros id. rewrite elem_of_dom, H1. reflexivity.
Qed.
Lemma ord_inv_empty p : ord_good p -> ord_inv p ord_delta_new p.
Proof.
  intros (Hb & Hb2 & Hs). split; [|exact Hs]. split; [apply dreads_empty|].
  split; (split; [apply amounts_wf_empty|split; [apply areads_empty|split; assumption]]).
Qed.

Theorem ord_layered db s0 cs : ord_db_is db s0 -> fits_all ord_step ord_fits ((s0, []), []) cs ->
  let (m, os) := ord_exec_all ((db, []), []) cs in
  let (sm, sos) := sexec_all ord_step ((s0, []), []) cs in
  os = sos /\ ord_reads (ord_machine_view m) (top sm) /\ (m.2 = [] -> ord_db_is m.1.1 (top sm)).
Proof.
  exact (layered_refinement _ _ _ _ _ _ _ _ _ _ _ _ _ ord_undoes ord_reads_cache ord_reads_db ord_db_good ord_inv_good
    ord_inv_empty ord_op_refines ord_undo_refines ord_merge_refines ord_db_merge_refines db s0 cs).
Qed.
Theorem ord_layered_undo db s0 cs ns :
  ord_db_is db s0 -> fits_all ord_step ord_fits ((s0, []), []) (cs ++ ns) -> neutral ns ->
  let m1 := (ord_exec_all ((db, []), []) cs).1 in
  let m2 := ord_exec_all m1 ns in
  Forall (fun o => o = Done) m2.2 -> exists s, ord_reads (ord_machine_view m1) s /\ ord_reads (ord_machine_view m2.1) s.
Proof.
  exact (layered_undo _ _ _ _ _ _ _ _ _ _ _ _ _ ord_undoes ord_reads_cache ord_reads_db ord_db_good ord_inv_good
    ord_inv_empty ord_op_refines ord_undo_refines ord_merge_refines ord_db_merge_refines db s0 cs ns).
Qed.
Theorem ord_never_stuck db s0 cs :
  ord_db_is db s0 -> fits_all ord_step ord_fits ((s0, []), []) cs ->
  Forall2 expected cs (ord_exec_all ((db, []), []) cs).2.
Proof.
  exact (layered_never_stuck _ _ _ _ _ _ _ _ _ _ _ _ _ ord_undoes ord_reads_cache ord_reads_db ord_db_good ord_inv_good
    ord_inv_empty ord_op_refines ord_undo_refines ord_merge_refines ord_db_merge_refines db s0 cs).
Qed.
Theorem ord_next db s0 cs o :
  ord_db_is db s0 -> fits_all ord_step ord_fits ((s0, []), []) cs ->
  let m1 := (ord_exec_all ((db, []), []) cs).1 in
  m1.2 <> [] -> (forall s, ord_reads (ord_machine_view m1) s -> ord_fits s o) ->
  exists s, ord_reads (ord_machine_view m1) s /\
    (ord_exec m1 (Do o)).2 = outcome_of (ord_step s o) /\
    ord_reads (ord_machine_view (ord_exec m1 (Do o)).1) (match ord_step s o with Ok s' => s' | _ => s end).
Proof.
  exact (layered_next _ _ _ _ _ _ _ _ _ _ _ _ _ ord_undoes ord_reads_cache ord_reads_db ord_db_good ord_inv_good
    ord_inv_empty ord_op_refines ord_undo_refines ord_merge_refines ord_db_merge_refines db s0 cs o).
Qed.
Theorem ord_steps db s0 cs fs :
  Forall forward fs -> ord_db_is db s0 -> fits_all ord_step ord_fits ((s0, []), []) (cs ++ fs) ->
  let m1 := (ord_exec_all ((db, []), []) cs).1 in
  let m2 := ord_exec_all m1 fs in
  exists s1 s2, ord_reads (ord_machine_view m1) s1 /\ ord_reads (ord_machine_view m2.1) s2 /\ ord_good s1 /\
    steps ord_step s1 (accepted fs m2.2) = Ok s2.
Proof.
  exact (layered_steps _ _ _ _ _ _ _ _ _ _ _ _ _ ord_undoes ord_reads_cache ord_reads_db ord_db_good ord_inv_good
    ord_inv_empty ord_op_refines ord_undo_refines ord_merge_refines ord_db_merge_refines db s0 cs fs).
Qed.

(** *** Consequences of the rules *)
Local Open Scope N_scope.

Lemma ord_reads_agree v w s : ord_reads v s -> ord_reads w s -> ord_answers_agree v w.
Proof.
  intros [H1 (i & Hi & Hm)] [H2 (j & Hj & Hn)]. split.
  - intros id. destruct (H1 id) as (A & B & C), (H2 id) as (A' & B' & C'). rewrite A, B, C, A', B', C'.
    repeat split; eexists; reflexivity.
  - exists i, j. split; [exact Hi|]. split; [exact Hj|]. intros id. rewrite Hm, Hn. reflexivity.
Qed.

Lemma ord_reads_pointwise v s t : ord_reads v s -> ord_reads v t ->
  forall id, os_data s id = os_data t id /\ os_ask s id = os_ask t id /\ os_give s id = os_give t id.
Proof.
  intros [H1 _] [H2 _] id. destruct (H1 id) as (A & B & C), (H2 id) as (A' & B' & C').
  rewrite A in A'. rewrite B in B'. rewrite C in C'. split; [congruence|]. split; congruence.
Qed.

Ltac step_cases :=
  repeat match goal with
  | H : Err _ = Ok _ |- _ => discriminate H
  | H : Ok _ = Ok _ |- _ => injection H as <-
  | H : match ?x with _ => _ end = Ok _ |- _ => destruct x eqn:?
  | H : (if ?x then _ else _) = Ok _ |- _ => destruct x eqn:?
  end.

(** A step that does not conclude an existing order keeps it, with the same sides; if it fills it the books move as
    stated, otherwise they do not move. *)
Lemma step_existing s o s' id d :
  sound_book s -> os_data s id = Some d -> ~ concludes id o -> ord_step s o = Ok s' ->
  exists d', os_data s' id = Some d' /\ od_ask d' = od_ask d /\ od_give d' = od_give d /\
    (od_frozen d = true -> d' = d) /\
    (os_ask s' id = os_ask s id /\ os_give s' id = os_give s id /\ paid_into id [o] = 0 \/
     exists a0 g0 f ver, o = FillOrder id f ver /\ od_frozen d = false /\
       side_amount (od_ask d) = Some a0 /\ side_amount (od_give d) = Some g0 /\ 0 < a0 /\ 0 < os_ask s id /\
       f <= os_ask s id /\ os_ask s' id = os_ask s id - f /\
       payout ver a0 g0 (os_ask s id) (os_give s id) f <= os_give s id /\
       os_give s' id = os_give s id - payout ver a0 g0 (os_ask s id) (os_give s id) f /\
       (ver = OrdersV1 -> 0 < payout ver a0 g0 (os_ask s id) (os_give s id) f)).
Proof.
  intros Hs Hd Hc Hstep. destruct o as [i data|i|i fill ver|i]; cbn [ord_step] in Hstep.
  - destruct (decide (i = id)) as [->|Hne].
    + rewrite Hd in Hstep. discriminate.
    + exists d. step_cases; cbn; destruct (decide (i = id)); try congruence; auto 10.
  - cbn in Hc. exists d. step_cases. cbn. destruct (decide (i = id)); try congruence; auto 10.
  - destruct (decide (i = id)) as [->|Hne].
    + rewrite Hd in Hstep. pose proof (Hs id) as Hso. rewrite Hd in Hso.
      destruct Hso as (a0 & g0 & Ha0 & Hg0 & Hpa & Hpg & Hla & Hlg & Hpr).
      rewrite Ha0, Hg0 in Hstep.
      destruct (od_frozen d) eqn:Hfr; [discriminate|].
      destruct (decide (os_ask s id < fill)) as [|Hle]; [discriminate|].
      destruct ver.
      * destruct (decide (os_ask s id = 0)) as [|Hnz]; [discriminate|]. injection Hstep as <-.
        exists d. rewrite put_order_data, put_order_ask, put_order_give.
        split; [reflexivity|]. split; [reflexivity|]. split; [reflexivity|]. split; [congruence|]. right.
        exists a0, g0, fill, OrdersV0. cbn [payout].
        assert (0 < os_ask s id) as Hpos by lia. assert (fill <= os_ask s id) as Hle' by lia.
        pose proof (fill_v0_sound a0 g0 _ _ fill Hpos Hle' Hpr) as [Hq _].
        repeat (split; [first [reflexivity|assumption]|]). intros; discriminate.
      * destruct (decide (g0 * fill / a0 = 0)) as [|Hnz]; [discriminate|]. injection Hstep as <-.
        exists d. rewrite put_order_data, put_order_ask, put_order_give.
        split; [reflexivity|]. split; [reflexivity|]. split; [reflexivity|]. split; [congruence|]. right.
        exists a0, g0, fill, OrdersV1. cbn [payout].
        assert (fill <= os_ask s id) as Hle' by lia.
        pose proof (fill_v1_sound a0 g0 _ _ fill Hpa Hle' Hlg Hla Hpr) as [Hq _].
        assert (0 < os_ask s id) as Hpos.
        { destruct (N.eq_0_gt_0_cases (os_ask s id)) as [Hz|]; [|assumption]. assert (fill = 0) as -> by lia.
          rewrite N.mul_0_r, N.div_0_l in Hnz by lia. contradiction. }
        repeat (split; [first [reflexivity|assumption]|]). intros _.
        destruct (N.eq_0_gt_0_cases (g0 * fill / a0)) as [Hz|]; [contradiction|assumption].
    + exists d. cbn [paid_into]. destruct (decide (i = id)); [congruence|].
      step_cases; cbn; destruct (decide (i = id)); try congruence; auto 10.
  - destruct (decide (i = id)) as [->|Hne].
    + rewrite Hd in Hstep. destruct (od_frozen d) eqn:Hfr; [discriminate|]. injection Hstep as <-.
      rewrite put_order_data, put_order_ask, put_order_give. eexists. split; [reflexivity|]. cbn.
      split; [reflexivity|]. split; [reflexivity|]. split; [discriminate|]. auto.
    + exists d. step_cases; cbn; destruct (decide (i = id)); try congruence; auto 10.
Qed.

Lemma step_sound s o s' : sound_book s -> ord_step s o = Ok s' -> sound_book s'.
Proof.
  intros Hs Hstep id.
  destruct (os_data s id) as [d|] eqn:Hd.
  - assert (o = ConcludeOrder id \/ ~ concludes id o) as [->|Hc].
    { destruct o as [i data|i|i f v|i]; cbn; try (right; tauto). destruct (decide (i = id)); [left; congruence|right; assumption]. }
    + cbn in Hstep. rewrite Hd in Hstep. injection Hstep as <-. cbn. destruct (decide (id = id)); [|congruence]. split; reflexivity.
    + destruct (step_existing _ _ _ _ _ Hs Hd Hc Hstep) as (d' & Hd' & E1 & E2 & _ & Hcase). rewrite Hd'.
      pose proof (Hs id) as Hso. rewrite Hd in Hso. cbn in Hso |- *. rewrite E1, E2.
      destruct Hcase as [(-> & -> & _)|(a0 & g0 & f & ver & _ & _ & Ha0 & Hg0 & Hp0 & Hpa & Hle & -> & Hq & -> & _)]; [exact Hso|].
      destruct Hso as (a & g & Ha & Hg & Hpa' & Hpg & Hla & Hlg & Hpr). rewrite Ha in Ha0. rewrite Hg in Hg0.
      injection Ha0 as <-. injection Hg0 as <-. exists a, g.
      apply (conj Ha), (conj Hg), (conj Hpa'), (conj Hpg). split; [lia|].
      split; [apply (N.le_trans _ (os_give s id)); [apply N.le_sub_l|exact Hlg]|].
      destruct ver; [apply (fill_v0_sound a g _ _ f Hpa Hle Hpr)|apply (fill_v1_sound a g _ _ f Hpa' Hle Hlg Hla Hpr)].
  - pose proof (Hs id) as Hso. rewrite Hd in Hso. cbn in Hso. destruct Hso as [Hz1 Hz2].
    destruct o as [i data|i|i fill ver|i]; cbn [ord_step] in Hstep; (destruct (decide (i = id)) as [->|Hne];
      [rewrite Hd in Hstep|]).
    + destruct (side_amount (od_ask data)) as [a|] eqn:Ha; [|discriminate]. destruct (side_amount (od_give data)) as [g|] eqn:Hg; [|discriminate].
      destruct (decide (a = 0 \/ g = 0)); [discriminate|]. injection Hstep as <-.
      rewrite put_order_data, put_order_ask, put_order_give. exists a, g. repeat split; try assumption; lia.
    + step_cases; cbn; (destruct (decide (i = id)); [congruence|]); rewrite Hd; split; assumption.
    + discriminate.
    + step_cases; cbn; (destruct (decide (i = id)); [congruence|]); rewrite Hd; split; assumption.
    + discriminate.
    + step_cases; cbn; (destruct (decide (i = id)); [congruence|]); rewrite Hd; split; assumption.
    + discriminate.
    + step_cases; cbn; (destruct (decide (i = id)); [congruence|]); rewrite Hd; split; assumption.
Qed.

(** Price: a fill never makes the remaining offer worse for the maker. *)
Lemma payout_ratio ver a0 g0 ask give f :
  0 < a0 -> 0 < ask -> f <= ask -> g0 * ask <= give * a0 -> payout ver a0 g0 ask give f <= give ->
  give * (ask - f) <= (give - payout ver a0 g0 ask give f) * ask.
Proof.
  intros Ha0 Ha Hf Hpr Hq. assert (payout ver a0 g0 ask give f * ask <= give * f) as H.
  { destruct ver; cbn [payout].
    - rewrite N.mul_comm. apply N.mul_div_le. lia.
    - assert (a0 * (g0 * f / a0) <= g0 * f) as H1 by (apply N.mul_div_le; lia).
      set (q := g0 * f / a0) in *. clearbody q. apply (N.mul_le_mono_pos_l _ _ a0); [lia|].
      apply (N.le_trans _ (g0 * f * ask)); nia. }
  revert Hq H. generalize (payout ver a0 g0 ask give f). intros q Hq H. nia.
Qed.

Lemma paid_into_cons id o ops : paid_into id (o :: ops) = paid_into id [o] + paid_into id ops.
Proof. destruct o; cbn; try reflexivity. rewrite N.add_0_r. reflexivity. Qed.

Lemma steps_existing ops : forall s s' id d,
  sound_book s -> os_data s id = Some d -> Forall (fun o => ~ concludes id o) ops -> steps ord_step s ops = Ok s' ->
  exists d', os_data s' id = Some d' /\ od_ask d' = od_ask d /\ od_give d' = od_give d /\ (od_frozen d = true -> d' = d) /\
    (od_frozen d = true \/ os_ask s id = 0 -> paid_into id ops = 0 /\ os_give s' id = os_give s id) /\
    os_ask s' id + paid_into id ops = os_ask s id /\ os_give s' id <= os_give s id /\
    os_give s id * os_ask s' id <= os_give s' id * os_ask s id /\
    (forall a0 g0, side_amount (od_ask d) = Some a0 -> side_amount (od_give d) = Some g0 -> Forall (new_rules id) ops ->
       (os_give s id - os_give s' id) * a0 <= g0 * paid_into id ops).
Proof.
  induction ops as [|o ops IH]; intros s s' id d Hs Hd Hc Hst; cbn [steps] in Hst.
  - injection Hst as <-. exists d. cbn. split; [exact Hd|]. split; [reflexivity|]. split; [reflexivity|].
    split; [reflexivity|]. split; [intros _; split; reflexivity|]. split; [lia|]. split; [lia|]. split; [lia|]. intros. lia.
  - destruct (ord_step s o) as [s1| |] eqn:Hstep; try discriminate.
    apply Forall_cons in Hc as [Hc1 Hc2].
    destruct (step_existing _ _ _ _ _ Hs Hd Hc1 Hstep) as (d1 & Hd1 & E1 & E2 & Hfz & Hcase).
    pose proof (step_sound _ _ _ Hs Hstep) as Hs1.
    destruct (IH _ _ _ _ Hs1 Hd1 Hc2 Hst) as (d' & Hd' & F1 & F2 & Ffz & Fst & Hask & Hgive & Hratio & Hv1).
    exists d'. split; [exact Hd'|]. split; [congruence|]. split; [congruence|].
    rewrite paid_into_cons.
    destruct Hcase as [(Ea & Eg & Ep)|(a0 & g0 & f & ver & -> & Hfr & Ha0 & Hg0 & Hp0 & Hpa & Hle & Ea & Hq & Eg & Hpos)].
    + rewrite Ea, Eg in *. rewrite Ep. split; [|split; [|split; [|split; [|split]]]]; try assumption.
      * intros H. rewrite (Hfz H) in *. apply Ffz, H.
      * intros H. apply Fst. destruct H as [H|H]; [left; rewrite (Hfz H); exact H|right; exact H].
      * intros a0 g0. rewrite <- E1, <- E2. intros H1 H2 H3. apply Forall_cons in H3 as [_ H3]. apply (Hv1 _ _ H1 H2 H3).
    + cbn [paid_into]. destruct (decide (id = id)); [|congruence]. rewrite N.add_0_r.
      pose proof (Hs id) as Hso. rewrite Hd in Hso. destruct Hso as (a & g & Ha & Hg & _ & _ & _ & _ & Hpr).
      rewrite Ha in Ha0. injection Ha0 as <-. rewrite Hg in Hg0. injection Hg0 as <-.
      pose proof (payout_ratio ver a g _ _ f Hp0 Hpa Hle Hpr Hq) as Hr1.
      split; [|split; [|split; [|split; [|split]]]].
      * congruence.
      * intros [H|H]; [congruence|lia].
      * rewrite Ea in Hask. lia.
      * rewrite Eg in Hgive. apply (N.le_trans _ _ _ Hgive), N.le_sub_l.
      * rewrite <- Ea, <- Eg in Hr1.
        destruct (N.eq_0_gt_0_cases (os_ask s1 id)) as [Hz|Hz].
        -- assert (os_ask s' id = 0) as -> by lia. lia.
        -- apply (N.mul_le_mono_pos_l _ _ (os_ask s1 id)); [exact Hz|].
           apply (N.le_trans _ (os_give s1 id * os_ask s id * os_ask s' id)); [nia|].
           apply (N.le_trans _ (os_give s' id * os_ask s1 id * os_ask s id)); nia.
      * intros a' g' H1 H2 H3. rewrite H1 in Ha. rewrite H2 in Hg. injection Ha as ->. injection Hg as ->.
        apply Forall_cons in H3 as [H3a H3]. rewrite E1, E2 in Hv1. specialize (Hv1 _ _ H1 H2 H3).
        destruct ver; [cbn in H3a; congruence|]. cbn [payout] in *.
        assert (a * (g * f / a) <= g * f) as Hf by (apply N.mul_div_le; lia).
        set (q := g * f / a) in *. clearbody q. nia.
Qed.

Lemma ord_reachable_sound db s0 cs :
  ord_db_is db s0 -> fits_all ord_step ord_fits ((s0, []), []) cs ->
  exists s, ord_good s /\ ord_reads (ord_machine_view (ord_exec_all ((db, []), []) cs).1) s.
Proof.
  intros Hdb Hfit. destruct (ord_steps db s0 cs [] (Forall_nil_2 _) Hdb) as (s1 & _ & H1 & _ & H2 & _).
  - rewrite app_nil_r. exact Hfit.
  - eauto.
Qed.

Theorem orders_bounded db s0 cs :
  ord_db_is db s0 -> fits_all ord_step ord_fits ((s0, []), []) cs ->
  let v := ord_machine_view (ord_exec_all ((db, []), []) cs).1 in
  forall id d, ov_data v id = Ok (Some d) ->
  exists ask0 give0 ask give, side_amount (od_ask d) = Some ask0 /\ side_amount (od_give d) = Some give0 /\
    ov_ask v id = Ok ask /\ ov_give v id = Ok give /\ ask <= ask0 /\ give <= give0 /\ give0 * ask <= give * ask0.
Proof.
  intros Hdb Hfit v id d Hd. destruct (ord_reachable_sound _ _ _ Hdb Hfit) as (s & (_ & _ & Hs) & [Hr _]). fold v in Hr.
  destruct (Hr id) as (A & B & C). rewrite A in Hd. injection Hd as Hd. specialize (Hs id). rewrite Hd in Hs.
  destruct Hs as (a0 & g0 & Ha0 & Hg0 & _ & _ & H1 & H2 & H3). exists a0, g0, (os_ask s id), (os_give s id). auto 10.
Qed.

Theorem fills_account db s0 cs fs :
  ord_db_is db s0 -> fits_all ord_step ord_fits ((s0, []), []) (cs ++ fs) -> Forall forward fs ->
  let m1 := (ord_exec_all ((db, []), []) cs).1 in
  let m2 := ord_exec_all m1 fs in
  let v1 := ord_machine_view m1 in let v2 := ord_machine_view m2.1 in
  let done := accepted fs m2.2 in
  forall id d ask0 give0, ov_data v1 id = Ok (Some d) -> side_amount (od_ask d) = Some ask0 -> side_amount (od_give d) = Some give0 ->
  Forall (fun o => ~ concludes id o) done ->
  exists d' ask1 give1 ask2 give2, ov_ask v1 id = Ok ask1 /\ ov_give v1 id = Ok give1 /\
    ov_ask v2 id = Ok ask2 /\ ov_give v2 id = Ok give2 /\
    ov_data v2 id = Ok (Some d') /\ od_ask d' = od_ask d /\ od_give d' = od_give d /\
    (od_frozen d = true -> d' = d) /\ (od_frozen d = true \/ ask1 = 0 -> paid_into id done = 0 /\ give2 = give1) /\
    ask2 + paid_into id done = ask1 /\ give2 <= give1 /\
    (give1 - give2) * ask1 <= give1 * paid_into id done /\
    (Forall (new_rules id) done -> (give1 - give2) * ask0 <= give0 * paid_into id done).
Proof.
  intros Hdb Hfit Hfw m1 m2 v1 v2 done id d a0 g0 Hd Ha0 Hg0 Hc.
  destruct (ord_steps db s0 cs fs Hfw Hdb Hfit) as (s1 & s2 & H1 & H2 & (_ & _ & Hs) & Hst).
  fold m1 in H1, H2, Hst. fold m2 in H2, Hst. fold v1 in H1. fold v2 in H2. fold done in Hst.
  destruct H1 as [H1 _], H2 as [H2 _]. destruct (H1 id) as (A & B & C), (H2 id) as (A' & B' & C').
  rewrite A in Hd. injection Hd as Hd.
  destruct (steps_existing _ _ _ _ _ Hs Hd Hc Hst) as (d' & Hd' & E1 & E2 & Hfz & Hfs & Hask & Hgive & Hr & Hv1).
  exists d', (os_ask s1 id), (os_give s1 id), (os_ask s2 id), (os_give s2 id).
  do 4 (split; [assumption|]). split; [congruence|]. split; [exact E1|]. split; [exact E2|]. split; [exact Hfz|]. split; [exact Hfs|].
  split; [exact Hask|]. split; [exact Hgive|]. split; [|apply Hv1; assumption].
  rewrite <- Hask in *. revert Hr Hgive. generalize (os_give s1 id) (os_give s2 id) (os_ask s2 id) (paid_into id done). intros. nia.
Qed.

Theorem undo_restores_orders db s0 cs ns :
  ord_db_is db s0 -> fits_all ord_step ord_fits ((s0, []), []) (cs ++ ns) -> neutral ns ->
  let m1 := (ord_exec_all ((db, []), []) cs).1 in
  Forall (fun o => o = Done) (ord_exec_all m1 ns).2 ->
  ord_answers_agree (ord_machine_view m1) (ord_machine_view (ord_exec_all m1 ns).1).
Proof.
  intros Hdb Hfit Hn m1 Hall. destruct (ord_layered_undo db s0 cs ns Hdb Hfit Hn Hall) as (s & H1 & H2).
  exact (ord_reads_agree _ _ _ H1 H2).
Qed.

Theorem next_fill db s0 cs id fill ver :
  ord_db_is db s0 -> fits_all ord_step ord_fits ((s0, []), []) cs ->
  let m1 := (ord_exec_all ((db, []), []) cs).1 in
  m1.2 <> [] ->
  let v := ord_machine_view m1 in
  let v' := ord_machine_view (ord_exec m1 (Do (FillOrder id fill ver))).1 in
  forall d ask0 give0 ask give, ov_data v id = Ok (Some d) -> side_amount (od_ask d) = Some ask0 -> side_amount (od_give d) = Some give0 ->
    ov_ask v id = Ok ask -> ov_give v id = Ok give ->
  let p := payout ver ask0 give0 ask give fill in
  let ok := od_frozen d = false /\ fill <= ask /\ match ver with OrdersV0 => 0 < ask | OrdersV1 => 0 < p end in
  ((ord_exec m1 (Do (FillOrder id fill ver))).2 = Done <-> ok) /\
  (ok -> p <= give /\ ov_ask v' id = Ok (ask - fill) /\ ov_give v' id = Ok (give - p) /\ ov_data v' id = Ok (Some d)) /\
  (~ ok -> ord_answers_agree v v').
Proof.
  intros Hdb Hfit m1 Hne v v' d a0 g0 ask give Hd Ha0 Hg0 Ha Hg p ok.
  destruct (ord_next db s0 cs (FillOrder id fill ver) Hdb Hfit Hne (fun _ _ => I)) as (s & Hr & Ho & Hr').
  fold m1 in Hr, Ho, Hr'. fold v in Hr. fold v' in Hr'.
  destruct (ord_reachable_sound _ _ _ Hdb Hfit) as (s1 & (_ & _ & Hs1) & Hr1). fold m1 in Hr1. fold v in Hr1.
  pose proof (ord_reads_pointwise _ _ _ Hr Hr1 id) as (P1 & P2 & P3).
  destruct (proj1 Hr id) as (A & B & C). rewrite A in Hd. rewrite B in Ha. rewrite C in Hg.
  injection Hd as Hd. injection Ha as Ha. injection Hg as Hg.
  specialize (Hs1 id). rewrite <- P1, <- P2, <- P3, Hd, Ha, Hg in Hs1.
  destruct Hs1 as (a & g & E1 & E2 & Hpa & Hpg & Hla & Hlg & Hpr). rewrite E1 in Ha0. rewrite E2 in Hg0.
  injection Ha0 as ->. injection Hg0 as ->.
  rewrite Ho. clear Ho. cbn [ord_step] in Hr' |- *. rewrite Hd, E1, E2, Ha, Hg in Hr' |- *.
  assert (Hno : forall e, ord_reads v' s -> ~ ok -> ((outcome_of (Err e : res ord_err ord_state) = Done <-> ok) /\
    (ok -> p <= give /\ ov_ask v' id = Ok (ask - fill) /\ ov_give v' id = Ok (give - p) /\ ov_data v' id = Ok (Some d)) /\
    (~ ok -> ord_answers_agree v v'))).
  { intros e Hv Hn. split; [split; [discriminate|contradiction]|]. split; [contradiction|]. intros _. exact (ord_reads_agree _ _ _ Hr Hv). }
  assert (Hyes : forall q, q = p -> p <= give -> ord_reads v' (put_order s id (Some d) (ask - fill) (give - q)) -> ok ->
    ((outcome_of (Ok (put_order s id (Some d) (ask - fill) (give - q)) : res ord_err ord_state) = Done <-> ok) /\
    (ok -> p <= give /\ ov_ask v' id = Ok (ask - fill) /\ ov_give v' id = Ok (give - p) /\ ov_data v' id = Ok (Some d)) /\
    (~ ok -> ord_answers_agree v v'))).
  { intros q -> Hp Hv Hok. split; [split; [intros _; exact Hok|reflexivity]|]. split; [|contradiction]. intros _.
    destruct (proj1 Hv id) as (X & Y & Z). rewrite put_order_data in X. rewrite put_order_ask in Y. rewrite put_order_give in Z. auto. }
  clearbody v v' m1. subst p ok.
  destruct (od_frozen d) eqn:Hfr; [apply Hno; [exact Hr'|intros [H _]; discriminate]|].
  destruct (decide (ask < fill)) as [Hlt|Hge]; [apply Hno; [exact Hr'|lia]|].
  assert (fill <= ask) as Hle by lia.
  destruct ver; cbn [payout] in *.
  - destruct (decide (ask = 0)) as [Hz|Hz]; [apply Hno; [exact Hr'|lia]|].
    apply Hyes; [reflexivity| |exact Hr'|split; [reflexivity|split; [exact Hle|lia]]].
    apply (fill_v0_sound a0 g0 ask give fill); [lia|exact Hle|exact Hpr].
  - set (q := g0 * fill / a0) in *.
    assert (q <= give) as Hq by apply (fill_v1_sound a0 g0 ask give fill Hpa Hle Hlg Hla Hpr). clearbody q.
    destruct (decide (q = 0)) as [Hz|Hz].
    + apply Hno; [exact Hr'|]. intros (_ & _ & H). lia.
    + apply Hyes; [reflexivity|exact Hq|exact Hr'|split; [reflexivity|split; [exact Hle|lia]]].
Qed.

Theorem next_conclude db s0 cs id :
  ord_db_is db s0 -> fits_all ord_step ord_fits ((s0, []), []) cs ->
  let m1 := (ord_exec_all ((db, []), []) cs).1 in
  m1.2 <> [] ->
  let m2 := (ord_exec m1 (Do (ConcludeOrder id))).1 in
  let v2 := ord_machine_view m2 in
  ((exists d, ov_data (ord_machine_view m1) id = Ok (Some d)) <-> (ord_exec m1 (Do (ConcludeOrder id))).2 = Done) /\
  ((ord_exec m1 (Do (ConcludeOrder id))).2 = Done ->
   ov_data v2 id = Ok None /\ ov_ask v2 id = Ok 0 /\ ov_give v2 id = Ok 0 /\ exists ids, ov_ids v2 = Ok ids /\ id ∉ ids).
Proof.
  intros Hdb Hfit m1 Hne m2 v2.
  destruct (ord_next db s0 cs (ConcludeOrder id) Hdb Hfit Hne (fun _ _ => I)) as (s & Hr & Ho & Hr').
  fold m1 in Hr, Ho, Hr'. fold m2 in Hr'. fold v2 in Hr'. rewrite Ho. cbn [ord_step] in Hr' |- *.
  destruct (proj1 Hr id) as (A & B & C). rewrite A. destruct (os_data s id) as [d|] eqn:Hd; cbn [outcome_of].
  - split; [split; [reflexivity|eauto]|]. intros _. destruct Hr' as [H1 (ids & H2 & H3)]. destruct (H1 id) as (X & Y & Z).
    specialize (H3 id). rewrite put_order_data in X, H3. rewrite put_order_ask in Y. rewrite put_order_give in Z.
    split; [exact X|]. split; [exact Y|]. split; [exact Z|]. exists ids. split; [exact H2|]. rewrite H3.
    intros [x Hx]. discriminate.
  - split; [split; [intros [x Hx]; discriminate|discriminate]|discriminate].
Qed.

Theorem absent_refuses db s0 cs id o :
  ord_db_is db s0 -> fits_all ord_step ord_fits ((s0, []), []) cs ->
  let m1 := (ord_exec_all ((db, []), []) cs).1 in
  m1.2 <> [] -> on_order id o -> ov_data (ord_machine_view m1) id = Ok None ->
  ov_ask (ord_machine_view m1) id = Ok 0 /\ ov_give (ord_machine_view m1) id = Ok 0 /\
  (exists e, (ord_exec m1 (Do o)).2 = Refused e) /\ ord_answers_agree (ord_machine_view m1) (ord_machine_view (ord_exec m1 (Do o)).1).
Proof.
  intros Hdb Hfit m1 Hne Hon Hd.
  destruct (ord_next db s0 cs o Hdb Hfit Hne) as (s & Hr & Ho & Hr').
  { intros s _. destruct o; [contradiction|exact I|exact I|exact I]. }
  destruct (ord_reachable_sound _ _ _ Hdb Hfit) as (s1 & (_ & _ & Hs1) & Hr1). fold m1 in Hr1, Hr, Ho, Hr'.
  pose proof (ord_reads_pointwise _ _ _ Hr Hr1 id) as (P1 & P2 & P3).
  destruct (proj1 Hr id) as (A & B & C). rewrite A in Hd. injection Hd as Hd.
  specialize (Hs1 id). rewrite <- P1, <- P2, <- P3, Hd in Hs1. destruct Hs1 as [Z1 Z2].
  split; [congruence|]. split; [congruence|]. rewrite Ho.
  destruct o as [i data|i|i fill ver|i]; cbn in Hon; try contradiction; subst i; cbn [ord_step] in Hr' |- *; rewrite Hd in Hr' |- *;
    cbn [outcome_of]; (split; [eauto|exact (ord_reads_agree _ _ _ Hr Hr')]).
Qed.

Theorem frozen_refuses db s0 cs id o d :
  ord_db_is db s0 -> fits_all ord_step ord_fits ((s0, []), []) cs ->
  let m1 := (ord_exec_all ((db, []), []) cs).1 in
  m1.2 <> [] -> fill_or_freeze id o -> ov_data (ord_machine_view m1) id = Ok (Some d) -> od_frozen d = true ->
  (exists e, (ord_exec m1 (Do o)).2 = Refused e) /\ ord_answers_agree (ord_machine_view m1) (ord_machine_view (ord_exec m1 (Do o)).1).
Proof.
  intros Hdb Hfit m1 Hne Hon Hd Hfz.
  destruct (ord_next db s0 cs o Hdb Hfit Hne) as (s & Hr & Ho & Hr').
  { intros s _. destruct o; try contradiction; exact I. }
  fold m1 in Hr, Ho, Hr'. destruct (proj1 Hr id) as (A & B & C). rewrite A in Hd. injection Hd as Hd. rewrite Ho.
  destruct o as [i data|i|i fill ver|i]; cbn in Hon; try contradiction; subst i; cbn [ord_step] in Hr' |- *; rewrite Hd, Hfz in Hr' |- *;
    cbn [outcome_of]; (split; [eauto|exact (ord_reads_agree _ _ _ Hr Hr')]).
Qed.

Theorem refused_changes_nothing db s0 cs o e :
  ord_db_is db s0 -> fits_all ord_step ord_fits ((s0, []), []) cs ->
  let m1 := (ord_exec_all ((db, []), []) cs).1 in
  (forall s, ord_reads (ord_machine_view m1) s -> ord_fits s o) -> (ord_exec m1 (Do o)).2 = Refused e ->
  ord_answers_agree (ord_machine_view m1) (ord_machine_view (ord_exec m1 (Do o)).1).
Proof.
  intros Hdb Hfit m1 Hf He. destruct (decide (m1.2 = [])) as [Hnil|Hne].
  { destruct m1 as [[db1 l1] ls]. cbn in Hnil. subst ls. discriminate. }
  destruct (ord_next db s0 cs o Hdb Hfit Hne Hf) as (s & Hr & Ho & Hr'). fold m1 in Hr, Ho, Hr'.
  rewrite Ho in He. destruct (ord_step s o) as [s'|e'|]; try discriminate. exact (ord_reads_agree _ _ _ Hr Hr').
Qed.

Definition ord_fitsb (s : ord_state) (o : ord_op) : bool :=
  match o with
  | CreateOrder id d => match ord_step s o with
      | Ok s' => (Z.of_N (os_ask s' id) <=? I128_MAX)%Z && (Z.of_N (os_give s' id) <=? I128_MAX)%Z
      | _ => true end
  | _ => true
  end.
Lemma ord_fitsb_sound s o : ord_fitsb s o = true -> ord_fits s o.
Proof.
  destruct o as [id d|id|id f v|id]; try (intros _; exact I). unfold ord_fitsb, ord_fits.
  intros H s' Hs. rewrite Hs in H. apply andb_true_iff in H as [H1 H2]. lia.
Qed.

Lemma ord_forward_reads db s0 cs fs :
  ord_db_is db s0 -> fits_all ord_step ord_fits ((s0, []), []) (cs ++ fs) -> Forall forward fs ->
  let m1 := (ord_exec_all ((db, []), []) cs).1 in
  forall id d, ov_data (ord_machine_view m1) id = Ok (Some d) ->
  exists ask0 give0, side_amount (od_ask d) = Some ask0 /\ side_amount (od_give d) = Some give0.
Proof.
  intros Hdb Hfit Hfw m1 id d Hd. apply fits_all_app in Hfit as [Hf1 _].
  destruct (orders_bounded _ _ _ Hdb Hf1 _ _ Hd) as (a & g & _ & _ & H1 & H2 & _). eauto.
Qed.

Theorem fills_account_exactly db s0 cs fs :
  ord_db_is db s0 -> fits_all ord_step ord_fits ((s0, []), []) (cs ++ fs) -> Forall forward fs ->
  let m1 := (ord_exec_all ((db, []), []) cs).1 in
  let m2 := ord_exec_all m1 fs in
  let v1 := ord_machine_view m1 in let v2 := ord_machine_view m2.1 in
  let done := accepted fs m2.2 in
  forall id d, ov_data v1 id = Ok (Some d) -> Forall (fun o => ~ concludes id o) done ->
  exists d' ask1 give1 ask2 give2, ov_ask v1 id = Ok ask1 /\ ov_give v1 id = Ok give1 /\
    ov_ask v2 id = Ok ask2 /\ ov_give v2 id = Ok give2 /\
    ov_data v2 id = Ok (Some d') /\ od_ask d' = od_ask d /\ od_give d' = od_give d /\
    ask2 + paid_into id done = ask1 /\ give2 <= give1.
Proof.
  intros Hdb Hfit Hfw m1 m2 v1 v2 done id d Hd Hc.
  destruct (ord_forward_reads _ _ _ _ Hdb Hfit Hfw _ _ Hd) as (a0 & g0 & Ha0 & Hg0).
  destruct (fills_account _ _ _ _ Hdb Hfit Hfw _ _ _ _ Hd Ha0 Hg0 Hc)
    as (d' & a1 & g1 & a2 & g2 & H1 & H2 & H3 & H4 & H5 & H6 & H7 & _ & _ & H8 & H9 & _).
  exists d', a1, g1, a2, g2. auto 10.
Qed.

Theorem payout_floor ver ask0 give0 ask give fill :
  0 < ask0 -> 0 < ask ->
  let p := payout ver ask0 give0 ask give fill in
  match ver with
  | OrdersV1 => p * ask0 <= give0 * fill < (p + 1) * ask0
  | OrdersV0 => p * ask <= give * fill < (p + 1) * ask
  end.
Proof.
  intros Ha0 Ha p. destruct ver; cbn in p; subst p.
  - pose proof (N.div_mod (give * fill) ask) as H. pose proof (N.mod_lt (give * fill) ask) as H2.
    revert H H2. generalize (give * fill / ask) ((give * fill) mod ask). intros. lia.
  - pose proof (N.div_mod (give0 * fill) ask0) as H. pose proof (N.mod_lt (give0 * fill) ask0) as H2.
    revert H H2. generalize (give0 * fill / ask0) ((give0 * fill) mod ask0). intros. lia.
Qed.

Theorem splitting_no_gain db s0 cs fs :
  ord_db_is db s0 -> fits_all ord_step ord_fits ((s0, []), []) (cs ++ fs) -> Forall forward fs ->
  let m1 := (ord_exec_all ((db, []), []) cs).1 in
  let m2 := ord_exec_all m1 fs in
  let v1 := ord_machine_view m1 in let v2 := ord_machine_view m2.1 in
  let done := accepted fs m2.2 in
  forall id d ask0 give0 ask1 give1 give2,
  ov_data v1 id = Ok (Some d) -> side_amount (od_ask d) = Some ask0 -> side_amount (od_give d) = Some give0 ->
  Forall (fun o => ~ concludes id o) done ->
  ov_ask v1 id = Ok ask1 -> ov_give v1 id = Ok give1 -> ov_give v2 id = Ok give2 ->
  let received := give1 - give2 in let paid := paid_into id done in
  received <= payout OrdersV0 ask0 give0 ask1 give1 paid /\
  (Forall (new_rules id) done -> received <= payout OrdersV1 ask0 give0 ask1 give1 paid).
Proof.
  intros Hdb Hfit Hfw m1 m2 v1 v2 done id d ask0 give0 ask1 give1 give2 Hd Ha0 Hg0 Hc Ea1 Eg1 Eg2 received paid.
  destruct (fills_account _ _ _ _ Hdb Hfit Hfw _ _ _ _ Hd Ha0 Hg0 Hc)
    as (d' & a1 & g1 & a2 & g2 & H1 & H2 & H3 & H4 & H5 & H6 & H7 & _ & Hfs & H8 & H9 & H10 & H11).
  change (ov_ask v1 id = Ok a1) in H1. change (ov_give v1 id = Ok g1) in H2. change (ov_give v2 id = Ok g2) in H4.
  fold m1 m2 done paid in H8, H10, H11, Hfs.
  rewrite H1 in Ea1. rewrite H2 in Eg1. rewrite H4 in Eg2. injection Ea1 as ->. injection Eg1 as ->. injection Eg2 as ->.
  fold received in H10, H11.
  apply fits_all_app in Hfit as [Hf1 _].
  destruct (ord_reachable_sound _ _ _ Hdb Hf1) as (s & (_ & _ & Hs) & Hr).
  specialize (Hs id). destruct (proj1 Hr id) as (A & B & C). fold m1 in A, B, C. fold v1 in A, B, C.
  rewrite A in Hd. injection Hd as Hd. rewrite Hd in Hs. destruct Hs as (x & y & E1 & E2 & Hx & Hy & _).
  rewrite E1 in Ha0. injection Ha0 as ->. rewrite E2 in Hg0. injection Hg0 as ->.
  split.
  - cbn [payout]. destruct (N.eq_0_gt_0_cases ask1) as [Hz|Hz].
    + destruct (Hfs (or_intror Hz)) as [_ Hg]. subst received. lia.
    + apply N.div_le_lower_bound; lia.
  - intros Hn. specialize (H11 Hn). cbn [payout]. apply N.div_le_lower_bound; lia.
Qed.

Theorem frozen_stays db s0 cs fs :
  ord_db_is db s0 -> fits_all ord_step ord_fits ((s0, []), []) (cs ++ fs) -> Forall forward fs ->
  let m1 := (ord_exec_all ((db, []), []) cs).1 in
  let m2 := ord_exec_all m1 fs in
  let v1 := ord_machine_view m1 in let v2 := ord_machine_view m2.1 in
  forall id d, ov_data v1 id = Ok (Some d) -> od_frozen d = true -> Forall (fun o => ~ concludes id o) (accepted fs m2.2) ->
  ov_data v2 id = ov_data v1 id /\ ov_ask v2 id = ov_ask v1 id /\ ov_give v2 id = ov_give v1 id.
Proof.
  intros Hdb Hfit Hfw m1 m2 v1 v2 id d Hd Hfz Hc.
  destruct (ord_forward_reads _ _ _ _ Hdb Hfit Hfw _ _ Hd) as (a0 & g0 & Ha0 & Hg0).
  destruct (fills_account _ _ _ _ Hdb Hfit Hfw _ _ _ _ Hd Ha0 Hg0 Hc)
    as (d' & a1 & g1 & a2 & g2 & H1 & H2 & H3 & H4 & H5 & H6 & H7 & H8 & H9 & H10 & H11 & H12).
  rewrite (H8 Hfz) in H5. destruct (H9 (or_introl Hfz)) as [Hp Hg]. subst g2.
  fold m1 in H1, H2, H3, H4, H5, H10, Hp. fold m2 in H3, H4, H5, H10, Hp. fold v1 in H1, H2. fold v2 in H3, H4, H5.
  rewrite Hp in H10. rewrite H1, H2, H3, H4, H5, Hd. split; [reflexivity|]. split; [f_equal; lia|reflexivity].
Qed.
