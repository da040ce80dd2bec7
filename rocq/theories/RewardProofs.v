From Verif Require Import Base BaseProofs AmountModel DeltaModel DeltaProofs LayerProofs LayeredModel UintModel UintSpec UintProofs UintShiftProofs
  PosModel PosSpec PosProofs RewardModel RewardSpec.
Local Open Scope N_scope.

(** ** Arithmetic *)
Lemma mul_step a b : a <= U128_MAX -> b <= U128_MAX ->
  exists n, uchecked_mul (from_u128 4 a) (from_u128 4 b) = Ok n /\ words 4 n /\ uval n = a * b.
Proof.
  intros Ha Hb. destruct (from_u128_spec 4 a ltac:(lia) Ha) as [Wa Va]. destruct (from_u128_spec 4 b ltac:(lia) Hb) as [Wb Vb].
  destruct (uchecked_mul_spec 4 _ _ Wa Wb) as [H _]. rewrite Va, Vb in H. apply H.
  apply (N.le_lt_trans _ (U128_MAX * U128_MAX)); [apply N.mul_le_mono; assumption|]. vm_compute. reflexivity.
Qed.
Lemma div_step n c : words 4 n -> c <= U128_MAX -> c <> 0 ->
  exists q, uchecked_div n (from_u128 4 c) = Ok q /\ words 4 q /\ uval q = uval n / c.
Proof.
  intros Wn Hc Hc0. destruct (from_u128_spec 4 c ltac:(lia) Hc) as [Wc Vc].
  destruct (uchecked_div_spec 4 _ _ ltac:(lia) Wn Wc) as [H _]. rewrite Vc in H. exact (H Hc0).
Qed.
Lemma narrow_step q v : words 4 q -> uval q = v -> v <= U128_MAX -> u128_of_u256 q = Ok v.
Proof. intros Wq <- Hv. destruct (u128_of_u256_spec q Wq) as [H _]. exact (H Hv). Qed.
Lemma scaled_le a b c : c <> 0 -> b <= c -> a * b / c <= a.
Proof. intros Hc Hb. apply N.div_le_upper_bound; [exact Hc|]. rewrite (N.mul_comm c). apply N.mul_le_mono_l. exact Hb. Qed.

Lemma amount_add_ok a b : a + b <= U128_MAX -> amount_add a b = Some (a + b).
Proof. intros H. unfold amount_add, checked_add. destruct (N.leb_spec (a + b) U128_MAX); [reflexivity|lia]. Qed.
Lemma amount_sub_ok a b : b <= a -> amount_sub a b = Some (a - b).
Proof. intros H. unfold amount_sub, checked_sub. destruct (N.leb_spec b a); [reflexivity|lia]. Qed.
Lemma amount_sub_none a b : a < b -> amount_sub a b = None.
Proof. intros H. unfold amount_sub, checked_sub. destruct (N.leb_spec b a); [lia|reflexivity]. Qed.
Lemma amount_sum_from_ok l : forall acc, acc + foldr N.add 0 l <= U128_MAX -> amount_sum_from acc l = Some (acc + foldr N.add 0 l).
Proof.
  induction l as [|a l IH]; intros acc H; cbn in H |- *; [rewrite N.add_0_r; reflexivity|].
  rewrite (amount_add_ok acc a) by lia. rewrite IH by lia. f_equal. lia.
Qed.

Lemma staker_part_le ver total b sb cost margin : margin <= 1000 -> sb <= b -> (ver = RewardV1 -> 0 < b) ->
  staker_part ver total b sb cost margin <= total.
Proof.
  intros Hm Hs Hb. unfold staker_part. destruct (N.ltb_spec total cost) as [H|H]; [lia|]. destruct ver.
  - pose proof (scaled_le (total - cost) margin 1000 ltac:(lia) Hm) as H1. revert H1. generalize ((total - cost) * margin / 1000).
    intros y H1. lia.
  - specialize (Hb eq_refl). pose proof (scaled_le (total - cost) sb b ltac:(lia) Hs) as H0. revert H0.
    generalize ((total - cost) * sb / b). intros own H0. cbv zeta.
    pose proof (scaled_le (total - cost - own) margin 1000 ltac:(lia) Hm) as H1. revert H1.
    generalize ((total - cost - own) * margin / 1000). intros y H1. lia.
Qed.

Lemma staker_reward_v0_ok total cost m b sb : total <= U128_MAX -> m <= 1000 -> (total - cost) * m <= U128_MAX ->
  staker_reward_v0 total cost m = Some (staker_part RewardV0 total b sb cost m).
Proof.
  intros Ht Hm Hov. unfold staker_reward_v0, staker_part. destruct (N.ltb_spec total cost) as [H|H].
  - rewrite amount_sub_none by exact H. reflexivity.
  - rewrite amount_sub_ok by exact H. unfold amount_mul, checked_mul. rewrite (proj2 (N.leb_le _ _) Hov).
    unfold amount_div, checked_div. change (1000 =? 0) with false. cbn [negb].
    pose proof (scaled_le (total - cost) m 1000 ltac:(lia) Hm) as H1. revert H1. generalize ((total - cost) * m / 1000). intros y H1.
    rewrite amount_add_ok by lia. f_equal. lia.
Qed.
Lemma staker_reward_v1_ok total b sb cost m : total <= U128_MAX -> b <= U128_MAX -> m <= 1000 -> sb <= b -> 0 < b ->
  staker_reward_v1 total b sb cost m = Ok (staker_part RewardV1 total b sb cost m).
Proof.
  intros Ht Hb Hm Hsb Hb0. unfold staker_reward_v1, staker_part. rewrite (proj2 (N.leb_le _ _) Hsb), (proj2 (N.ltb_lt _ _) Hb0).
  cbn [ensure rbind]. destruct (N.ltb_spec total cost) as [H|H]; [rewrite amount_sub_none by exact H; reflexivity|].
  rewrite amount_sub_ok by exact H. set (rest := total - cost). assert (Hr : rest <= U128_MAX) by (unfold rest; lia).
  destruct (mul_step rest sb Hr ltac:(lia)) as (n & -> & Wn & Vn). cbn [uexpect rbind].
  destruct (div_step n b Wn Hb ltac:(lia)) as (q & -> & Wq & Vq). cbn [uexpect rbind]. rewrite Vn in Vq.
  pose proof (scaled_le rest sb b ltac:(lia) Hsb) as Ho. cbv zeta. set (own := rest * sb / b) in *.
  rewrite (narrow_step q own Wq Vq ltac:(lia)). cbn [uexpect rbind]. rewrite amount_sub_ok by exact Ho. cbn [expect rbind].
  assert (Hd : rest - own <= U128_MAX) by lia.
  destruct (from_u128_spec 4 (rest - own) ltac:(lia) Hd) as [Wd Vd].
  destruct (from_u64_words 4 m ltac:(lia)) as [Wm Vm]; [apply (N.le_lt_trans _ 1000); [exact Hm|vm_compute; reflexivity]|].
  destruct (from_u64_words 4 1000 ltac:(lia)) as [W1 V1]; [vm_compute; reflexivity|].
  destruct (uchecked_mul_spec 4 _ _ Wd Wm) as [Hmul _]. rewrite Vd, Vm in Hmul.
  destruct Hmul as (v & -> & Wv & Vv).
  { apply (N.le_lt_trans _ (U128_MAX * 1000)); [apply N.mul_le_mono; assumption|]. vm_compute. reflexivity. }
  cbn [rbind]. destruct (uchecked_div_spec 4 _ _ ltac:(lia) Wv W1) as [Hdiv _]. rewrite V1, Vv in Hdiv.
  destruct Hdiv as (mq & -> & Wmq & Vmq); [discriminate|]. cbn [uexpect rbind].
  pose proof (scaled_le (rest - own) m 1000 ltac:(lia) Hm) as Hmm. set (mg := (rest - own) * m / 1000) in *.
  assert (Hrt : cost + rest = total) by (unfold rest; lia).
  clearbody mg own rest. rewrite (narrow_step mq mg Wmq Vmq ltac:(lia)). cbn [uexpect rbind].
  rewrite amount_add_ok by lia. rewrite amount_add_ok by lia. cbn [ok_or]. f_equal. lia.
Qed.

Lemma rewards_ok shares all part : all <= U128_MAX -> part <= U128_MAX -> all <> 0 ->
  (forall d a, (d, a) ∈ shares -> a <= all) ->
  rewards_per_delegation shares all part = Ok (map (fun da => (da.1, delegation_reward part da.2 all)) shares).
Proof.
  intros Ha Hp Hz H. unfold rewards_per_delegation. rewrite (proj2 (N.eqb_neq _ _) Hz). cbn [negb ensure rbind].
  induction shares as [|[d a] l IH]; [reflexivity|]. cbn [rmapM map fst snd].
  assert (Hle : a <= all) by (apply (H d); left).
  destruct (mul_step part a Hp ltac:(lia)) as (n & -> & Wn & Vn). cbn [uexpect rbind].
  destruct (div_step n all Wn Ha Hz) as (q & -> & Wq & Vq). cbn [rmap_err rbind]. rewrite Vn in Vq.
  pose proof (scaled_le part a all Hz Hle) as Hs. rewrite (narrow_step q _ Wq Vq ltac:(lia)). cbn [rmap_err rbind].
  rewrite IH; [reflexivity|]. intros d' a' Hin. apply (H d'). right. exact Hin.
Qed.

(** ** The adapter *)
Definition adapter_inv (src : tx_source) (p : pos_state) (A : pos_adapter) (s : pos_state) : Prop :=
  pos_inv p (pa_delta A) s /\ exists b, pos_inv b (default pos_delta_new (pa_blocks A !! src)) s.

Lemma adapter_reads src P p A s : pos_reads P p -> adapter_inv src p A s -> pos_reads (adapter_view P A) s.
Proof. intros HP [H _]. exact (pos_reads_cache P p _ s HP H). Qed.
Lemma adapter_inv_new src p : pos_good p -> adapter_inv src p pos_adapter_new p.
Proof. intros H. split; [exact (pos_inv_empty p H)|]. exists p. cbn. exact (pos_inv_empty p H). Qed.
Lemma adapter_inv_fresh src p A s : pos_inv p (pa_delta A) s -> pa_blocks A !! src = None -> adapter_inv src p A s.
Proof. intros H E. split; [exact H|]. exists s. rewrite E. exact (pos_inv_empty s (pos_inv_good _ _ _ H)). Qed.

Lemma adapter_merge_refines src p A s d t : adapter_inv src p A s -> pos_inv s d t ->
  exists A', adapter_merge A src d = (A', Ok tt) /\ adapter_inv src p A' t.
Proof.
  intros [H1 [b H2]] Hd. unfold adapter_merge.
  destruct (pos_merge_refines _ _ _ _ _ H1 Hd) as (d1 & u1 & -> & I1). cbn [sbind pa_blocks pa_delta].
  destruct (pos_merge_refines _ _ _ _ _ H2 Hd) as (d2 & u2 & -> & I2). cbn [rmap].
  eexists. split; [reflexivity|]. split; [exact I1|]. exists b. cbn [pa_blocks]. rewrite lookup_insert. exact I2.
Qed.
Lemma adapter_op_refines src P p A s o : pos_reads P p -> adapter_inv src p A s -> pos_fits s o ->
  match pos_step s o with
  | Ok s' => exists A' u, adapter_op P A src o = (A', Ok u) /\ adapter_inv src p A' s' /\ pos_undoes u s' s
  | Err e => adapter_op P A src o = (A, Err e)
  | Panic => False
  end.
Proof.
  intros HP HA Hf. pose proof (adapter_reads _ _ _ _ _ HP HA) as HV. pose proof (pos_inv_good _ _ _ (proj1 HA)) as Hg.
  pose proof (pos_op_refines _ _ _ _ o HV (pos_inv_empty s Hg) Hf) as H. unfold adapter_op. destruct (pos_step s o) as [s'|e|].
  - destruct H as (d & u & -> & Hi & Hu). destruct (adapter_merge_refines _ _ _ _ _ _ HA Hi) as (A' & -> & HA').
    cbn [sbind]. exists A', u. auto.
  - destruct H as (d & -> & _). reflexivity.
  - exact H.
Qed.
Lemma adapter_undo_refines src P p A s' u s : pos_reads P p -> adapter_inv src p A s' -> pos_undoes u s' s ->
  exists A', adapter_undo P A src u = (A', Ok tt) /\ adapter_inv src p A' s.
Proof.
  intros HP HA Hu. pose proof (adapter_reads _ _ _ _ _ HP HA) as HV. pose proof (pos_inv_good _ _ _ (proj1 HA)) as Hg.
  destruct (pos_undo_refines _ _ _ _ _ _ HV (pos_inv_empty s' Hg) Hu) as (d & E & Hi). unfold adapter_undo. rewrite E.
  exact (adapter_merge_refines _ _ _ _ _ _ HA Hi).
Qed.

(** ** Crediting a list of rewards *)
Definition got (l : list (delegation_id * amount)) (d : delegation_id) : N := sum_over (fun x => if decide (x.1 = d) then x.2 else 0) l.
Definition tot (l : list (delegation_id * amount)) : N := sum_over snd l.

(** [s] with the list credited to delegations of [p] and [R] to the staker of [p]. *)
Definition paid (s : pos_state) (p : pool_id) (x : pool_data) (l : list (delegation_id * amount)) (R : N) (t : pos_state) : Prop :=
  (forall q, ps_pool t q = if decide (q = p) then Some (with_rewards x (pd_rewards x + R)) else ps_pool s q) /\
  (forall q, ps_pool_balance t q = ps_pool_balance s q + (if decide (q = p) then tot l + R else 0)) /\
  (forall d, ps_deleg t d = ps_deleg s d) /\
  (forall d, ps_deleg_balance t d = ps_deleg_balance s d + got l d) /\
  (forall q d, ps_share t (q, d) = ps_share s (q, d) + (if decide (q = p) then got l d else 0)).
Definition members (s : pos_state) (p : pool_id) (l : list (delegation_id * amount)) : Prop :=
  forall d a, (d, a) ∈ l -> exists y, ps_deleg s d = Some y /\ dd_pool y = p.

Lemma tot_cons d a l : tot ((d, a) :: l) = a + tot l. Proof. reflexivity. Qed.
Lemma got_cons d a l e : got ((d, a) :: l) e = (if decide (d = e) then a else 0) + got l e. Proof. reflexivity. Qed.
Lemma got_le l d : got l d <= tot l.
Proof. induction l as [|[e a] l IH]; [reflexivity|]. rewrite got_cons, tot_cons. destruct (decide (e = d)); lia. Qed.
Lemma with_rewards_same x : with_rewards x (pd_rewards x + 0) = x.
Proof. destruct x as [a b c d e f]. unfold with_rewards. cbn. rewrite N.add_0_r. reflexivity. Qed.

Lemma paid_same s p x l R t t' : paid s p x l R t -> paid s p x l R t' -> same t t'.
Proof.
  intros (A1 & A2 & A3 & A4 & A5) (B1 & B2 & B3 & B4 & B5). split; [intros k; rewrite A1, B1; reflexivity|].
  split; [intros k; rewrite A2, B2; reflexivity|]. split; [intros k; rewrite A3, B3; reflexivity|].
  split; [intros k; rewrite A4, B4; reflexivity|]. intros [q k]. rewrite A5, B5. reflexivity.
Qed.
Lemma paid_nil s p x : ps_pool s p = Some x -> paid s p x [] 0 s.
Proof.
  intros Hx. split; [intros q; destruct (decide (q = p)) as [->|]; [rewrite with_rewards_same; exact Hx|reflexivity]|].
  split; [intros q; destruct (decide (q = p)); cbn; lia|]. split; [reflexivity|]. split; [intros d; cbn; lia|].
  intros q d. destruct (decide (q = p)); cbn; lia.
Qed.

(** One more delegation credited, at the level of the tables. *)
Lemma paid_delegate s p x l d a t t' : ps_pool s p = Some x -> (exists y, ps_deleg s d = Some y /\ dd_pool y = p) ->
  paid s p x l 0 t -> pos_step t (Delegate d a) = Ok t' -> paid s p x (l ++ [(d, a)]) 0 t'.
Proof.
  intros Hx (y & Hy & Hp) (A1 & A2 & A3 & A4 & A5) Hst. cbn [pos_step] in Hst. rewrite A3, Hy in Hst. cbv zeta in Hst. rewrite Hp in Hst. injection Hst as <-.
  assert (T : tot (l ++ [(d, a)]) = tot l + a) by (clear; induction l as [|[e b] l IH]; [unfold tot; cbn; lia|cbn [app]; rewrite !tot_cons, IH; lia]).
  assert (G : forall e, got (l ++ [(d, a)]) e = got l e + if decide (d = e) then a else 0).
  { clear. intros e. induction l as [|[f b] l IH]; [unfold got; cbn; lia|]. cbn [app]. rewrite !got_cons, IH. lia. }
  split; [exact A1|]. split; [|split; [exact A3|split]].
  - intros q. cbn. unfold put. rewrite T. destruct (decide (p = q)) as [<-|Hne].
    + rewrite A2, decide_True by reflexivity. rewrite decide_True by reflexivity. lia.
    + rewrite A2, !decide_False by congruence. reflexivity.
  - intros e. cbn. unfold put. rewrite G. destruct (decide (d = e)) as [<-|Hne]; rewrite A4; lia.
  - intros q e. cbn. unfold put. rewrite G. destruct (decide ((p, d) = (q, e))) as [[= <- <-]|Hne].
    + rewrite A5, !decide_True by reflexivity. lia.
    + rewrite A5. destruct (decide (q = p)) as [->|]; [|lia]. rewrite (decide_False (P := d = e)) by congruence. lia.
Qed.
Lemma paid_fits s p x l t d a R : pos_good t -> ps_pool s p = Some x -> (exists y, ps_deleg s d = Some y /\ dd_pool y = p) ->
  paid s p x l R t -> (Z.of_N (ps_pool_balance t p + a) <= I128_MAX)%Z -> pos_fits t (Delegate d a).
Proof.
  intros (_ & _ & _ & Hs) Hx (y & Hy & Hp) (A1 & A2 & A3 & _) Hb y' Hy'. rewrite A3, Hy in Hy'. injection Hy' as <-. rewrite Hp. split; [|exact Hb].
  destruct (proj1 (proj2 Hs) d y) as [E _]; [rewrite A3; exact Hy|]. rewrite <- E, Hp.
  assert (ps_share t (p, d) <= ps_pool_balance t p); [|lia].
  apply (share_le_pool t p (with_rewards x (pd_rewards x + R)) d Hs). rewrite A1, decide_True by reflexivity. reflexivity.
Qed.
Lemma bounded_put {K} `{Countable K} (f : K -> N) k v : bounded f -> (Z.of_N v <= I128_MAX)%Z -> bounded (put f k v).
Proof. intros Hf Hv k'. unfold put. destruct (decide (k = k')); [exact Hv|apply Hf]. Qed.
Lemma delegate_good t d a t' : pos_good t -> pos_fits t (Delegate d a) -> pos_step t (Delegate d a) = Ok t' -> pos_good t'.
Proof.
  intros (B1 & B2 & B3 & Hs) Hf Hst. pose proof (pos_step_sound t _ t' Hs Hf Hst) as Hs'. cbn [pos_step pos_fits] in *.
  destruct (ps_deleg t d) as [y|] eqn:Hy; [|discriminate]. injection Hst as <-. destruct (Hf _ eq_refl) as [F1 F2].
  destruct (proj1 (proj2 Hs) d y Hy) as [E _].
  split; [|split; [|split; [|exact Hs']]]; cbn; apply bounded_put; try assumption. rewrite E. exact F1.
Qed.
Lemma rewards_good t p a t' : pos_good t -> pos_fits t (IncreaseRewards p a) -> pos_step t (IncreaseRewards p a) = Ok t' -> pos_good t'.
Proof.
  intros (B1 & B2 & B3 & Hs) Hf Hst. pose proof (pos_step_sound t _ t' Hs Hf Hst) as Hs'. cbn [pos_step pos_fits] in *.
  destruct (ps_pool t p) as [y|] eqn:Hy; [|discriminate]. injection Hst as <-. specialize (Hf ltac:(eauto)).
  split; [|split; [exact B2|split; [exact B3|exact Hs']]]. cbn. apply bounded_put; assumption.
Qed.
Lemma paid_rewards s p x l R t t' : ps_pool s p = Some x -> paid s p x l 0 t -> pos_step t (IncreaseRewards p R) = Ok t' -> paid s p x l R t'.
Proof.
  intros Hx (A1 & A2 & A3 & A4 & A5) Hst. cbn [pos_step] in Hst. rewrite A1, decide_True in Hst by reflexivity. injection Hst as <-.
  split; [|split; [|split; [exact A3|split; [exact A4|exact A5]]]].
  - intros q. cbn. unfold put. destruct (decide (p = q)) as [<-|Hne].
    + rewrite decide_True by reflexivity. destruct x. unfold with_rewards. cbn. rewrite N.add_0_r. reflexivity.
    + rewrite A1, !decide_False by congruence. reflexivity.
  - intros q. cbn. unfold put. destruct (decide (p = q)) as [<-|Hne]; rewrite A2; [rewrite !decide_True by reflexivity; lia|].
    rewrite !decide_False by congruence. reflexivity.
Qed.
Lemma members_cons s p d a l : members s p ((d, a) :: l) -> (exists y, ps_deleg s d = Some y /\ dd_pool y = p) /\ members s p l.
Proof. intros H. split; [apply (H d a); left|]. intros e b Hin. apply (H e b). right. exact Hin. Qed.
Lemma paid_balance s p x l R t : paid s p x l R t -> ps_pool_balance t p = ps_pool_balance s p + (tot l + R).
Proof. intros (_ & A2 & _). rewrite A2, decide_True by reflexivity. reflexivity. Qed.
Lemma delegate_ok t d a : is_Some (ps_deleg t d) -> exists t', pos_step t (Delegate d a) = Ok t'.
Proof. intros [y Hy]. cbn [pos_step]. rewrite Hy. eauto. Qed.
Lemma rewards_step t p a : is_Some (ps_pool t p) -> exists t', pos_step t (IncreaseRewards p a) = Ok t'.
Proof. intros [y Hy]. cbn [pos_step]. rewrite Hy. eauto. Qed.
Lemma tot_app l l' : tot (l ++ l') = tot l + tot l'.
Proof. induction l as [|[d a] l IH]; [reflexivity|]. cbn [app]. rewrite !tot_cons, IH. lia. Qed.
Lemma got_app l l' d : got (l ++ l') d = got l d + got l' d.
Proof. induction l as [|[e a] l IH]; [reflexivity|]. cbn [app]. rewrite !got_cons, IH. lia. Qed.

(** The tables with any such list credited exist and are sound. *)
Lemma paid_exists s p x R l : pos_good s -> ps_pool s p = Some x -> members s p l ->
  (Z.of_N (ps_pool_balance s p + (tot l + R)) <= I128_MAX)%Z -> exists t, paid s p x l R t /\ pos_good t.
Proof.
  intros Hg Hx Hm Hb.
  assert (exists t, paid s p x l 0 t /\ pos_good t) as (t & Ht & Hgt).
  { induction l as [|[d a] l IH] using rev_ind; [exists s; split; [exact (paid_nil s p x Hx)|exact Hg]|].
    rewrite tot_app in Hb. cbn [tot] in Hb. change (tot [(d, a)]) with (a + 0) in Hb. destruct IH as (t & Ht & Hgt).
    { intros e b Hin. apply (Hm e b). apply elem_of_app. left. exact Hin. } { lia. }
    assert (Hd : exists y, ps_deleg s d = Some y /\ dd_pool y = p) by (apply (Hm d a); apply elem_of_app; right; left).
    assert (Hf : pos_fits t (Delegate d a)).
    { apply (paid_fits s p x l t d a 0 Hgt Hx Hd Ht). rewrite (paid_balance _ _ _ _ _ _ Ht). lia. }
    destruct (delegate_ok t d a) as [t' Hst]. { destruct Hd as (y & Hy & _), Ht as (_ & _ & E & _). rewrite E, Hy. eauto. }
    exists t'. split; [exact (paid_delegate _ _ _ _ _ _ _ _ Hx Hd Ht Hst)|exact (delegate_good _ _ _ _ Hgt Hf Hst)]. }
  destruct (rewards_step t p R) as [t' Hst]. { destruct Ht as (E & _). rewrite E, decide_True by reflexivity. eauto. }
  exists t'. split; [exact (paid_rewards _ _ _ _ _ _ _ Hx Ht Hst)|]. apply (rewards_good t p R t' Hgt); [|exact Hst].
  intros _. rewrite (paid_balance _ _ _ _ _ _ Ht). lia.
Qed.

(** Shapes of undo records *)
Lemma sbind_ok {S E A B} (m : S * res E A) (k : S -> A -> S * res E B) s b :
  sbind m k = (s, Ok b) -> exists s1 a, m = (s1, Ok a) /\ k s1 a = (s, Ok b).
Proof. destruct m as [s1 [a|e|]]; cbn; [eauto|discriminate..]. Qed.
Lemma on_ok_ok {S E A B} (s0 : S) (m : res E A) (k : A -> S * res E B) s b :
  on_ok s0 m k = (s, Ok b) -> exists a, m = Ok a /\ k a = (s, Ok b).
Proof. destruct m as [a|e|]; cbn; [eauto|discriminate..]. Qed.
Lemma adapter_op_run P A src o A' u : adapter_op P A src o = (A', Ok u) -> exists d, pos_run (adapter_view P A) pos_delta_new o = (d, Ok u).
Proof.
  unfold adapter_op. destruct (pos_run _ _ o) as [d [v|e|]]; [|discriminate..]. intros H. apply sbind_ok in H as (A1 & [] & _ & [= _ ->]). eauto.
Qed.
Lemma delegate_undo P A src d a A' u : adapter_op P A src (Delegate d a) = (A', Ok u) -> u = PUndoDelegate d a.
Proof.
  intros H. apply adapter_op_run in H as (dl & H). cbn [pos_run] in H. unfold delegate_staking in H.
  apply on_ok_ok in H as (y & _ & H). do 3 apply sbind_ok in H as (? & ? & _ & H). injection H as _ <-. reflexivity.
Qed.
Lemma rewards_undo P A src p a A' u : adapter_op P A src (IncreaseRewards p a) = (A', Ok u) -> exists v, u = PUndoRewards p a v.
Proof.
  intros H. apply adapter_op_run in H as (dl & H). cbn [pos_run] in H. unfold increase_staker_rewards in H.
  apply on_ok_ok in H as (y & _ & H). apply sbind_ok in H as (? & ? & _ & H). apply on_ok_ok in H as (z & _ & H).
  apply sbind_ok in H as (? & v & _ & H). injection H as _ <-. eauto.
Qed.

Section distribution.
Context (P : pos_view) (p0 : pos_state) (src : tx_source).
Hypothesis HP : pos_reads P p0.

(** The loop over delegations *)
Lemma credit_loop s p x l : ps_pool s p = Some x -> members s p l -> (Z.of_N (ps_pool_balance s p + tot l) <= I128_MAX)%Z ->
  forall l1 l2 A t, l = l1 ++ l2 -> paid s p x l1 0 t -> adapter_inv src p0 A t ->
  exists A' t', sfold (fun A da => map_err2 RewardPos (adapter_op P A src (Delegate da.1 da.2))) l2 A =
                (A', Ok (map (fun da => PUndoDelegate da.1 da.2) l2)) /\ adapter_inv src p0 A' t' /\ paid s p x l 0 t'.
Proof.
  intros Hx Hm Hb l1 l2. revert l1. induction l2 as [|[d a] l2 IH]; intros l1 A t El Ht HA.
  - rewrite app_nil_r in El. subst l1. exists A, t. cbn. auto.
  - assert (Hd : exists y, ps_deleg s d = Some y /\ dd_pool y = p) by (apply (Hm d a); rewrite El; apply elem_of_app; right; left).
    assert (Hf : pos_fits t (Delegate d a)).
    { apply (paid_fits s p x l1 t d a 0 (pos_inv_good _ _ _ (proj1 HA)) Hx Hd Ht). rewrite (paid_balance _ _ _ _ _ _ Ht).
      rewrite El, tot_app, tot_cons in Hb. lia. }
    destruct (delegate_ok t d a) as [t1 Hst]. { destruct Hd as (y & Hy & _), Ht as (_ & _ & E & _). rewrite E, Hy. eauto. }
    pose proof (adapter_op_refines src P p0 A t _ HP HA Hf) as H. rewrite Hst in H. destruct H as (A1 & u & E & HA1 & _).
    pose proof (delegate_undo _ _ _ _ _ _ _ E) as ->. cbn [sfold map fst snd]. rewrite E. cbn [map_err2 fst snd rmap_err sbind].
    destruct (IH (l1 ++ [(d, a)]) A1 t1) as (A2 & t2 & -> & HA2 & Ht2).
    + rewrite <- app_assoc. exact El.
    + exact (paid_delegate _ _ _ _ _ _ _ _ Hx Hd Ht Hst).
    + exact HA1.
    + cbn [sbind]. exists A2, t2. auto.
Qed.

(** Undoing, in the order of the list *)
Lemma paid_undo_delegate s p x d a l R t t' : ps_pool s p = Some x -> (exists y, ps_deleg s d = Some y /\ dd_pool y = p) ->
  paid s p x ((d, a) :: l) R t -> paid s p x l R t' -> pos_good t' -> pos_undoes (PUndoDelegate d a) t t'.
Proof.
  intros Hx (y & Hy & Hp) (A1 & A2 & A3 & A4 & A5) (B1 & B2 & B3 & B4 & B5) Hg. split; [exact Hg|]. exists y. rewrite A3, Hp.
  rewrite A4, A2, A5, !decide_True, got_cons, tot_cons, decide_True by reflexivity.
  split; [exact Hy|]. split; [lia|]. split; [intros q; cbn; rewrite A1, B1; reflexivity|]. split; [|split; [|split]].
  - intros q. cbn. unfold put. rewrite B2. destruct (decide (p = q)) as [<-|Hne].
    + rewrite decide_True by reflexivity. lia.
    + rewrite A2, !decide_False by congruence. reflexivity.
  - intros e. cbn. rewrite A3, B3. reflexivity.
  - intros e. cbn. unfold put. rewrite B4. destruct (decide (d = e)) as [<-|Hne]; [lia|]. rewrite A4, got_cons, decide_False by exact Hne. lia.
  - intros [q e]. cbn. unfold put. rewrite B5. destruct (decide ((p, d) = (q, e))) as [[= <- <-]|Hne].
    + rewrite decide_True by reflexivity. lia.
    + rewrite A5. destruct (decide (q = p)) as [->|]; [|reflexivity]. rewrite got_cons, decide_False by congruence. lia.
Qed.
Lemma paid_undo_rewards s p x R t : pos_good s -> ps_pool s p = Some x -> paid s p x [] R t ->
  pos_undoes (PUndoRewards p R (DataDelta (Some (with_rewards x (pd_rewards x + R))) (Some x))) t s.
Proof.
  intros Hg Hx (A1 & A2 & A3 & A4 & A5). split; [exact Hg|]. cbn. rewrite A1, A2, !decide_True, Hx by reflexivity.
  split; [reflexivity|]. split; [cbn; lia|]. split; [|split; [|split; [|split]]]; cbn.
  - intros q. unfold put. destruct (decide (p = q)) as [<-|]; [congruence|]. rewrite A1, decide_False by congruence. reflexivity.
  - intros q. unfold put. destruct (decide (p = q)) as [<-|]; [change (tot []) with 0; lia|]. rewrite A2, decide_False by congruence. lia.
  - exact A3.
  - intros d. rewrite A4. change (got [] d) with 0. lia.
  - intros [q d]. rewrite A5. change (got [] d) with 0. destruct (decide (q = p)); lia.
Qed.
Lemma undo_reward_refines s p x R l : pos_good s -> ps_pool s p = Some x -> members s p l ->
  (Z.of_N (ps_pool_balance s p + (tot l + R)) <= I128_MAX)%Z -> forall A t, paid s p x l R t -> adapter_inv src p0 A t ->
  exists A', undo_reward P A src (map (fun da => PUndoDelegate da.1 da.2) l ++
    [PUndoRewards p R (DataDelta (Some (with_rewards x (pd_rewards x + R))) (Some x))]) = (A', Ok tt) /\ adapter_inv src p0 A' s.
Proof.
  intros Hg Hx. unfold undo_reward. induction l as [|[d a] l IH]; intros Hm Hb A t Ht HA.
  - cbn [map app try_fold]. destruct (adapter_undo_refines src P p0 A t _ s HP HA (paid_undo_rewards _ _ _ _ _ Hg Hx Ht)) as (A' & -> & HA').
    exists A'. auto.
  - apply members_cons in Hm as [Hd Hm]. rewrite tot_cons in Hb.
    destruct (paid_exists s p x R l Hg Hx Hm ltac:(lia)) as (t' & Ht' & Hg').
    destruct (adapter_undo_refines src P p0 A t _ t' HP HA (paid_undo_delegate _ _ _ _ _ _ _ _ _ Hx Hd Ht Ht' Hg')) as (A1 & E & HA1).
    cbn [map app try_fold fst snd]. rewrite E. apply (IH Hm ltac:(lia) A1 t' Ht' HA1).
Qed.

Lemma got_zero l d : d ∉ l.*1 -> got l d = 0.
Proof.
  induction l as [|[e a] l IH]; intros H; [reflexivity|]. cbn [fmap list_fmap fst] in H. apply not_elem_of_cons in H as [H1 H2].
  rewrite got_cons, decide_False by congruence. rewrite (IH H2). reflexivity.
Qed.
Lemma got_total l : NoDup l.*1 -> total_of (got l) (tot l).
Proof.
  induction l as [|[e a] l IH]; intros H; [apply total_of_zero; reflexivity|]. cbn [fmap list_fmap fst] in H. apply NoDup_cons in H as [H1 H2].
  destruct (total_of_split _ _ e (IH H2)) as (r & Er & Hr). rewrite (got_zero _ _ H1) in Er. rewrite tot_cons, Er. apply (total_of_ext _ _ _ (Hr a)).
  intros d. unfold put. rewrite got_cons. destruct (decide (e = d)) as [<-|]; [rewrite (got_zero _ _ H1); lia|reflexivity].
Qed.
Lemma tot_filter l : tot (filter (fun da => 0 < da.2) l) = tot l.
Proof.
  induction l as [|[e a] l IH]; [reflexivity|]. rewrite filter_cons. cbn [snd]. destruct (decide (0 < a)); rewrite !tot_cons, IH; lia.
Qed.
Lemma got_filter l d : got (filter (fun da => 0 < da.2) l) d = got l d.
Proof.
  induction l as [|[e a] l IH]; [reflexivity|]. rewrite filter_cons. cbn [snd].
  destruct (decide (0 < a)); rewrite !got_cons, IH; [reflexivity|]. destruct (decide (e = d)); lia.
Qed.
Lemma filter_keys l : NoDup l.*1 -> NoDup (filter (fun da : N * N => 0 < da.2) l).*1.
Proof.
  induction l as [|[e a] l IH]; intros H; [exact H|]. cbn [fmap list_fmap fst] in H. apply NoDup_cons in H as [H1 H2]. rewrite filter_cons. cbn [snd].
  destruct (decide (0 < a)); [|exact (IH H2)]. cbn [fmap list_fmap fst]. apply NoDup_cons. split; [|exact (IH H2)].
  intros Hin. apply H1. apply elem_of_list_fmap in Hin as (y & -> & Hy). apply elem_of_list_filter in Hy as [_ Hy]. apply elem_of_list_fmap. eauto.
Qed.
Lemma got_map f (L : list (N * N)) d a : NoDup L.*1 -> (d, a) ∈ L -> got (map (fun da => (da.1, f da.2)) L) d = f a.
Proof.
  induction L as [|[e b] L IH]; intros Hn Hin; [apply elem_of_nil in Hin as []|]. cbn [fmap list_fmap fst] in Hn. apply NoDup_cons in Hn as [H1 H2].
  cbn [map fst snd]. rewrite got_cons. apply elem_of_cons in Hin as [[= -> ->]|Hin].
  - rewrite decide_True by reflexivity. rewrite got_zero; [lia|]. intros Hk. apply H1.
    apply elem_of_list_fmap in Hk as (y & -> & Hy). apply elem_of_list_In, in_map_iff in Hy as (z & <- & Hz). apply elem_of_list_fmap.
    exists z. split; [reflexivity|]. apply elem_of_list_In. exact Hz.
  - rewrite decide_False; [rewrite (IH H2 Hin); reflexivity|]. intros ->. apply H1. apply elem_of_list_fmap. exists (d, a). auto.
Qed.
Lemma dr_zero_part sh all : delegation_reward 0 sh all = 0.
Proof. unfold delegation_reward. cbn. destruct all; reflexivity. Qed.
Lemma dr_zero_share part all : delegation_reward part 0 all = 0.
Proof. unfold delegation_reward. rewrite N.mul_0_r. destruct all; reflexivity. Qed.
Lemma dr_sum part all L : all <> 0 -> all * tot (map (fun da : N * N => (da.1, delegation_reward part da.2 all)) L) <= part * foldr N.add 0 L.*2.
Proof.
  intros Hz. induction L as [|[e a] L IH]; [cbn; rewrite !N.mul_0_r; reflexivity|]. cbn [map fst snd fmap list_fmap foldr]. rewrite tot_cons, !N.mul_add_distr_l.
  apply N.add_le_mono; [|exact IH]. apply N.mul_div_le. exact Hz.
Qed.
Lemma sum_member (L : list (N * N)) d a : (d, a) ∈ L -> a <= foldr N.add 0 L.*2.
Proof.
  induction L as [|[e b] L IH]; intros Hin; [apply elem_of_nil in Hin as []|]. cbn [fmap list_fmap foldr snd].
  apply elem_of_cons in Hin as [[= -> ->]|Hin]; [lia|]. specialize (IH Hin). lia.
Qed.
Lemma u128_of_i128 n : (Z.of_N n <= I128_MAX)%Z -> n <= U128_MAX.
Proof. unfold I128_MAX, U128_MAX. lia. Qed.

(** What the two branches of the code compute. *)
Definition outcome_ok (A : pos_adapter) (s : pos_state) (p : pool_id) (x : pool_data) (part all : N)
  (r : pos_adapter * res reward_err (list pos_undo * amount)) : Prop :=
  exists l A1 t, r = (A1, Ok (map (fun da => PUndoDelegate da.1 da.2) l, part - tot l)) /\ adapter_inv src p0 A1 t /\ paid s p x l 0 t /\
    members s p l /\ NoDup l.*1 /\ tot l <= part /\ forall d, got l d = delegation_reward part (ps_share s (p, d)) all.

Lemma no_delegations A s p x part all : ps_pool s p = Some x -> adapter_inv src p0 A s ->
  (forall d, delegation_reward part (ps_share s (p, d)) all = 0) -> outcome_ok A s p x part all (A, Ok ([], part)).
Proof.
  intros Hx HA H. exists [], A, s. split; [change (tot []) with 0; rewrite N.sub_0_r; reflexivity|]. split; [exact HA|]. split; [exact (paid_nil s p x Hx)|].
  split; [intros d a Hin; apply elem_of_nil in Hin as []|]. split; [constructor|]. split; [change (tot []) with 0; lia|]. intros d. rewrite H. reflexivity.
Qed.
Lemma with_delegations A s p x part all (m : gmap N N) : ps_pool s p = Some x -> adapter_inv src p0 A s ->
  (forall d, default 0 (m !! d) = ps_share s (p, d)) -> all = foldr N.add 0 (map_to_list m).*2 -> all <> 0 ->
  all <= U128_MAX -> (Z.of_N (ps_pool_balance s p + part) <= I128_MAX)%Z ->
  outcome_ok A s p x part all (distribute_delegations P A src (map_to_list m) all part).
Proof.
  intros Hx HA Hm Eall Hz Hall Hb. unfold distribute_delegations.
  assert (Hp : part <= U128_MAX) by (apply u128_of_i128; lia).
  rewrite (rewards_ok _ _ _ Hall Hp Hz) by (intros d a Hin; rewrite Eall; exact (sum_member _ _ _ Hin)). cbn [on_ok].
  set (L := map (fun da => (da.1, delegation_reward part da.2 all)) (map_to_list m)). set (l := filter (fun da => 0 < da.2) L).
  assert (Hnd : NoDup (map_to_list m).*1) by apply NoDup_fst_map_to_list.
  assert (HndL : NoDup L.*1). { replace L.*1 with (map_to_list m).*1; [exact Hnd|]. unfold L. rewrite <- list_fmap_compose. reflexivity. }
  assert (Hgot : forall d, got l d = delegation_reward part (ps_share s (p, d)) all).
  { intros d. unfold l. rewrite got_filter. rewrite <- Hm. destruct (m !! d) as [a|] eqn:E; cbn.
    - unfold L. apply (got_map (fun v => delegation_reward part v all)); [exact Hnd|]. apply elem_of_map_to_list. exact E.
    - rewrite dr_zero_share. apply got_zero. intros Hin. apply elem_of_list_fmap in Hin as ([e b] & -> & Hin). unfold L in Hin.
      apply elem_of_list_In, in_map_iff in Hin as ([e' b'] & [= -> _] & Hin). apply elem_of_list_In, elem_of_map_to_list in Hin. cbn in E. congruence. }
  assert (Htot : tot l <= part).
  { unfold l. rewrite tot_filter. pose proof (dr_sum part all (map_to_list m) Hz) as H. rewrite <- Eall in H. fold L in H.
    rewrite (N.mul_comm part) in H. apply N.mul_le_mono_pos_l in H; [exact H|lia]. }
  assert (Hmem : members s p l).
  { intros d a Hin. apply elem_of_list_filter in Hin as [Ha Hin]. cbn in Ha. pose proof (pos_inv_good _ _ _ (proj1 HA)) as (_ & _ & _ & S1 & S2 & S3).
    unfold L in Hin. apply elem_of_list_In, in_map_iff in Hin as ([e b] & [= -> <-] & Hin). apply elem_of_list_In, elem_of_map_to_list in Hin.
    assert (Hsh : ps_share s (p, d) <> 0). { rewrite <- Hm, Hin. cbn. intros ->. cbn in Ha. rewrite dr_zero_share in Ha. lia. }
    destruct (ps_deleg s d) as [y|] eqn:Ey.
    - exists y. split; [reflexivity|]. destruct (decide (dd_pool y = p)) as [E|E]; [exact E|]. exfalso. apply Hsh.
      apply (proj2 (S2 d y Ey)). congruence.
    - exfalso. apply Hsh. apply (S3 d Ey). }
  destruct (credit_loop s p x l Hx Hmem ltac:(lia) [] l A s eq_refl (paid_nil s p x Hx) HA) as (A1 & t & -> & HA1 & Ht). cbn [sbind].
  assert (amount_sum L.*2 = Some (tot l)) as ->.
  { unfold amount_sum. assert (foldr N.add 0 L.*2 = tot l) as E.
    { unfold l. rewrite tot_filter. generalize L. clear. induction L as [|[e a] L IH]; [reflexivity|]. cbn [fmap list_fmap foldr snd]. rewrite IH. reflexivity. }
    rewrite amount_sum_from_ok; rewrite E; [reflexivity|lia]. }
  cbn [ok_or rbind]. rewrite amount_sub_ok by exact Htot. cbn [ok_or on_ok].
  exists l, A1, t. split; [reflexivity|]. split; [exact HA1|]. split; [exact Ht|]. split; [exact Hmem|].
  split; [exact (filter_keys L HndL)|]. split; [exact Htot|exact Hgot].
Qed.

Theorem distribute_refines A s p x total ver :
  adapter_inv src p0 A s -> ps_pool s p = Some x -> pd_margin x <= 1000 ->
  (Z.of_N (ps_pool_balance s p + total) <= I128_MAX)%Z ->
  match ver with RewardV0 => (total - pd_cost x) * pd_margin x <= U128_MAX | RewardV1 => 0 < ps_pool_balance s p end ->
  exists A' us s' all,
    distribute_pos_reward P A src p total ver = (A', Ok us) /\ adapter_inv src p0 A' s' /\
    total_of (fun d => ps_share s (p, d)) all /\ ps_pool_balance s p = pd_pledge x + pd_rewards x + all /\
    distributed s s' p x total
      (staker_part ver total (ps_pool_balance s p) (pd_pledge x + pd_rewards x) (pd_cost x) (pd_margin x)) all /\
    exists A'', undo_reward P A' src us = (A'', Ok tt) /\ adapter_inv src p0 A'' s.
Proof.
  intros HA Hx Hm Hb Hver. pose proof (pos_inv_good _ _ _ (proj1 HA)) as Hgood. pose proof Hgood as (B1 & _ & _ & Hsound).
  destruct (proj1 Hsound p x Hx) as (all & Hall & Ebal). pose proof (adapter_reads _ _ _ _ _ HP HA) as (V1 & _).
  destruct (V1 p) as (Vp & Vb & o & Vs & Hshown). assert (Hto : PosSpec.total o = all).
  { apply (total_of_unique (shown o)); [exact (total_listing o)|]. apply (total_of_ext _ _ _ Hall). intros d. rewrite Hshown. reflexivity. }
  set (staker := staker_part _ _ _ _ _ _).
  assert (Hst : staker <= total).
  { apply staker_part_le; [exact Hm|lia|]. intros ->. exact Hver. }
  assert (HbU : ps_pool_balance s p + total <= U128_MAX) by (apply u128_of_i128; exact Hb).
  unfold distribute_pos_reward. rewrite Vp, Vb. cbn [rmap_err rbind]. rewrite Hx. cbn [ok_or rbind].
  assert (match ver with
          | RewardV0 => ok_or (staker_reward_v0 total (pd_cost x) (pd_margin x)) StakerRewardCalculationFailed
          | RewardV1 => let? sb := rmap_err RewardPos (staker_balance x) in
                        staker_reward_v1 total (ps_pool_balance s p) sb (pd_cost x) (pd_margin x)
          end = Ok staker) as ->.
  { unfold staker. destruct ver.
    - rewrite (staker_reward_v0_ok total (pd_cost x) (pd_margin x) (ps_pool_balance s p) (pd_pledge x + pd_rewards x) ltac:(lia) Hm Hver). reflexivity.
    - unfold staker_balance. rewrite amount_add_ok by lia. cbn [ok_or rmap_err rbind]. apply staker_reward_v1_ok; [lia|lia|exact Hm|lia|exact Hver]. }
  cbn [rbind]. rewrite amount_sub_ok by exact Hst. cbn [ok_or rbind on_ok]. set (part := total - staker). clearbody staker.
  assert (Hpart : staker + part = total) by (unfold part; lia).
  match goal with |- context [sbind (if 0 <? part then ?b else ?c) _] => assert (outcome_ok A s p x part all (if 0 <? part then b else c)) as Hout end.
  { destruct (N.ltb_spec 0 part) as [Hp|Hp].
    - rewrite Vs. cbn [rmap_err on_ok]. destruct o as [m|].
      + assert (Hs : foldr N.add 0 (map_to_list m).*2 = all) by (rewrite <- Hto; reflexivity).
        unfold amount_sum. rewrite amount_sum_from_ok by (rewrite Hs; lia). rewrite Hs. cbn [ok_or on_ok]. rewrite N.add_0_l.
        destruct (N.ltb_spec 0 all) as [Ha|Ha].
        * apply with_delegations; [exact Hx|exact HA|exact Hshown|symmetry; exact Hs|lia|lia|lia].
        * apply no_delegations; [exact Hx|exact HA|]. intros d. replace (ps_share s (p, d)) with 0; [apply dr_zero_share|].
          destruct (total_of_split _ _ d Hall) as (r & Er & _). lia.
      + apply no_delegations; [exact Hx|exact HA|]. intros d. rewrite <- Hshown. cbn. apply dr_zero_share.
    - assert (part = 0) as Hp0 by lia. clearbody part. subst part. apply no_delegations; [exact Hx|exact HA|]. intros d. apply dr_zero_part. }
  destruct Hout as (l & A1 & t & -> & HA1 & Ht & Hmem & Hnd & Htot & Hgot). cbn [sbind].
  rewrite amount_add_ok by lia. cbn [ok_or on_ok]. set (R := staker + (part - tot l)).
  assert (HR : tot l + R = total) by (unfold R; lia). clearbody R.
  assert (Hf : pos_fits t (IncreaseRewards p R)). { intros _. rewrite (paid_balance _ _ _ _ _ _ Ht). lia. }
  destruct (rewards_step t p R) as [s' Hstep]. { destruct Ht as (E & _). rewrite E, decide_True by reflexivity. eauto. }
  pose proof (adapter_op_refines src P p0 A1 t _ HP HA1 Hf) as H. rewrite Hstep in H. destruct H as (A2 & u & E & HA2 & Hu).
  rewrite E. cbn [map_err2 fst snd rmap_err sbind]. pose proof (paid_rewards _ _ _ _ _ _ _ Hx Ht Hstep) as Hs'.
  destruct (rewards_undo _ _ _ _ _ _ _ E) as [v ->]. destruct Hu as (_ & -> & _ & _).
  pose proof (proj1 Hs' p) as Ep. rewrite decide_True in Ep by reflexivity. rewrite Ep.
  pose proof (proj1 Ht p) as Ep'. rewrite decide_True in Ep' by reflexivity. rewrite Ep', with_rewards_same.
  eexists A2, _, s', all. split; [reflexivity|]. split; [exact HA2|]. split; [exact Hall|]. split; [exact Ebal|]. split.
  - destruct Hs' as (S1 & S2 & S3 & S4 & S5). split.
    + intros q. rewrite S2, HR. reflexivity.
    + intros d. rewrite S4, Hgot. reflexivity.
    + intros q d. rewrite S5, Hgot. reflexivity.
    + exact S3.
    + exists (tot l). split; [apply (total_of_ext _ _ _ (got_total l Hnd)); exact Hgot|]. split; [exact Htot|].
      intros q. rewrite S1. replace (total - tot l) with R by lia. reflexivity.
  - apply (undo_reward_refines s p x R l Hgood Hx Hmem) with (t := s'); [lia|exact Hs'|exact HA2].
Qed.
(** What a distribution that was accepted has done, and the record it leaves *)
Lemma distribute_done A s p total ver A' us :
  adapter_inv src p0 A s -> (is_Some (ps_pool s p) -> (Z.of_N (ps_pool_balance s p + total) <= I128_MAX)%Z) ->
  distribute_pos_reward P A src p total ver = (A', Ok us) ->
  exists x l R s', ps_pool s p = Some x /\ members s p l /\ NoDup l.*1 /\ tot l + R = total /\ paid s p x l R s' /\ adapter_inv src p0 A' s' /\
    us = map (fun da => PUndoDelegate da.1 da.2) l ++ [PUndoRewards p R (DataDelta (Some (with_rewards x (pd_rewards x + R))) (Some x))].
Proof.
  intros HA Hb H. pose proof (pos_inv_good _ _ _ (proj1 HA)) as Hgood. pose proof Hgood as (B1 & _ & _ & Hsound).
  pose proof (adapter_reads _ _ _ _ _ HP HA) as (V1 & _).
  destruct (V1 p) as (Vp & Vb & o & Vs & Hshown).
  unfold distribute_pos_reward in H. rewrite Vp, Vb in H. cbn [rmap_err rbind] in H.
  destruct (ps_pool s p) as [x|] eqn:Hx; [|discriminate H]. cbn [ok_or rbind] in H. specialize (Hb ltac:(eauto)).
  destruct (proj1 Hsound p x Hx) as (all & Hall & Ebal). assert (Hto : PosSpec.total o = all).
  { apply (total_of_unique (shown o)); [exact (total_listing o)|]. apply (total_of_ext _ _ _ Hall). intros d. rewrite Hshown. reflexivity. }
  assert (HbU : ps_pool_balance s p + total <= U128_MAX) by (apply u128_of_i128; exact Hb).
  match type of H with on_ok _ (rbind ?m _) _ = _ => destruct m as [staker|e|] eqn:Es; [|discriminate H..] end.
  cbn [rbind] in H. destruct (amount_sub total staker) as [part|] eqn:Ep; [|discriminate H]. cbn [ok_or rbind on_ok] in H.
  unfold amount_sub, checked_sub in Ep. destruct (N.leb_spec staker total) as [Hst|]; [|discriminate Ep]. injection Ep as <-.
  set (part := total - staker) in H. assert (Hpart : staker + part = total) by (unfold part; lia).
  match type of H with sbind (if 0 <? part then ?b else ?c) _ = _ => assert (outcome_ok A s p x part all (if 0 <? part then b else c)) as Hout end.
  { destruct (N.ltb_spec 0 part) as [Hp|Hp].
    - rewrite Vs. cbn [rmap_err on_ok]. destruct o as [m|].
      + assert (Hs : foldr N.add 0 (map_to_list m).*2 = all) by (rewrite <- Hto; reflexivity).
        unfold amount_sum. rewrite amount_sum_from_ok by (rewrite Hs; lia). rewrite Hs. cbn [ok_or on_ok]. rewrite N.add_0_l.
        destruct (N.ltb_spec 0 all) as [Ha|Ha].
        * apply with_delegations; [exact Hx|exact HA|exact Hshown|symmetry; exact Hs|lia|lia|lia].
        * apply no_delegations; [exact Hx|exact HA|]. intros d. replace (ps_share s (p, d)) with 0; [apply dr_zero_share|].
          destruct (total_of_split _ _ d Hall) as (r & Er & _). lia.
      + apply no_delegations; [exact Hx|exact HA|]. intros d. rewrite <- Hshown. cbn. apply dr_zero_share.
    - assert (part = 0) as Hp0 by lia. clearbody part. subst part. apply no_delegations; [exact Hx|exact HA|]. intros d. apply dr_zero_part. }
  destruct Hout as (l & A1 & t & E1 & HA1 & Ht & Hmem & Hnd & Htot & Hgot). rewrite E1 in H. cbn [sbind] in H.
  rewrite amount_add_ok in H by lia. cbn [ok_or on_ok] in H. set (R := staker + (part - tot l)) in H.
  assert (HR : tot l + R = total) by (unfold R; lia). clearbody R.
  assert (Hf : pos_fits t (IncreaseRewards p R)). { intros _. rewrite (paid_balance _ _ _ _ _ _ Ht). lia. }
  destruct (rewards_step t p R) as [s' Hstep]. { destruct Ht as (E & _). rewrite E, decide_True by reflexivity. eauto. }
  pose proof (adapter_op_refines src P p0 A1 t _ HP HA1 Hf) as G. rewrite Hstep in G. destruct G as (A2 & u & E & HA2 & Hu).
  rewrite E in H. cbn [map_err2 fst snd rmap_err sbind] in H. pose proof (paid_rewards _ _ _ _ _ _ _ Hx Ht Hstep) as Hs'.
  destruct (rewards_undo _ _ _ _ _ _ _ E) as [v ->]. destruct Hu as (_ & -> & _ & _).
  pose proof (proj1 Hs' p) as Ep. rewrite decide_True in Ep by reflexivity. rewrite Ep in H.
  pose proof (proj1 Ht p) as Ep'. rewrite decide_True in Ep' by reflexivity. rewrite Ep', with_rewards_same in H.
  injection H as <- <-. exists x, l, R, s'. split; [reflexivity|]. split; [exact Hmem|]. split; [exact Hnd|]. split; [exact HR|]. split; [exact Hs'|]. split; [exact HA2|reflexivity].
Qed.
End distribution.

Lemma adapter_run_refines src P p ops : pos_reads P p -> forall A s, adapter_inv src p A s -> ops_fit s ops ->
  adapter_inv src p (adapter_run P src ops A) (tables_after s ops).
Proof.
  intros HP. induction ops as [|o ops IH]; intros A s HA Hf; [exact HA|]. destruct Hf as [Hf1 Hf2]. cbn [adapter_run tables_after].
  pose proof (adapter_op_refines src P p A s o HP HA Hf1) as H. destruct (pos_step s o) as [s'|e|].
  - destruct H as (A' & u & -> & HA' & _). apply IH; assumption.
  - rewrite H. apply IH; assumption.
  - destruct H.
Qed.

Section run.
Context (db : pos_db) (s0 : pos_state) (src : tx_source) (ops : list pos_op).
Hypothesis Hdb : pos_db_is db s0.
Hypothesis Hfit : ops_fit s0 ops.
Let P := pos_db_view db.
Let A := adapter_run P src ops pos_adapter_new.
Let s := tables_after s0 ops.
Lemma run_inv : adapter_inv src s0 A s.
Proof. apply adapter_run_refines; [exact (pos_reads_db db s0 Hdb)|apply adapter_inv_new, (pos_db_good db s0 Hdb)|exact Hfit]. Qed.

Theorem reward_run p x total ver :
  ps_pool s p = Some x -> pd_margin x <= 1000 -> (Z.of_N (ps_pool_balance s p + total) <= I128_MAX)%Z ->
  reward_in_range ver total (ps_pool_balance s p) x ->
  exists A' us s' all,
    distribute_pos_reward P A src p total ver = (A', Ok us) /\
    pos_reads (adapter_view P A) s /\ pos_reads (adapter_view P A') s' /\
    total_of (fun d => ps_share s (p, d)) all /\ ps_pool_balance s p = pd_pledge x + pd_rewards x + all /\
    distributed s s' p x total
      (staker_part ver total (ps_pool_balance s p) (pd_pledge x + pd_rewards x) (pd_cost x) (pd_margin x)) all /\
    exists A'', undo_reward P A' src us = (A'', Ok tt) /\ pos_reads (adapter_view P A'') s.
Proof.
  intros Hx Hm Hb Hv. pose proof (pos_reads_db db s0 Hdb) as HP. pose proof run_inv as HA.
  destruct (distribute_refines P s0 src HP A s p x total ver HA Hx Hm Hb Hv) as (A' & us & s' & all & E & HA' & H1 & H2 & H3 & A'' & E2 & HA'').
  exists A', us, s', all. split; [exact E|]. split; [exact (adapter_reads _ _ _ _ _ HP HA)|]. split; [exact (adapter_reads _ _ _ _ _ HP HA')|].
  split; [exact H1|]. split; [exact H2|]. split; [exact H3|]. exists A''. split; [exact E2|exact (adapter_reads _ _ _ _ _ HP HA'')].
Qed.
End run.

Lemma distributed_sum s s' p x total staker all : ps_pool s p = Some x -> distributed s s' p x total staker all -> staker <= total ->
  ps_pool_balance s' p = ps_pool_balance s p + total /\
  exists x' given, ps_pool s' p = Some x' /\ total_of (fun d => ps_deleg_balance s' d - ps_deleg_balance s d) given /\
    pd_pledge x' = pd_pledge x /\ (pd_rewards x' - pd_rewards x) + given = total /\ pd_rewards x <= pd_rewards x' /\
    staker <= pd_rewards x' - pd_rewards x.
Proof.
  intros Hx [D1 D2 D3 D4 (given & D5 & D6 & D7)] Hst. split; [rewrite D1, decide_True by reflexivity; reflexivity|].
  eexists _, given. split; [rewrite D7, decide_True by reflexivity; reflexivity|]. split.
  - apply (total_of_ext _ _ _ D5). intros d. rewrite D2. lia.
  - cbn. repeat split; lia.
Qed.

Lemma staker_reward_v1_no_panic total b sb cost m : total <= U128_MAX -> b <= U128_MAX -> sb <= U128_MAX -> m <= 1000 ->
  staker_reward_v1 total b sb cost m <> Panic /\ forall r, staker_reward_v1 total b sb cost m = Ok r -> r <= total.
Proof.
  intros Ht Hb Hsb Hm. destruct (N.leb_spec sb b) as [H1|H1]; [destruct (N.ltb_spec 0 b) as [H2|H2]|].
  - rewrite (staker_reward_v1_ok total b sb cost m Ht Hb Hm H1 H2). split; [discriminate|]. intros r [= <-].
    apply staker_part_le; [exact Hm|exact H1|auto].
  - unfold staker_reward_v1. rewrite (proj2 (N.leb_le _ _) H1), (proj2 (N.ltb_ge _ _) H2). cbn. split; [discriminate|intros r H; discriminate].
  - unfold staker_reward_v1. rewrite (proj2 (N.leb_gt _ _) H1). cbn. split; [discriminate|intros r H; discriminate].
Qed.
Lemma rewards_no_panic shares all part : all <= U128_MAX -> part <= U128_MAX -> (forall d a, (d, a) ∈ shares -> a <= U128_MAX) ->
  rewards_per_delegation shares all part <> Panic.
Proof.
  intros Ha Hp H. unfold rewards_per_delegation. destruct (N.eqb_spec all 0) as [|Hz]; cbn [negb ensure rbind]; [discriminate|].
  induction shares as [|[d a] l IH]; [discriminate|]. cbn [rmapM fst snd].
  assert (Hle : a <= U128_MAX) by (apply (H d); left).
  destruct (mul_step part a Hp Hle) as (n & -> & Wn & Vn). cbn [uexpect rbind].
  destruct (div_step n all Wn Ha Hz) as (q & -> & Wq & Vq). cbn [rmap_err rbind].
  destruct (u128_of_u256_spec q Wq) as [N1 N2]. destruct (N.leb_spec (uval q) U128_MAX) as [Hq|Hq].
  - rewrite (N1 Hq). cbn [rmap_err rbind]. specialize (IH (fun d' a' Hin => H d' a' (elem_of_list_further _ _ _ Hin))).
    destruct (rmapM _ l); [discriminate|discriminate|exact IH].
  - rewrite (N2 Hq). cbn [rmap_err rbind]. discriminate.
Qed.
Lemma staker_reward_v0_le total cost m r : m <= 1000 -> staker_reward_v0 total cost m = Some r -> r <= total.
Proof.
  intros Hm. unfold staker_reward_v0, amount_sub, checked_sub. destruct (N.leb_spec cost total) as [H|H]; [|intros [= <-]; reflexivity].
  unfold amount_mul, checked_mul. destruct (_ <=? _); [|discriminate]. unfold amount_div, checked_div. change (1000 =? 0) with false. cbn iota.
  pose proof (scaled_le (total - cost) m 1000 ltac:(lia) Hm) as H1. revert H1. generalize ((total - cost) * m / 1000). intros y H1.
  unfold amount_add, checked_add. destruct (_ <=? _); [|discriminate]. intros [= <-]. lia.
Qed.
