From Coq Require Import Ascii String.
From stdpp Require Import sorting.
From Verif Require Import Base AmountModel TextModel TextSpec TextProofs PrimModel ScheduleModel ScheduleSpec.
Local Open Scope N_scope.
Local Open Scope list_scope.

(** ** Emission *)
Notation sorted_keys := (StronglySorted (fun x y : N * _ => x.1 < y.1)).

(** Supply at height [h], reading the table from the left; [start] is where the current period started. *)
Fixpoint supply_at (supply sub start : N) (ps : list (N * amount)) (h : N) : N :=
  match ps with
  | [] => supply + sub * (h - start)
  | (e, r) :: ps' => if e <? h then supply_at (supply + sub * (e - start)) r e ps' h else supply + sub * (h - start)
  end.
Definition sub_at (sub : N) (ps : list (N * amount)) (k : N) : N :=
  foldl (fun cur p => if p.1 <? k then p.2 else cur) sub ps.

Lemma sub_at_above sub ps k : Forall (fun p => k <= p.1) ps -> sub_at sub ps k = sub.
Proof.
  unfold sub_at. revert sub. induction ps as [|[e r] ps IH]; intros sub H; [done|]. apply Forall_cons in H as [H1 H2]. cbn in *.
  destruct (N.ltb_spec e k); [lia|]. apply IH, H2.
Qed.
Lemma sorted_above {V} e (r : V) ps : sorted_keys ((e, r) :: ps) -> forall k, k <= e -> Forall (fun p => k <= p.1) ((e, r) :: ps).
Proof.
  intros H k Hk. apply StronglySorted_inv in H as [_ H]. constructor; [exact Hk|].
  eapply Forall_impl; [exact H|]. cbn. lia.
Qed.
Lemma sub_at_spec t k : sorted_keys (et_periods t) -> subsidy_of t k (sub_at (et_subsidy t) (et_periods t) k).
Proof.
  destruct t as [sup sub ps]. unfold subsidy_of. cbn [et_periods et_subsidy]. revert sub. induction ps as [|[e r] ps IH]; intros sub H.
  - right. split; [done|]. intros h' s' Hin. apply elem_of_nil in Hin. done.
  - cbn. destruct (N.ltb_spec e k) as [Hlt|Hge].
    + pose proof (StronglySorted_inv H) as [Hs Hf]. left. destruct (IH r Hs) as [(h & Hin & Hk & Hmax)|[Hr Hall]].
      * exists h. split; [right; exact Hin|]. split; [exact Hk|]. intros h' s' Hin' Hk'. apply elem_of_cons in Hin' as [[= -> ->]|Hin'].
        -- rewrite Forall_forall in Hf. specialize (Hf _ Hin). cbn in Hf. lia.
        -- eapply Hmax; eauto.
      * exists e. unfold sub_at in Hr. rewrite Hr. split; [left|]. split; [exact Hlt|]. intros h' s' Hin' Hk'.
        apply elem_of_cons in Hin' as [[= -> ->]|Hin']; [lia|]. specialize (Hall _ _ Hin'). lia.
    + pose proof (sorted_above _ _ _ H k Hge) as Ha. apply Forall_cons in Ha as [_ Ha]. fold (sub_at sub ps k). rewrite sub_at_above by exact Ha. right. split; [done|].
      intros h' s' Hin'. apply elem_of_cons in Hin' as [[= -> ->]|Hin']; [lia|]. rewrite Forall_forall in Ha. apply (Ha _ Hin').
Qed.
Lemma subsidy_of_unique t k r r' : sorted_keys (et_periods t) -> subsidy_of t k r -> subsidy_of t k r' -> r = r'.
Proof.
  intros Hs H1 H2.
  assert (forall h x y, (h, x) ∈ et_periods t -> (h, y) ∈ et_periods t -> x = y) as Hu.
  { intros h x y Hx Hy. clear H1 H2. induction Hs as [|[e z] ps Hs IH Hf]; [apply elem_of_nil in Hx; done|].
    rewrite Forall_forall in Hf. apply elem_of_cons in Hx as [Ex|Hx]; apply elem_of_cons in Hy as [Ey|Hy].
    - congruence.
    - injection Ex as -> ->. specialize (Hf _ Hy). cbn in Hf. lia.
    - injection Ey as -> ->. specialize (Hf _ Hx). cbn in Hf. lia.
    - apply IH; assumption. }
  destruct H1 as [(h & Hin & Hk & Hmax)|[-> Hall]], H2 as [(h' & Hin' & Hk' & Hmax')|[-> Hall']].
  - assert (h = h') as -> by (pose proof (Hmax _ _ Hin' Hk'); pose proof (Hmax' _ _ Hin Hk); lia). eapply Hu; eauto.
  - specialize (Hall' _ _ Hin). lia.
  - specialize (Hall _ _ Hin'). lia.
  - done.
Qed.

Lemma supply_step ps : forall supply sub start h, sorted_keys ps -> Forall (fun p => start <= p.1) ps -> start <= h ->
  supply_at supply sub start ps (h + 1) = supply_at supply sub start ps h + sub_at sub ps (h + 1).
Proof.
  induction ps as [|[e r] ps IH]; intros supply sub start h Hs Ha Hh.
  - cbn. replace (h + 1 - start) with (h - start + 1) by lia. lia.
  - pose proof (StronglySorted_inv Hs) as [Hs' Hf]. apply Forall_cons in Ha as [Ha _]. cbn in Ha.
    cbn [supply_at]. unfold sub_at. cbn [foldl fst snd].
    destruct (N.ltb_spec e (h + 1)) as [H1|H1]; fold (sub_at r ps (h + 1)); fold (sub_at sub ps (h + 1)).
    + destruct (N.ltb_spec e h) as [H2|H2].
      * apply IH; [exact Hs'| |lia]. eapply Forall_impl; [exact Hf|]. cbn. lia.
      * assert (e = h) as -> by lia.
        rewrite IH; [| exact Hs' | eapply Forall_impl; [exact Hf|]; cbn; lia | lia]. f_equal.
        destruct ps as [|[e' r'] ps']; cbn [supply_at]; [lia|].
        apply Forall_cons in Hf as [Hf _]. cbn in Hf. destruct (N.ltb_spec e' h); [lia|]. lia.
    + destruct (N.ltb_spec e h); [lia|].
      rewrite sub_at_above; [| eapply Forall_impl; [exact Hf|]; cbn; lia].
      replace (h + 1 - start) with (h - start + 1) by lia. lia.
Qed.
Lemma supply_zero supply sub ps : supply_at supply sub 0 ps 0 = supply.
Proof. destruct ps as [|[e r] ps]; cbn [supply_at]; [lia|]. destruct (N.ltb_spec e 0); lia. Qed.
Definition issue_total (t : emission_table) (h : N) : N := supply_at (et_supply t) (et_subsidy t) 0 (et_periods t) h.
Lemma zero_below {V} (ps : list (N * V)) : Forall (fun p => 0 <= p.1) ps.
Proof. apply Forall_forall. intros. lia. Qed.
Lemma total_step t h : sorted_keys (et_periods t) -> issue_total t (h + 1) = issue_total t h + sub_at (et_subsidy t) (et_periods t) (h + 1).
Proof. intros H. apply supply_step; [exact H|apply zero_below|lia]. Qed.
Lemma total_issued t h : sorted_keys (et_periods t) -> issued t h (issue_total t h).
Proof.
  intros H. induction h as [|h IH] using N.peano_ind.
  - unfold issue_total. rewrite supply_zero. constructor.
  - rewrite <- N.add_1_r, total_step by exact H. constructor; [exact IH|]. apply sub_at_spec, H.
Qed.
Lemma issued_total t h s : sorted_keys (et_periods t) -> issued t h s -> s = issue_total t h.
Proof.
  intros H Hi. induction Hi as [|h s r Hi IH Hr]; [symmetry; apply supply_zero|].
  rewrite total_step by exact H. rewrite IH. f_equal. eapply subsidy_of_unique; [exact H|exact Hr|]. apply sub_at_spec, H.
Qed.
Lemma total_mono t h h' : sorted_keys (et_periods t) -> h <= h' -> issue_total t h <= issue_total t h'.
Proof.
  intros H Hle. replace h' with (h + (h' - h)) by lia. generalize (h' - h). intros d. induction d as [|d IH] using N.peano_ind.
  - rewrite N.add_0_r. lia.
  - replace (h + N.succ d) with ((h + d) + 1) by lia. rewrite total_step by exact H. lia.
Qed.

(** *** The implementation *)
Lemma amount_mul_eq a k : amount_mul a k = if a * k <=? U128_MAX then Some (a * k) else None. Proof. done. Qed.
Lemma amount_add_eq a k : amount_add a k = if a + k <=? U128_MAX then Some (a + k) else None. Proof. done. Qed.
Lemma supply_at_ge ps : forall supply sub start h, supply <= supply_at supply sub start ps h.
Proof.
  induction ps as [|[e r] ps IH]; intros; cbn [supply_at]; [apply N.le_add_r|]. destruct (e <? h); [|apply N.le_add_r].
  etransitivity; [|apply IH]. apply N.le_add_r.
Qed.
Lemma last_below_cons {V} h (p : N * V) l : p.1 < h -> sorted_keys (p :: l) ->
  last_below h (p :: l) = Some (default p (last_below h l)).
Proof.
  intros Hp _. unfold last_below. cbn. destruct (N.ltb_spec p.1 h); [|lia]. 
  enough (forall c, foldl (fun cur kv => if kv.1 <? h then Some kv else cur) (Some c) l =
     Some (default c (foldl (fun cur kv => if kv.1 <? h then Some kv else cur) None l))) by auto.
  clear Hp. induction l as [|q l IH]; intros c; [done|]. cbn. destruct (q.1 <? h); [|apply IH].
  rewrite IH. done.
Qed.
Lemma last_below_none {V} h (l : list (N * V)) : Forall (fun p => h <= p.1) l -> last_below h l = None.
Proof.
  unfold last_below. induction l as [|q l IH]; intros H; [done|]. apply Forall_cons in H as [H1 H2]. cbn.
  destruct (N.ltb_spec q.1 h); [lia|]. apply IH, H2.
Qed.
Lemma precompute_keys ps : forall supply sub start tbl, precompute supply sub start ps = Ok tbl -> map fst tbl = map fst ps.
Proof.
  induction ps as [|[e r] ps IH]; intros supply sub start tbl; cbn [precompute]; [intros [= <-]; done|].
  destruct (checked_sub e start) as [n|]; cbn [expect rbind]; [|done].
  destruct (amount_mul sub n) as [a|]; cbn [expect rbind]; [|done]. destruct (amount_add supply a) as [a0|]; cbn [expect rbind]; [|done].
  destruct (precompute a0 r e ps) eqn:E; cbn [rbind]; [|done|done]. intros [= <-]. cbn. f_equal. eapply IH, E.
Qed.
Lemma Forall_keys {V W} (P : N -> Prop) (l : list (N * V)) (l' : list (N * W)) : map fst l = map fst l' ->
  Forall (fun p => P p.1) l -> Forall (fun p => P p.1) l'.
Proof.
  intros E H. assert (Forall P (map fst l)) as H' by (apply Forall_fmap; exact H). rewrite E in H'. apply (proj1 (Forall_map fst P l')). exact H'.
Qed.
Lemma sorted_map {V W} (l : list (N * V)) (l' : list (N * W)) : map fst l = map fst l' -> sorted_keys l -> sorted_keys l'.
Proof.
  intros E H. revert l' E. induction H as [|p l H IH Hf]; intros [|p' l'] E; try discriminate; [constructor|].
  cbn in E. injection E as E1 E2. constructor; [apply IH, E2|]. rewrite <- E1. apply (Forall_keys (fun k => p.1 < k) l l' E2 Hf).
Qed.
Definition fit (x : N) : res unit N := if x <=? U128_MAX then Ok x else Panic.
Lemma step_fit supply sub n : supply <= U128_MAX ->
  (let? p := expect (amount_mul sub n) in expect (amount_add supply p)) = fit (supply + sub * n).
Proof.
  intros H. rewrite amount_mul_eq. unfold fit. destruct (N.leb_spec (sub * n) U128_MAX); cbn [expect rbind].
  - rewrite amount_add_eq. destruct (_ <=? _); done.
  - destruct (N.leb_spec (supply + sub * n) U128_MAX); [lia|done].
Qed.
Lemma eval_spec ps : forall supply sub start tbl h, sorted_keys ps -> Forall (fun p => start <= p.1) ps -> start <= h -> supply <= U128_MAX ->
  precompute supply sub start ps = Ok tbl ->
  (let '(st, (sup, r)) := default (start, (supply, sub)) (last_below h tbl) in
   if h <? st then Panic else let? p := expect (amount_mul r (h - st)) in expect (amount_add sup p)) = fit (supply_at supply sub start ps h).
Proof.
  induction ps as [|[e r] ps IH]; intros supply sub start tbl h Hs Ha Hh Hsup E.
  - cbn in E. injection E as <-. cbn. destruct (N.ltb_spec h start); [lia|]. apply step_fit, Hsup.
  - pose proof (precompute_keys _ _ _ _ _ E) as Hk. cbn [precompute] in E. pose proof (StronglySorted_inv Hs) as [Hs' Hf].
    apply Forall_cons in Ha as [Ha _]. cbn in Ha.
    unfold checked_sub in E. destruct (N.leb_spec start e); [|lia]. cbn [expect rbind] in E.
    rewrite amount_mul_eq in E. destruct (N.leb_spec (sub * (e - start)) U128_MAX) as [Hm|]; [|done]. cbn [expect rbind] in E.
    rewrite amount_add_eq in E. destruct (N.leb_spec (supply + sub * (e - start)) U128_MAX) as [Hadd|]; [|done]. cbn [expect rbind] in E.
    destruct (precompute (supply + sub * (e - start)) r e ps) as [tbl'| |] eqn:E'; cbn [rbind] in E; [|done|done]. injection E as <-.
    cbn [supply_at]. destruct (N.ltb_spec e h) as [Hlt|Hge].
    + rewrite last_below_cons; [|exact Hlt|]. 2:{ apply (sorted_map _ _ (eq_sym Hk) Hs). }
      cbn [default]. rewrite <- (IH (supply + sub * (e - start)) r e tbl' h); [done|exact Hs'| |lia|exact Hadd|exact E'].
      eapply Forall_impl; [exact Hf|]. cbn. lia.
    + rewrite last_below_none. 2:{ apply (Forall_keys (fun k => h <= k) ((e, r) :: ps)); [exact (eq_sym Hk)|]. exact (sorted_above _ _ _ Hs h Hge). }
      cbn [default]. destruct (N.ltb_spec h start); [lia|]. apply step_fit, Hsup.
Qed.
Lemma schedule_spec t f h : table_ok t -> schedule t = Ok f -> f h = fit (issue_total t h).
Proof.
  intros (Hs & Hsup & _) E. unfold schedule in E.
  destruct (precompute (et_supply t) (et_subsidy t) 0 (et_periods t)) as [tbl| |] eqn:Ep; cbn [rbind] in E; [|done|done].
  injection E as <-. unfold eval_schedule, issue_total. rewrite <- (eval_spec _ _ _ _ tbl h Hs (zero_below _) ltac:(lia) Hsup Ep). done.
Qed.
Lemma precompute_total ps : forall supply sub start, sorted_keys ps -> Forall (fun p => start <= p.1) ps -> supply <= U128_MAX ->
  (exists tbl, precompute supply sub start ps = Ok tbl /\ forall e r, last ps = Some (e, r) -> supply_at supply sub start ps e <= U128_MAX) \/
  (precompute supply sub start ps = Panic /\ exists e r, last ps = Some (e, r) /\ U128_MAX < supply_at supply sub start ps e).
Proof.
  induction ps as [|[e r] ps IH]; intros supply sub start Hs Ha Hsup.
  - left. exists []. split; [done|]. intros e r [=].
  - pose proof (StronglySorted_inv Hs) as [Hs' Hf]. apply Forall_cons in Ha as [Ha _]. cbn in Ha. cbn [precompute].
    unfold checked_sub. destruct (N.leb_spec start e); [|lia]. cbn [expect rbind].
    assert (forall x y, last ((e, r) :: ps) = Some (x, y) -> supply_at supply sub start ((e, r) :: ps) x =
       if e <? x then supply_at (supply + sub * (e - start)) r e ps x else supply + sub * (e - start)) as Hlast.
    { intros x y Hl. cbn [supply_at]. destruct (N.ltb_spec e x) as [|Hx]; [done|].
      assert (x = e) as ->; [|done].
      apply last_Some_elem_of in Hl. apply elem_of_cons in Hl as [[= -> ->]|Hl]; [done|].
      rewrite Forall_forall in Hf. specialize (Hf _ Hl). cbn in Hf. lia. }
    destruct (decide (supply + sub * (e - start) <= U128_MAX)) as [Hok|Hbad].
    + rewrite amount_mul_eq. destruct (N.leb_spec (sub * (e - start)) U128_MAX); [|lia]. cbn [expect rbind].
      rewrite amount_add_eq. destruct (N.leb_spec (supply + sub * (e - start)) U128_MAX); [|lia]. cbn [expect rbind].
      assert (Forall (fun p => e <= p.1) ps) as Hge by (eapply Forall_impl; [exact Hf|]; cbn; lia).
      destruct (IH (supply + sub * (e - start)) r e Hs' Hge Hok) as [(tbl & -> & HL)|[-> (x & y & Hl & HL)]]; cbn [rbind].
      * left. eexists. split; [done|]. intros x y Hl. rewrite (Hlast x y Hl). destruct (N.ltb_spec e x) as [Hx|]; [|lia].
        destruct ps as [|q ps']; [cbn in Hl; injection Hl as -> ->; lia|]. apply (HL x y). rewrite last_cons_cons in Hl. exact Hl.
      * right. split; [done|]. exists x, y. destruct ps as [|q ps']; [cbn in Hl; done|]. split; [rewrite last_cons_cons; exact Hl|].
        rewrite (Hlast x y); [|rewrite last_cons_cons; exact Hl]. destruct (N.ltb_spec e x) as [Hx|Hx]; [exact HL|].
        apply last_Some_elem_of in Hl. rewrite Forall_forall in Hf. specialize (Hf _ Hl). cbn in Hf. lia.
    + right. split.
      * rewrite amount_mul_eq. destruct (N.leb_spec (sub * (e - start)) U128_MAX); cbn [expect rbind]; [|done].
        rewrite amount_add_eq. destruct (N.leb_spec (supply + sub * (e - start)) U128_MAX); [lia|]. done.
      * destruct (last ((e, r) :: ps)) as [[x y]|] eqn:Hl; [|apply last_None in Hl; done]. exists x, y. split; [done|].
        rewrite (Hlast x y eq_refl). destruct (e <? x); [|lia]. pose proof (supply_at_ge ps (supply + sub * (e - start)) r e x). lia.
Qed.
Lemma schedule_total t : table_ok t ->
  (exists f, schedule t = Ok f /\ issue_total t (tail_emission t).1 <= U128_MAX) \/ (schedule t = Panic /\ U128_MAX < issue_total t (tail_emission t).1).
Proof.
  intros (Hs & Hsup & _). unfold schedule, issue_total, tail_emission.
  destruct (precompute_total (et_periods t) (et_supply t) (et_subsidy t) 0 Hs (zero_below _) Hsup) as [(tbl & -> & H)|[-> (e & r & Hl & H)]].
  - left. eexists. split; [done|]. destruct (last (et_periods t)) as [[e r]|] eqn:El.
    + apply (H e r eq_refl).
    + cbn. rewrite supply_zero. exact Hsup.
  - right. rewrite Hl. split; [done|]. exact H.
Qed.
Lemma sub_at_tail t h : sorted_keys (et_periods t) -> (tail_emission t).1 < h -> sub_at (et_subsidy t) (et_periods t) h = (tail_emission t).2.
Proof.
  intros Hs. unfold tail_emission, sub_at. generalize (et_subsidy t). induction Hs as [|[e r] ps Hs IH Hf]; intros sub Hlt; [done|].
  cbn [foldl fst snd]. destruct ps as [|q ps].
  - cbn in *. destruct (N.ltb_spec e h); [done|lia].
  - rewrite last_cons_cons in *. assert (e <? h = true) as ->.
    { apply N.ltb_lt. destruct (last (q :: ps)) as [[x y]|] eqn:El; [|apply last_None in El; done]. cbn in Hlt.
      apply last_Some_elem_of in El. rewrite Forall_forall in Hf. specialize (Hf _ El). cbn in Hf. lia. }
    rewrite IH.
    + destruct (last (q :: ps)) eqn:El; [done|apply last_None in El; done].
    + destruct (last (q :: ps)) eqn:El; [exact Hlt|apply last_None in El; done].
Qed.
Lemma total_tail t h : sorted_keys (et_periods t) -> (tail_emission t).2 = 0 -> (tail_emission t).1 <= h ->
  issue_total t h = issue_total t (tail_emission t).1.
Proof.
  intros Hs H0 Hle. remember (tail_emission t).1 as b eqn:Hb. replace h with (b + (h - b)) by lia. generalize (h - b). intros d.
  induction d as [|d IH] using N.peano_ind; [f_equal; lia|].
  replace (b + N.succ d) with ((b + d) + 1) by lia. rewrite total_step by exact Hs. rewrite IH, sub_at_tail by (try exact Hs; lia). lia.
Qed.

(** *** Sorted association lists *)
Lemma bt_insert_elem {V} k (v : V) l p : p ∈ bt_insert k v l -> p = (k, v) \/ p ∈ l.
Proof.
  induction l as [|[k' v'] l IH]; cbn.
  - intros ->%elem_of_list_singleton. auto.
  - destruct (k <? k'); [intros H%elem_of_cons; exact H|]. destruct (k =? k'); intros [H|H]%elem_of_cons; auto.
    + right. right. exact H.
    + right. rewrite H. left.
    + destruct (IH H) as [?|?]; [auto|]. right. right. auto.
Qed.
Lemma bt_insert_sorted {V} k (v : V) l : sorted_keys l -> sorted_keys (bt_insert k v l).
Proof.
  induction 1 as [|[k' v'] l H IH Hf]; cbn; [repeat constructor|].
  destruct (N.ltb_spec k k') as [Hlt|Hge].
  - constructor; [constructor; assumption|]. constructor; [exact Hlt|]. eapply Forall_impl; [exact Hf|]. cbn. lia.
  - destruct (N.eqb_spec k k') as [->|Hne].
    + constructor; [exact H|exact Hf].
    + constructor; [exact IH|]. apply Forall_forall. intros p Hp%bt_insert_elem. destruct Hp as [->|Hp]; [cbn; lia|].
      rewrite Forall_forall in Hf. apply Hf, Hp.
Qed.
Lemma bt_insert_last {V} k (v : V) l : Forall (fun p => p.1 < k) l -> bt_insert k v l = l ++ [(k, v)].
Proof.
  induction l as [|[k' v'] l IH]; intros H; [done|]. apply Forall_cons in H as [H1 H2]. cbn in *.
  destruct (N.ltb_spec k k'); [lia|]. destruct (N.eqb_spec k k'); [lia|]. f_equal. apply IH, H2.
Qed.
Lemma bt_collect_sorted {V} (l : list (N * V)) : sorted_keys (bt_collect l).
Proof.
  unfold bt_collect. enough (forall m, sorted_keys m -> sorted_keys (foldl (fun m kv => bt_insert kv.1 kv.2 m) m l)) as H by (apply H; constructor).
  induction l as [|p l IH]; intros m Hm; [exact Hm|]. cbn. apply IH, bt_insert_sorted, Hm.
Qed.

(** *** Text *)
Definition plain (s : text) : Prop := s <> [] /\ forall c, c ∈ s -> c = "."%char \/ exists n, n < 10 /\ N_of_ascii c = 48 + n.
Lemma plain_not s c : plain s -> (c = ","%char \/ c = "+"%char \/ c = ":"%char) -> c ∉ s.
Proof.
  intros [_ H] Hc Hin. destruct (H c Hin) as [->|(n & H1 & H2)].
  - destruct Hc as [E|[E|E]]; discriminate.
  - assert (N_of_ascii c = 44 \/ N_of_ascii c = 43 \/ N_of_ascii c = 58) as Hn by (destruct Hc as [->|[->| ->]]; auto). lia.
Qed.
Lemma plain_space s c : plain s -> c ∈ s -> is_space c = false.
Proof.
  intros [_ H] Hin. destruct (H c Hin) as [->|(n & H1 & H2)]; [reflexivity|]. unfold is_space. rewrite H2.
  destruct (N.eqb_spec (48 + n) 32); [lia|]. destruct (N.leb_spec 9 (48 + n)); [|lia]. destruct (N.leb_spec (48 + n) 13); [lia|]. done.
Qed.
Lemma show_coins_plain a : a <= U128_MAX -> exists s, show_coins a = Ok s /\ plain s /\ from_fixedpoint_str s 11 = Ok a.
Proof.
  intros Ha. destruct (text_round_trip a 11 Ha) as (s & E1 & E2); [lia|right; lia|]. exists s. split; [exact E1|]. split; [|exact E2].
  destruct (to_text_spec a 11) as (s' & i & f & E & Hs & Hi & Hf & Hne & _); [lia|].
  rewrite E in E1. injection E1 as ->. destruct Hs as [(-> & _)|[-> ->]].
  - split; [destruct i; discriminate|]. intros c Hc. apply elem_of_app in Hc as [Hc|Hc]; [right; apply Hi, Hc|].
    apply elem_of_cons in Hc as [->|Hc]; [left; done|right; apply Hf, Hc].
  - split; [exact Hne|]. intros c Hc. right. apply Hi, Hc.
Qed.
Lemma digits_plain n : plain (digits n).
Proof. destruct (digits_spec n) as (H1 & _ & H3 & _). split; [exact H3|]. intros c Hc. right. apply H1, Hc. Qed.
Lemma parse_u64_digits n : n <= U64_MAX -> parse_u64 (digits n) = Some n.
Proof.
  intros Hn. destruct (digits_spec n) as (H1 & H2 & H3 & _). unfold parse_u64. destruct (digits n) as [|c s] eqn:E; [done|].
  assert (c =?a "+"%char = false) as ->.
  { apply Ascii.eqb_neq. intros ->. destruct (H1 "+"%char) as (k & Hk & Hk'); [left|]. change (43 = 48 + k) in Hk'. lia. }
  rewrite (proj2 (all_digits_forallb (c :: s)) H1). pose proof (parse_digits_0 (c :: s) H1) as Hp. cbn [empty_to_zero] in Hp. rewrite Hp, H2.
  destruct (N.leb_spec n U128_MAX) as [|Hx]; [|unfold U64_MAX, U128_MAX in *; lia]. destruct (N.leb_spec n U64_MAX); [done|lia].
Qed.
Lemma trim_spaces_id s : (forall c, c ∈ s -> is_space c = false) -> trim_spaces s = s.
Proof.
  assert (forall t : text, (forall c, c ∈ t -> is_space c = false) -> drop_spaces t = t) as Hd.
  { intros [|c t] H; [done|]. cbn. rewrite H by left. done. }
  intros H. unfold trim_spaces. rewrite (Hd s H), (Hd (rev s)); [apply rev_involutive|].
  intros c Hc. apply H. apply elem_of_list_In. apply in_rev. apply elem_of_list_In, Hc.
Qed.
Lemma split_on_none sep s : sep ∉ s -> split_on sep s = [s].
Proof.
  induction s as [|c s IH]; intros H; [done|]. apply not_elem_of_cons in H as [H1 H2]. cbn.
  destruct (Ascii.eqb_spec c sep); [congruence|]. rewrite IH by exact H2. done.
Qed.
Lemma split_on_app sep s rest : sep ∉ s -> split_on sep (s ++ sep :: rest) = s :: split_on sep rest.
Proof.
  induction s as [|c s IH]; intros H; cbn.
  - rewrite Ascii.eqb_refl. done.
  - apply not_elem_of_cons in H as [H1 H2]. destruct (Ascii.eqb_spec c sep); [congruence|]. rewrite IH by exact H2. done.
Qed.
Lemma split_once1_app sep s rest : sep ∉ s -> split_once1 sep (s ++ sep :: rest) = Some (s, rest).
Proof.
  induction s as [|c s IH]; intros H; cbn.
  - rewrite Ascii.eqb_refl. done.
  - apply not_elem_of_cons in H as [H1 H2]. destruct (Ascii.eqb_spec c sep); [congruence|]. rewrite IH by exact H2. done.
Qed.
Lemma split_once2_app c1 c2 s rest : c1 ∉ s -> split_once2 c1 c2 (s ++ c1 :: c2 :: rest) = Some (s, rest).
Proof.
  induction s as [|c s IH]; intros H; cbn.
  - rewrite !Ascii.eqb_refl. done.
  - apply not_elem_of_cons in H as [H1 H2]. destruct (Ascii.eqb_spec c c1); [congruence|]. rewrite IH by exact H2. done.
Qed.
Lemma plain_app_not s c1 c2 s' c : plain s -> plain s' -> c = ","%char \/ c = "+"%char \/ c = ":"%char -> c <> c1 -> c <> c2 ->
  c ∉ s ++ c1 :: c2 :: s'.
Proof.
  intros H H' Hc H1 H2 Hin. apply elem_of_app in Hin as [Hin|Hin]; [exact (plain_not _ _ H Hc Hin)|].
  apply elem_of_cons in Hin as [E|Hin]; [congruence|]. apply elem_of_cons in Hin as [E|Hin]; [congruence|exact (plain_not _ _ H' Hc Hin)].
Qed.

(** Texts of the periods, each shown as height, colon, plus, coins. *)
Definition period_text (p : N * amount) (w : text) : Prop :=
  exists c, w = digits p.1 ++ ":"%char :: "+"%char :: c /\ plain c /\ from_fixedpoint_str c 11 = Ok p.2.
Lemma show_periods ps : Forall (fun p => p.1 <= U64_MAX /\ p.2 <= U128_MAX) ps -> forall acc,
  exists ws, Forall2 period_text ps ws /\
    rfold (fun acc '(ht, coin) => let? c := show_coins coin in Ok (acc ++ ","%char :: digits ht ++ ":"%char :: "+"%char :: c)) ps acc =
    Ok (foldl (fun acc w => acc ++ ","%char :: w) acc ws).
Proof.
  induction 1 as [|[h v] ps [H1 H2] H IH]; intros acc.
  - exists []. split; [constructor|done].
  - cbn in H1, H2. destruct (show_coins_plain v H2) as (c & E & Hp & Ec). cbn [rfold]. rewrite E. cbn [rbind].
    destruct (IH (acc ++ ","%char :: digits h ++ ":"%char :: "+"%char :: c)) as (ws & Hf & ->).
    exists ((digits h ++ ":"%char :: "+"%char :: c) :: ws). split; [|done]. constructor; [|exact Hf]. exists c. auto.
Qed.
Lemma period_no_comma p w : period_text p w -> ","%char ∉ w.
Proof. intros (c & -> & Hc & _). apply plain_app_not; [apply digits_plain|exact Hc|auto|discriminate|discriminate]. Qed.
Lemma split_periods ws first : ","%char ∉ first -> Forall (fun w => ","%char ∉ w) ws ->
  split_on ","%char (foldl (fun acc w => acc ++ ","%char :: w) first ws) = first :: ws.
Proof.
  enough (forall ws first, foldl (fun acc w => acc ++ ","%char :: w) first ws = first ++ concat (map (cons ","%char) ws)) as Hfold.
  { intros H1 H2. rewrite Hfold. revert first H1. induction H2 as [|w ws Hw Hws IH]; intros first H1; cbn.
    - rewrite app_nil_r. apply split_on_none, H1.
    - rewrite split_on_app by exact H1. rewrite IH by exact Hw. done. }
  clear. induction ws as [|w ws IH]; intros first; cbn; [rewrite app_nil_r; done|]. rewrite IH, <- app_assoc. done.
Qed.
Lemma parse_periods_spec ps ws : Forall2 period_text ps ws -> Forall (fun p => p.1 <= U64_MAX /\ p.2 <= U128_MAX) ps ->
  forall n acc, sorted_keys (acc ++ ps) -> parse_periods n ws acc = Ok (acc ++ ps).
Proof.
  induction 1 as [|[h v] w ps ws (c & -> & Hc & Ec) H IH]; intros Hb n acc Hs; [rewrite app_nil_r; done|].
  apply Forall_cons in Hb as [[Hh Hv] Hb]. cbn [fst snd] in *. cbn [parse_periods].
  rewrite trim_spaces_id.
  2:{ intros x Hx. apply elem_of_app in Hx as [Hx|Hx]; [exact (plain_space _ _ (digits_plain h) Hx)|].
      apply elem_of_cons in Hx as [->|Hx]; [done|]. apply elem_of_cons in Hx as [->|Hx]; [done|exact (plain_space _ _ Hc Hx)]. }
  rewrite split_once2_app by (apply plain_not; [apply digits_plain|auto]). cbn [ok_or rbind].
  rewrite parse_u64_digits by exact Hh. cbn [ok_or rbind]. unfold parse_coins. rewrite Ec. cbn [rmap_err rbind].
  rewrite bt_insert_last.
  - rewrite IH; [rewrite <- app_assoc; done|exact Hb|rewrite <- app_assoc; exact Hs].
  - clear - Hs. induction acc as [|q acc IH]; [constructor|]. cbn [app] in Hs. apply StronglySorted_inv in Hs as [Hs Hf]. constructor; [|apply IH, Hs].
    rewrite Forall_forall in Hf. apply (Hf (h, v)). apply elem_of_app. right. left.
Qed.
Theorem table_round_trip t : table_ok t -> exists s, show_table t = Ok s /\ parse_table s = Ok t.
Proof.
  intros (Hs & H1 & H2 & H3). destruct t as [sup sub ps]. cbn [et_supply et_subsidy et_periods] in *. unfold show_table. cbn [et_supply et_subsidy et_periods].
  destruct (show_coins_plain sup H1) as (a & Ea & Pa & Fa). destruct (show_coins_plain sub H2) as (b & Eb & Pb & Fb). rewrite Ea, Eb. cbn [rbind].
  destruct (show_periods ps H3 (a ++ "+"%char :: b)) as (ws & Hw & ->). eexists. split; [done|].
  unfold parse_table. rewrite split_periods.
  - rewrite trim_spaces_id.
    2:{ intros x Hx. apply elem_of_app in Hx as [Hx|Hx]; [exact (plain_space _ _ Pa Hx)|].
        apply elem_of_cons in Hx as [->|Hx]; [done|exact (plain_space _ _ Pb Hx)]. }
    rewrite split_once1_app by (apply plain_not; [exact Pa|auto]). cbn [ok_or rbind].
    rewrite (trim_spaces_id a) by (intros x; apply plain_space, Pa). unfold parse_coins. rewrite Fa, Fb. cbn [rmap_err rbind].
    rewrite (parse_periods_spec ps ws Hw H3 1 [] Hs). done.
  - intros Hin. apply elem_of_app in Hin as [Hin|Hin]; [revert Hin; apply plain_not; [exact Pa|auto]|].
    apply elem_of_cons in Hin as [E|Hin]; [discriminate|]. revert Hin. apply plain_not; [exact Pb|auto].
  - clear - Hw. induction Hw as [|p w ps ws Hp Hw IH]; constructor; [apply (period_no_comma _ _ Hp)|exact IH].
Qed.
(** Whatever is accepted is a table with increasing heights and machine-sized numbers. *)
Lemma parse_table_ok s t : parse_table s = Ok t -> table_ok t.
Proof.
  unfold parse_table. destruct (split_on ","%char s) as [|first parts]; [done|].
  destruct (split_once1 "+"%char (trim_spaces first)) as [[sup sub]|]; [|done]. cbn [ok_or rbind]. unfold parse_coins.
  destruct (from_fixedpoint_str (trim_spaces sup) 11) as [a| |] eqn:Ea; [|done|done]. destruct (from_fixedpoint_str sub 11) as [b| |] eqn:Eb; [|done|done].
  cbn [rmap_err rbind].
  assert (forall x y, from_fixedpoint_str x 11 = Ok y -> y <= U128_MAX) as Hfit.
  { intros x y H. apply from_text_spec in H as (i & f & _ & _ & _ & _ & H & _). exact H. }
  enough (forall parts n acc ps, sorted_keys acc -> Forall (fun p => p.1 <= U64_MAX /\ p.2 <= U128_MAX) acc -> parse_periods n parts acc = Ok ps ->
    sorted_keys ps /\ Forall (fun p => p.1 <= U64_MAX /\ p.2 <= U128_MAX) ps) as Hp.
  { destruct (parse_periods 1 parts []) as [ps| |] eqn:E; [|done|done]. intros [= <-].
    destruct (Hp _ _ _ _ (SSorted_nil _) (Forall_nil_2 _) E) as [Q1 Q2]. split; [exact Q1|]. split; [exact (Hfit _ _ Ea)|]. split; [exact (Hfit _ _ Eb)|exact Q2]. }
  clear - Hfit. induction parts as [|w parts IH]; intros n acc ps Hs Hb; cbn [parse_periods]; [intros [= <-]; auto|].
  destruct (split_once2 ":"%char "+"%char (trim_spaces w)) as [[x y]|]; [|done]. cbn [ok_or rbind].
  destruct (parse_u64 x) as [h|] eqn:Eh; [|done]. cbn [ok_or rbind]. unfold parse_coins.
  destruct (from_fixedpoint_str y 11) as [v| |] eqn:Ev; [|done|done]. cbn [rmap_err rbind]. intros E. eapply IH, E.
  - apply bt_insert_sorted, Hs.
  - apply Forall_forall. intros p [->|Hp]%bt_insert_elem; [|rewrite Forall_forall in Hb; apply Hb, Hp]. cbn. split; [|exact (Hfit _ _ Ev)].
    unfold parse_u64 in Eh. destruct x as [|c x]; [done|]. destruct (c =?a "+"%char); destruct x as [|? ?]; try done;
      match type of Eh with context [if ?b then _ else _] => destruct b end; try done;
      match type of Eh with match ?o with _ => _ end = _ => destruct o as [z|] end; try done;
      destruct (N.leb_spec z U64_MAX); try done; injection Eh as <-; assumption.
Qed.

(** ** Upgrades *)
Section Upgrades.
  Context {T : Type} (tle : relation T) `{!RelDecision tle} `{!TotalOrder tle}.
  Notation le := (upgrade_le tle).
  Lemma upgrade_refl x : le x x.
  Proof. right. split; [done|reflexivity]. Qed.
  Global Instance upgrade_trans : Transitive le.
  Proof.
    intros x y z [H1|[H1 H1']] [H2|[H2 H2']]; [left; lia|left; lia|left; lia|]. right. split; [lia|]. etransitivity; eassumption.
  Qed.
  Global Instance upgrade_total : Total le.
  Proof.
    intros x y. unfold upgrade_le. destruct (N.lt_total x.1 y.1) as [H|[H|H]]; [auto| |right; left; lia].
    destruct (total tle x.2 y.2) as [?|?]; [left; right; auto|right; right; auto].
  Qed.
  Lemma initialize_ok ups u : initialize tle ups = Ok u ->
    u ≡ₚ ups /\ StronglySorted le u /\ exists v, (0, v) ∈ u.
  Proof.
    unfold initialize. pose proof (merge_sort_Permutation le ups) as Hp. pose proof (StronglySorted_merge_sort le ups) as Hs.
    destruct (merge_sort le ups) as [|[h v] l]; [done|]. destruct (N.eqb_spec h 0) as [->|]; [|done]. intros [= <-].
    split; [exact Hp|]. split; [exact Hs|]. exists v. left.
  Qed.
  Lemma initialize_accepts ups : (exists u, initialize tle ups = Ok u) <-> exists v, (0, v) ∈ ups.
  Proof.
    unfold initialize. pose proof (merge_sort_Permutation le ups) as Hp. pose proof (StronglySorted_merge_sort le ups) as Hs.
    destruct (merge_sort le ups) as [|[h v] l].
    - split; [intros [u H]; done|]. intros [v Hv]. rewrite <- Hp in Hv. apply elem_of_nil in Hv. done.
    - split.
      + intros [u H]. destruct (N.eqb_spec h 0) as [->|]; [|done]. exists v. rewrite <- Hp. left.
      + intros [v' Hv]. rewrite <- Hp in Hv. exists ((h, v) :: l). enough (h = 0) as -> by done.
        apply elem_of_cons in Hv as [[= ? ?]|Hv]; [done|]. apply StronglySorted_inv in Hs as [_ Hf]. rewrite Forall_forall in Hf.
        specialize (Hf _ Hv). unfold upgrade_le in Hf. cbn in Hf. lia.
  Qed.
  Lemma find_last u h : StronglySorted le u -> (exists v, (0, v) ∈ u) -> exists x, version_at_height u h = Ok x /\ in_force tle u h x.
  Proof.
    intros Hs [v0 H0]. unfold version_at_height.
    enough (forall x, List.find (fun p : N * T => p.1 <=? h) (rev u) = Some x -> in_force tle u h x) as Hf.
    { destruct (List.find (fun p : N * T => p.1 <=? h) (rev u)) as [x|] eqn:E; [exists x; split; [done|apply Hf; reflexivity]|].
      exfalso. pose proof (List.find_none _ _ E (0, v0)) as Hn. cbn [fst] in Hn. destruct (N.leb_spec 0 h); [|lia]. discriminate Hn.
      apply -> in_rev. apply elem_of_list_In. exact H0. }
    clear H0 v0. induction u as [|y u IH]; intros x; [done|]. cbn [rev]. apply StronglySorted_inv in Hs as [Hs Hf].
    assert (forall l1 l2 (P : N * T -> bool), List.find P (l1 ++ l2) = match List.find P l1 with Some z => Some z | None => List.find P l2 end) as Hap.
    { clear. induction l1 as [|z l1 IH]; intros l2 P; [done|]. cbn. destruct (P z); [done|apply IH]. }
    rewrite Hap. destruct (List.find (fun p : N * T => p.1 <=? h) (rev u)) as [z|] eqn:E.
    - intros [= <-]. destruct (IH Hs z eq_refl) as (I1 & I2 & I3). split; [right; exact I1|]. split; [exact I2|].
      intros u' Hu' Hle. apply elem_of_cons in Hu' as [->|Hu']; [|apply I3; assumption]. rewrite Forall_forall in Hf. exact (Hf z I1).
    - cbn. destruct (N.leb_spec y.1 h) as [Hy|]; [|done]. intros [= <-]. split; [left|]. split; [exact Hy|].
      intros u' Hu' Hle. apply elem_of_cons in Hu' as [->|Hu']; [apply upgrade_refl|].
      exfalso. pose proof (List.find_none _ _ E u') as Hn. cbn in Hn. destruct (N.leb_spec u'.1 h); [|lia]. discriminate Hn.
      apply -> in_rev. apply elem_of_list_In. exact Hu'.
  Qed.
  Lemma in_force_perm u ups h x : u ≡ₚ ups -> in_force tle u h x -> in_force tle ups h x.
  Proof. intros Hp (H1 & H2 & H3). split; [rewrite <- Hp; exact H1|]. split; [exact H2|]. intros u' Hu'. apply H3. rewrite Hp. exact Hu'. Qed.
  Lemma in_force_unique ups h x y : in_force tle ups h x -> in_force tle ups h y -> x = y.
  Proof.
    intros (H1 & H2 & H3) (H1' & H2' & H3'). destruct (H3 y H1' H2') as [Ha|[Ha Ha']], (H3' x H1 H2) as [Hb|[Hb Hb']]; try lia.
    destruct x as [hx vx], y as [hy vy]. cbn in *. f_equal; [lia|]. apply (anti_symm tle); assumption.
  Qed.
  (** With distinct heights and distinct versions, the range reported for a version is where it is in force. *)
  Lemma height_range_spec (same : T -> T -> bool) u v h : (forall x y, same x y = true <-> x = y) ->
    StronglySorted le u -> NoDup (map fst u) -> NoDup (map snd u) -> h < U64_MAX -> Forall (fun p => p.1 < U64_MAX) u ->
    forall s e, height_range same u v = Some (s, e) -> (s <= h < e <-> in_force tle u h (s, v)).
  Proof.
    intros Hsame Hs Hh Hv Hmax Hall. induction u as [|[k w] u IH]; intros s e; [done|]. cbn [height_range].
    apply StronglySorted_inv in Hs as [Hs Hf]. cbn [map fst snd] in Hh, Hv. apply NoDup_cons in Hh as [Hh Hh'], Hv as [Hv Hv'].
    apply Forall_cons in Hall as [Hk Hall]. cbn [fst] in Hk.
    assert (forall p, p ∈ u -> k < p.1) as Hlt.
    { intros p Hp. rewrite Forall_forall in Hf. destruct (Hf p Hp) as [H|[H _]]; [exact H|]. exfalso. apply Hh. cbn in H. rewrite H.
      apply elem_of_list_In. apply List.in_map. apply elem_of_list_In. exact Hp. }
    destruct (same w v) eqn:Ew.
    - apply Hsame in Ew as ->. intros [= <- <-]. split.
      + intros [H1 H2]. split; [left|]. split; [exact H1|]. intros p Hp Hle. apply elem_of_cons in Hp as [->|Hp]; [apply upgrade_refl|].
        destruct u as [|[k' w'] u]; [apply elem_of_nil in Hp; done|]. exfalso.
        apply elem_of_cons in Hp as [->|Hp]; [cbn in Hle; lia|]. apply StronglySorted_inv in Hs as [_ Hf']. rewrite Forall_forall in Hf'.
        destruct (Hf' p Hp) as [H|[H _]]; cbn in H; lia.
      + intros (_ & H2 & H3). cbn in H2. split; [exact H2|]. destruct u as [|[k' w'] u]; [exact Hmax|].
        destruct (N.lt_ge_cases h k') as [|Hge]; [assumption|]. specialize (Hlt (k', w') ltac:(left)). cbn in Hlt.
        destruct (H3 (k', w')) as [H|[H _]]; [right; left|exact Hge|cbn in H; lia|cbn in H; lia].
    - intros E. specialize (IH Hs Hh' Hv' Hall s e E). rewrite IH. clear IH.
      assert ((s, v) ∈ u) as Hin.
      { clear - E Hsame. induction u as [|[k' w'] u IH]; [done|]. cbn in E. destruct (same w' v) eqn:Ew'; [apply Hsame in Ew' as ->; injection E as -> _; left|].
        right. apply IH, E. }
      specialize (Hlt _ Hin). cbn in Hlt. split; intros (H1 & H2 & H3).
      + split; [right; exact H1|]. split; [exact H2|]. intros p Hp Hle. apply elem_of_cons in Hp as [->|Hp]; [left; exact Hlt|apply H3; assumption].
      + split; [exact Hin|]. split; [exact H2|]. intros p Hp Hle. apply H3; [right; exact Hp|exact Hle].
  Qed.
  Lemma height_range_none (same : T -> T -> bool) u v : (forall x y, same x y = true <-> x = y) ->
    height_range same u v = None <-> forall h, (h, v) ∉ u.
  Proof.
    intros Hsame. induction u as [|[k w] u IH]; cbn; [split; [intros _ h H; apply elem_of_nil in H; done|done]|].
    destruct (same w v) eqn:E.
    - apply Hsame in E as ->. split; [done|]. intros H. exfalso. apply (H k). left.
    - rewrite IH. split; intros H h Hin.
      + apply elem_of_cons in Hin as [[= -> ->]|Hin]; [|exact (H h Hin)]. rewrite (proj2 (Hsame w w) eq_refl) in E. done.
      + apply (H h). right. exact Hin.
  Qed.
End Upgrades.

(** ** Mainnet *)
Lemma bt_collect_id {V} (l : list (N * V)) : sorted_keys l -> bt_collect l = l.
Proof.
  unfold bt_collect. enough (forall m, sorted_keys (m ++ l) -> foldl (fun m kv => bt_insert kv.1 kv.2 m) m l = m ++ l) as H by (apply (H [])).
  induction l as [|[k v] l IH]; intros m Hs; [cbn; rewrite app_nil_r; done|]. cbn [foldl fst snd]. rewrite bt_insert_last.
  - rewrite IH; [rewrite <- app_assoc; done|rewrite <- app_assoc; exact Hs].
  - clear - Hs. induction m as [|q m IH]; [constructor|]. cbn [app] in Hs. apply StronglySorted_inv in Hs as [Hs Hf]. constructor; [|apply IH, Hs].
    rewrite Forall_forall in Hf. apply (Hf (k, v)). apply elem_of_app. right. left.
Qed.
Definition mainnet_rewards (b : N) : list (N * amount) :=
  imap (fun i coins => (b * N.of_nat (S i), from_coins coins)) [151; 113; 85; 64; 48; 36; 27; 20; 15; 0].
Lemma mainnet_spec b t : b <= 31536000 -> t = EmissionTable (from_coins 400000000) (from_coins 202) (bt_collect (mainnet_rewards b)) ->
  table_ok t /\ (tail_emission t).2 = 0 /\ issue_total t (tail_emission t).1 = from_coins (400000000 + 761 * b).
Proof.
  intros Hb ->. destruct (decide (b = 0)) as [->|Hb0].
  - split; [|split; vm_compute; reflexivity]. split; [apply bt_collect_sorted|]. cbn [et_supply et_subsidy et_periods].
    split; [vm_compute; discriminate|]. split; [vm_compute; discriminate|]. repeat constructor; vm_compute; discriminate.
  - assert (sorted_keys (mainnet_rewards b)) as Hs.
    { unfold mainnet_rewards. cbn [imap compose]. repeat constructor; cbn [fst]; unfold compose; lia. }
    rewrite bt_collect_id by exact Hs.
    split; [split; [exact Hs|]|]; cbn [et_supply et_subsidy et_periods].
    + split; [vm_compute; discriminate|]. split; [vm_compute; discriminate|]. unfold mainnet_rewards. cbn [imap compose].
      repeat constructor; cbn [fst snd]; unfold compose, U64_MAX; try lia; vm_compute; discriminate.
    + split; [reflexivity|]. change ((tail_emission (EmissionTable (from_coins 400000000) (from_coins 202) (mainnet_rewards b))).1) with (b * 10).
      unfold issue_total, mainnet_rewards, compose. cbn [imap et_supply et_subsidy et_periods]. unfold compose. cbn [supply_at].
      change (N.of_nat 1) with 1. change (N.of_nat 2) with 2. change (N.of_nat 3) with 3. change (N.of_nat 4) with 4. change (N.of_nat 5) with 5.
      change (N.of_nat 6) with 6. change (N.of_nat 7) with 7. change (N.of_nat 8) with 8. change (N.of_nat 9) with 9. change (N.of_nat 10) with 10.
      repeat match goal with |- context [?x <? ?y] => first [ destruct (N.ltb_spec x y) as [_|]; [|exfalso; lia] | destruct (N.ltb_spec x y) as [|_]; [exfalso; lia|]] end.
      replace (b * 1 - 0) with b by lia. replace (b * 2 - b * 1) with b by lia. replace (b * 3 - b * 2) with b by lia.
      replace (b * 4 - b * 3) with b by lia. replace (b * 5 - b * 4) with b by lia. replace (b * 6 - b * 5) with b by lia.
      replace (b * 7 - b * 6) with b by lia. replace (b * 8 - b * 7) with b by lia. replace (b * 9 - b * 8) with b by lia.
      replace (b * 10 - b * 9) with b by lia. unfold from_coins. lia.
Qed.
