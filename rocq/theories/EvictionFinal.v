From Coq Require Import Permutation Sorted.
From Verif Require Import Base EvictionModel EvictionSpec EvictionProofs.

Lemma as_i64_small x : (Z.of_N x <= I64_MAX)%Z -> as_i64 x = Z.of_N x.
Proof.
  unfold as_i64, I64_MAX. intros Hx. rewrite Z.mod_small by lia. destruct (Z.leb_spec (Z.of_N x) 9223372036854775807); lia.
Qed.
Lemma cand_ping key now p : (ping_micros p <= I64_MAX)%Z -> c_ping (cand_new key now p) = ping_micros p.
Proof. unfold cand_new, ping_micros. cbn. destruct (p_ping_min p); [|done]. apply as_i64_small. Qed.

Lemma candidates_in key now r ps c : c ∈ eviction_candidates key now r ps <->
  exists p, p ∈ ps /\ of_kind r p /\ c = cand_new key now p.
Proof.
  unfold eviction_candidates. rewrite elem_of_list_fmap. split.
  - intros (p & -> & Hp%elem_of_list_filter). exists p. unfold of_kind. tauto.
  - intros (p & Hp & Hk & ->). exists p. split; [done|]. apply elem_of_list_filter. done.
Qed.
Lemma filter_filter {A} (P Q : A -> Prop) `{forall x, Decision (P x)} `{forall x, Decision (Q x)} (l : list A) :
  filter P (filter Q l) = filter (fun x => Q x /\ P x) l.
Proof.
  induction l as [|x l IH]; [done|]. rewrite !filter_cons. destruct (decide (Q x)) as [Hq|Hq].
  - rewrite filter_cons, IH. destruct (decide (P x)); [by rewrite decide_True|by rewrite decide_False by tauto].
  - rewrite IH, decide_False; tauto.
Qed.
Lemma candidates_number key now r ps (P : cand -> Prop) (Q : peer -> Prop) `{forall x, Decision (P x)} `{forall x, Decision (Q x)} :
  (forall p, p ∈ ps -> of_kind r p -> P (cand_new key now p) <-> Q p) ->
  length (filter P (eviction_candidates key now r ps)) = number (fun p => of_kind r p /\ Q p) ps.
Proof.
  intros HPQ. unfold eviction_candidates, number. rewrite (count_map _ _ Q).
  - f_equal. apply filter_filter.
  - intros p [Hk Hp]%elem_of_list_filter. by apply HPQ.
Qed.
Lemma candidates_length key now r ps : length (eviction_candidates key now r ps) = number (of_kind r) ps.
Proof. unfold eviction_candidates, number. by rewrite map_length. Qed.

Lemma same_peer ps p q : distinct_ids ps -> p ∈ ps -> q ∈ ps -> p_id p = p_id q -> p = q.
Proof.
  intros Hd Hp Hq He. apply elem_of_list_lookup in Hp as [i Hi]. apply elem_of_list_lookup in Hq as [j Hj].
  assert (i = j) as ->; [|congruence].
  eapply NoDup_lookup; [exact Hd| |]; rewrite list_lookup_fmap; [by rewrite Hi|by rewrite Hj, He].
Qed.

Section Final.
Context (sort : sorting) (Hsort : sorts sort) (key : Z -> Z) (rnd : nat) (cfg : config) (now : N) (ps : list peer).
Notation cands := (eviction_candidates key now Inbound ps).
Notation count P l := (length (filter P l)).

Lemma inbound_some x : evict_inbound sort key rnd cfg now ps = Ok (Some x) ->
  exists p, p ∈ ps /\ of_kind Inbound p /\ p_id p = x /\ total_preserved_inbound_count cfg < number (of_kind Inbound) ps /\
    (p_banned_or_discouraged p = true \/
     (forall q, q ∈ ps -> of_kind Inbound q -> p_banned_or_discouraged q = false) /\
     cand_new key now p ∈ kept sort cfg cands /\
     (forall g, count (fun d => c_group d = g) (kept sort cfg cands) <=
                count (fun d => c_group d = key (p_group p)) (kept sort cfg cands)) /\
     (forall d, d ∈ kept sort cfg cands -> c_group d = key (p_group p) -> (c_id d <= p_id p)%N)).
Proof using Hsort.
  unfold evict_inbound, select_for_eviction_inbound. rewrite candidates_length.
  destruct (Nat.leb_spec (number (of_kind Inbound) ps) (total_preserved_inbound_count cfg)) as [|Hn]; [done|].
  destruct (choose_banned rnd cands) as [c|] eqn:Hc.
  - intros [= <-]. apply choose_banned_some in Hc as [Hc Hb]. apply candidates_in in Hc as (p & Hp & Hk & ->).
    exists p. split_and!; try done. by left.
  - cbv zeta. unfold filter_fast_ping at 1. destruct (existsb _ _); [done|]. cbn [rbind]. intros Hx.
    apply (most_connections sort Hsort) in Hx as (c & Hin & Hid & Hg & Hy). fold (kept sort cfg cands) in Hin, Hg, Hy.
    assert (c ∈ cands) as Hcc by (eapply elem_of_submseteq; [exact Hin|apply (kept_facts sort Hsort)]).
    apply candidates_in in Hcc as (p & Hp & Hk & ->). exists p. split_and!; try done. right. split_and!; [|done..].
    intros q Hq Hkq. apply (choose_banned_none _ _ Hc (cand_new key now q)). apply candidates_in. eauto.
Qed.

Lemma inbound_found : sane_pings ps -> total_preserved_inbound_count cfg < number (of_kind Inbound) ps ->
  exists x, evict_inbound sort key rnd cfg now ps = Ok (Some x).
Proof using Hsort.
  intros Hs Hn. unfold evict_inbound, select_for_eviction_inbound. rewrite candidates_length.
  destruct (Nat.leb_spec (number (of_kind Inbound) ps) (total_preserved_inbound_count cfg)) as [|_]; [lia|].
  destruct (choose_banned rnd cands) as [c|] eqn:Hc; [eauto|]. cbv zeta.
  destruct (kept_facts sort Hsort cfg cands) as (Hsub & Hlen & _).
  unfold filter_fast_ping at 1. destruct (existsb _ _) eqn:He; cbn [rbind].
  - exfalso. apply existsb_exists in He as (c & Hcin & Hm). apply elem_of_list_In in Hcin.
    assert (c ∈ cands) as Hcc.
    { eapply elem_of_submseteq; [exact Hcin|]. apply (drop_last_sub sort Hsort); [apply group_total|apply group_trans]. }
    apply candidates_in in Hcc as (p & Hp & _ & ->). specialize (Hs p Hp). rewrite (cand_ping key now p Hs) in Hm.
    apply Z.eqb_eq in Hm. unfold ping_micros, I64_MAX, I64_MIN in *. destruct (p_ping_min p); lia.
  - apply (most_connections_ok sort Hsort). fold (kept sort cfg cands). intros Hk. rewrite Hk, candidates_length in Hlen.
    cbn in Hlen. lia.
Qed.

Lemma inbound_none : number (of_kind Inbound) ps <= total_preserved_inbound_count cfg ->
  evict_inbound sort key rnd cfg now ps = Ok None.
Proof using.
  intros Hn. unfold evict_inbound, select_for_eviction_inbound. rewrite candidates_length.
  destruct (Nat.leb_spec (number (of_kind Inbound) ps) (total_preserved_inbound_count cfg)); [done|lia].
Qed.

(** Outbound. *)
Lemma ext_new_ok p : p ∈ ps -> sane_times ps -> ext_new now (cand_new key now p) = Ok (cand_new key now p, last_tip now p).
Proof using.
  intros Hp Hs. unfold ext_new, last_tip. cbn. destruct (p_expecting p) as [e|] eqn:He; [|done].
  specialize (Hs p e Hp He). unfold checked_add, BLOCK_EXPECTATION_MAX_DURATION.
  destruct (N.leb_spec (e + 5000000000) DURATION_MAX); [|lia]. cbn [expect rbind].
  destruct (N.leb_spec now (e + 5000000000)); [rewrite decide_True|rewrite decide_False]; try done. lia.
Qed.
Lemma ext_new_some c y : c ∈ map (cand_new key now) ps -> ext_new now c = Ok y ->
  exists p, p ∈ ps /\ y = (cand_new key now p, last_tip now p) /\ c = cand_new key now p.
Proof using.
  intros (p & -> & Hp)%elem_of_list_fmap Hy. exists p. split_and!; [done| |done]. revert Hy. unfold ext_new, last_tip. cbn.
  destruct (p_expecting p) as [e|] eqn:He; [|by intros [= <-]].
  unfold checked_add, BLOCK_EXPECTATION_MAX_DURATION. destruct (_ <=? DURATION_MAX)%N; [|done]. cbn.
  intros [= <-]. f_equal. destruct (N.leb_spec now (e + 5000000000)); [rewrite decide_True|rewrite decide_False]; try done. lia.
Qed.

Lemma rmapM_ok {E A B} (f : A -> res E B) (g : A -> B) l : (forall x, x ∈ l -> f x = Ok (g x)) -> rmapM f l = Ok (map g l).
Proof using.
  induction l as [|x l IH]; [done|]. intros Hl. cbn. rewrite Hl by left. rewrite IH; [done|]. intros y Hy. apply Hl. by right.
Qed.

Definition ext_list (r : role) (age : N) : list peer := filter (fun p => of_kind r p /\ connected_for now age p) ps.

Lemma mature_candidates r age : filter_mature_peers (eviction_candidates key now r ps) age = map (cand_new key now) (ext_list r age).
Proof using.
  unfold filter_mature_peers, eviction_candidates, ext_list. clear. induction ps as [|p l IH]; [done|]. rewrite !filter_cons.
  destruct (decide (p_role p = r /\ p_disconnecting p = false)) as [Hk|Hk].
  - cbn [map]. rewrite filter_cons, IH. unfold connected_for. cbn.
    destruct (decide (age <= now - p_created p)%N) as [Ha|Ha].
    + by rewrite decide_True.
    + rewrite decide_False by tauto. done.
  - rewrite IH. rewrite decide_False; [done|]. unfold of_kind. tauto.
Qed.

Lemma rmapM_some r age l : rmapM (ext_new now) (map (cand_new key now) (ext_list r age)) = Ok l ->
  l = map (fun p => (cand_new key now p, last_tip now p)) (ext_list r age).
Proof using.
  assert (Hsub : forall p, p ∈ ext_list r age -> p ∈ ps) by (intros p Hp; apply elem_of_list_filter in Hp; tauto).
  revert l. induction (ext_list r age) as [|p k IH]; cbn [map rmapM]; [by intros l [= <-]|]. intros l.
  destruct (ext_new now (cand_new key now p)) as [y| |] eqn:Hy; try done.
  destruct (rmapM _ _) as [ys| |]; try done. intros [= <-]. f_equal.
  - revert Hy. unfold ext_new, last_tip. cbn. destruct (p_expecting p) as [e|]; [|by intros [= <-]].
    unfold checked_add, BLOCK_EXPECTATION_MAX_DURATION. destruct (_ <=? DURATION_MAX)%N; [|done]. cbn.
    intros [= <-]. f_equal. destruct (N.leb_spec now (e + 5000000000)); [rewrite decide_True|rewrite decide_False]; try done. lia.
  - apply IH; [|done]. intros q Hq. apply Hsub. by right.
Qed.

Lemma find_sorted {A} (f : A -> bool) (R : A -> A -> Prop) l x :
  StronglySorted R l -> (forall x, R x x) -> List.find f l = Some x -> x ∈ l /\ f x = true /\ forall y, y ∈ l -> f y = true -> R x y.
Proof using.
  intros Hs Hr. revert x. induction Hs as [|z l _ IH Hz]; [done|]. intros x. cbn. destruct (f z) eqn:Hf.
  - intros [= <-]. split_and!; [left|done|]. intros y [->|Hy]%elem_of_cons _; [done|]. rewrite Forall_forall in Hz. auto.
  - intros Hx. destruct (IH x Hx) as (Hin & Hfx & Hmin). split_and!; [by right|done|].
    intros y [->|Hy]%elem_of_cons Hfy; [congruence|auto].
Qed.

Lemma outbound_some r age mx x :
  select_for_eviction_outbound sort rnd (eviction_candidates key now r ps) age mx now = Ok (Some x) ->
  exists p, p ∈ ps /\ of_kind r p /\ p_id p = x /\ mx < number (of_kind r) ps /\
    (p_banned_or_discouraged p = true \/
     (forall q, q ∈ ps -> of_kind r q -> p_banned_or_discouraged q = false) /\
     connected_for now age p /\ mx < number (fun q => of_kind r q /\ connected_for now age q) ps /\
     (last_tip now p = None ->
      forall q, q ∈ ps -> of_kind r q -> connected_for now age q -> last_tip now q = None -> (now - p_created p <= now - p_created q)%N) /\
     (forall q, q ∈ ps -> of_kind r q -> connected_for now age q -> at_least_as_late (last_tip now p) (last_tip now q))).
Proof using Hsort.
  unfold select_for_eviction_outbound. rewrite candidates_length.
  destruct (Nat.leb_spec (number (of_kind r) ps) mx) as [|Hn]; [done|].
  destruct (choose_banned rnd (eviction_candidates key now r ps)) as [c|] eqn:Hc.
  - intros [= <-]. apply choose_banned_some in Hc as [Hc Hb]. apply candidates_in in Hc as (p & Hp & Hk & ->).
    exists p. split_and!; try done. by left.
  - cbv zeta. rewrite mature_candidates, map_length.
    destruct (Nat.leb_spec (length (ext_list r age)) mx) as [|Hm]; [done|].
    destruct (rmapM (ext_new now) _) as [l| |] eqn:Hl; [|done..]. cbn [rbind]. apply rmapM_some in Hl.
    destruct (Hsort _ (fun a b : cand * option N => (c_age a.1 <=? c_age b.1)%N) l) as [Hp Hs].
    { intros. rewrite !N.leb_le. lia. } { intros ???. rewrite !N.leb_le. lia. }
    assert (Hin : forall y, y ∈ sort _ (fun a b : cand * option N => (c_age a.1 <=? c_age b.1)%N) l <->
              exists p, p ∈ ps /\ of_kind r p /\ connected_for now age p /\ y = (cand_new key now p, last_tip now p)).
    { intros y. rewrite Hp, Hl, elem_of_list_fmap. split.
      - intros (p & -> & Hq). apply elem_of_list_filter in Hq. exists p. tauto.
      - intros (p & Hp' & Hk & Hage & ->). exists p. split; [done|]. apply elem_of_list_filter. done. }
    assert (Hnb : forall q, q ∈ ps -> of_kind r q -> p_banned_or_discouraged q = false).
    { intros q Hq Hk. apply (choose_banned_none _ _ Hc (cand_new key now q)). apply candidates_in. eauto. }
    destruct (List.find _ _) as [y|] eqn:Hf.
    + intros [= <-]. eapply find_sorted in Hf as (Hy & Hnone & Hmin); [|exact Hs|intros z; apply N.leb_le; done].
      apply Hin in Hy as (p & Hp' & Hk & Hage & ->). apply bool_decide_eq_true in Hnone. cbn in Hnone.
      exists p. split_and!; try done. right. split_and!; try done.
      * intros _ q Hq Hkq Hageq Hnq. specialize (Hmin (cand_new key now q, last_tip now q)). cbn in Hmin.
        apply N.leb_le, Hmin; [|by apply bool_decide_eq_true]. apply Hin. eauto.
      * intros q _ _ _. by rewrite Hnone.
    + destruct (min_by _ _) as [y|] eqn:Hy; [|done]. cbn [option_map]. intros [= <-].
      apply min_by_spec in Hy as [Hy Hmin]; [|intros; apply opt_leb_total|intros; by eapply opt_leb_trans].
      pose proof (List.find_none _ _ Hf) as Hsome.
      apply Hin in Hy as Hy'. destruct Hy' as (p & Hp' & Hk & Hage & ->).
      exists p. split_and!; try done. right. split_and!; try done.
      * intros Hnone. apply elem_of_list_In, Hsome in Hy. cbn in Hy. rewrite Hnone in Hy. done.
      * intros q Hq Hkq Hageq. apply opt_leb_spec. apply (Hmin (cand_new key now q, last_tip now q)), Hin. eauto.
Qed.

Lemma outbound_found r age mx : sane_times ps ->
  mx < number (of_kind r) ps ->
  ((exists q, q ∈ ps /\ of_kind r q /\ p_banned_or_discouraged q = true) \/ mx < number (fun q => of_kind r q /\ connected_for now age q) ps) ->
  exists x, select_for_eviction_outbound sort rnd (eviction_candidates key now r ps) age mx now = Ok (Some x).
Proof using Hsort.
  intros Hst Hn Hor. unfold select_for_eviction_outbound. rewrite candidates_length.
  destruct (Nat.leb_spec (number (of_kind r) ps) mx) as [|_]; [lia|].
  destruct (choose_banned rnd (eviction_candidates key now r ps)) as [c|] eqn:Hc; [eauto|].
  assert (mx < number (fun q => of_kind r q /\ connected_for now age q) ps) as Hm.
  { destruct Hor as [(q & Hq & Hk & Hb)|]; [|done]. exfalso.
    assert (p_banned_or_discouraged q = false); [|congruence].
    apply (choose_banned_none _ _ Hc (cand_new key now q)). apply candidates_in. eauto. }
  cbv zeta. rewrite mature_candidates, map_length.
  destruct (Nat.leb_spec (length (ext_list r age)) mx) as [Hle|_]; [unfold number, ext_list in *; lia|].
  rewrite (rmapM_ok _ (fun c => match ext_new now c with Ok y => y | _ => (c, None) end)).
  - cbn [rbind]. destruct (List.find _ _) as [y|]; [eauto|].
    set (l := map (fun c => match ext_new now c with Ok y => y | _ => (c, None) end) _).
    destruct (Hsort _ (fun a b : cand * option N => (c_age a.1 <=? c_age b.1)%N) l) as [Hp _].
    { intros. rewrite !N.leb_le. lia. } { intros ???. rewrite !N.leb_le. lia. }
    destruct (min_by_some (fun a b => opt_leb a.2 b.2) (sort _ (fun a b : cand * option N => (c_age a.1 <=? c_age b.1)%N) l)) as [y Hy].
    { intros He. rewrite He in Hp. apply Permutation_length in Hp. unfold l in Hp. rewrite !map_length in Hp.
      unfold number in Hm. unfold ext_list in Hp. cbn in Hp. lia. }
    rewrite Hy. cbn. eauto.
  - intros c (p & -> & Hp)%elem_of_list_fmap. apply elem_of_list_filter in Hp as [_ Hp]. by rewrite (ext_new_ok p).
Qed.

Lemma outbound_none r age mx :
  number (of_kind r) ps <= mx \/
  (forall q, q ∈ ps -> of_kind r q -> p_banned_or_discouraged q = false) /\ number (fun q => of_kind r q /\ connected_for now age q) ps <= mx ->
  select_for_eviction_outbound sort rnd (eviction_candidates key now r ps) age mx now = Ok None.
Proof using.
  intros Hor. unfold select_for_eviction_outbound. rewrite candidates_length.
  destruct (Nat.leb_spec (number (of_kind r) ps) mx) as [|Hn]; [done|]. destruct Hor as [|[Hb Hm]]; [lia|].
  destruct (choose_banned rnd (eviction_candidates key now r ps)) as [c|] eqn:Hc.
  - apply choose_banned_some in Hc as [Hc Hcb]. apply candidates_in in Hc as (p & Hp & Hk & ->). cbn in Hcb.
    rewrite (Hb p) in Hcb; done.
  - cbv zeta. rewrite mature_candidates, map_length.
    destruct (Nat.leb_spec (length (ext_list r age)) mx) as [_|Hle]; [done|]. unfold number, ext_list in *. lia.
Qed.
End Final.
