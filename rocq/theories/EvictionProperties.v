(** C89: the peers that are disconnected for being too many. *)
From Coq Require Import Permutation Sorted.
From Verif Require Import Base EvictionModel EvictionSpec EvictionProofs EvictionFinal.

(** * A sorting function, to show that there is one *)
Fixpoint insert {A} (leb : A -> A -> bool) (x : A) (l : list A) : list A :=
  match l with [] => [x] | y :: l' => if leb x y then x :: l else y :: insert leb x l' end.
Definition isort : sorting := fun A leb l => foldr (insert leb) [] l.

Lemma insert_perm {A} (leb : A -> A -> bool) x l : Permutation (insert leb x l) (x :: l).
Proof. induction l as [|y l IH]; [done|]. cbn. destruct (leb x y); [done|]. rewrite IH. apply Permutation_swap. Qed.
Lemma isort_sorts : sorts isort.
Proof.
  intros A leb l Ht Hr. unfold isort. induction l as [|x l [Hp Hs]]; [split; [done|constructor]|]. cbn. split.
  - by rewrite insert_perm, Hp.
  - clear Hp. set (s := foldr _ _ _) in *. clearbody s. induction Hs as [|y s Hs IH Hy]; cbn; [repeat constructor|].
    destruct (leb x y) eqn:Hxy.
    + constructor; [by constructor|]. constructor; [done|]. rewrite Forall_forall in *. eauto.
    + constructor; [done|]. rewrite Forall_forall in *. intros z Hz. rewrite insert_perm in Hz.
      apply elem_of_cons in Hz as [->|Hz]; [|auto]. destruct (Ht x y); congruence.
Qed.

(** * Inbound *)

(** An inbound connection is given up exactly when there are more than the protected ones together, and it is one. *)
Theorem C89_inbound_evicted sort key r cfg now ps : sorts sort -> sane_pings ps ->
  (total_preserved_inbound_count cfg < number (of_kind Inbound) ps ->
     exists p, p ∈ ps /\ of_kind Inbound p /\ evict_inbound sort key r cfg now ps = Ok (Some (p_id p))) /\
  (number (of_kind Inbound) ps <= total_preserved_inbound_count cfg -> evict_inbound sort key r cfg now ps = Ok None).
Proof.
  intros Hs Hp. split; [|apply inbound_none]. intros Hn. destruct (inbound_found sort Hs key r cfg now ps Hp Hn) as [x Hx].
  rewrite Hx. apply (inbound_some sort Hs) in Hx as (p & Hin & Hk & <- & _). eauto.
Qed.

(** Somebody banned or discouraged goes first. *)
Theorem C89_banned_first sort key r cfg now ps p q : sorts sort -> distinct_ids ps ->
  evict_inbound sort key r cfg now ps = Ok (Some (p_id p)) -> p ∈ ps ->
  q ∈ ps -> of_kind Inbound q -> p_banned_or_discouraged q = true -> p_banned_or_discouraged p = true.
Proof.
  intros Hs Hd Hx Hp Hq Hk Hb. apply (inbound_some sort Hs) in Hx as (p' & Hin & _ & He & _ & Hor).
  rewrite <- (same_peer ps p' p) by done. destruct Hor as [|[Hn _]]; [done|]. rewrite (Hn q) in Hb; done.
Qed.

(** Nobody who is among the best is disconnected: not those whose group has the greatest keys, not the quickest, not those
    who were last to give a new tip, and not those who were last to give a transaction. *)
Theorem C89_protected sort key r cfg now ps p : sorts sort -> distinct_ids ps -> sane_pings ps ->
  evict_inbound sort key r cfg now ps = Ok (Some (p_id p)) -> p ∈ ps -> p_banned_or_discouraged p = false ->
  preserved_address_group cfg < number (fun q => of_kind Inbound q /\ (key (p_group p) <= key (p_group q))%Z) ps /\
  preserved_ping cfg < number (fun q => of_kind Inbound q /\ (ping_micros q <= ping_micros p)%Z) ps /\
  preserved_new_blocks cfg < number (fun q => of_kind Inbound q /\ at_least_as_late (p_last_tip p) (p_last_tip q)) ps /\
  preserved_new_transactions cfg < number (fun q => of_kind Inbound q /\ at_least_as_late (p_last_tx p) (p_last_tx q)) ps.
Proof.
  intros Hs Hd Hpings Hx Hp Hb. apply (inbound_some sort Hs) in Hx as (p' & Hin & _ & He & _ & Hor).
  rewrite (same_peer ps p' p) in Hor by done. destruct Hor as [|(_ & Hk & _)]; [congruence|].
  apply (kept_facts sort Hs) in Hk as (H1 & H2 & H3 & H4).
  rewrite (candidates_number key now Inbound ps _ (fun q => (key (p_group p) <= key (p_group q))%Z)) in H1 by done.
  rewrite (candidates_number key now Inbound ps _ (fun q => (ping_micros q <= ping_micros p)%Z)) in H2
    by (intros q Hq _; rewrite !cand_ping by auto; done).
  rewrite (candidates_number key now Inbound ps _ (fun q => at_least_as_late (p_last_tip p) (p_last_tip q))) in H3 by done.
  rewrite (candidates_number key now Inbound ps _ (fun q => at_least_as_late (p_last_tx p) (p_last_tx q))) in H4 by done.
  done.
Qed.

(** No group of addresses crowds out another: up to the number of protected peers, the one to go is from the group with the
    most connections. So somebody who fills the connections from one group only loses their own. *)
Theorem C89_no_crowding sort key r cfg now ps p g : sorts sort -> distinct_ids ps -> groups_told_apart key ps ->
  evict_inbound sort key r cfg now ps = Ok (Some (p_id p)) -> p ∈ ps -> p_banned_or_discouraged p = false ->
  number (fun q => of_kind Inbound q /\ p_group q = g) ps <=
  number (fun q => of_kind Inbound q /\ p_group q = p_group p) ps + total_preserved_inbound_count cfg.
Proof.
  intros Hs Hd Ht Hx Hp Hb. apply (inbound_some sort Hs) in Hx as (p' & Hin & _ & He & Hn & Hor).
  rewrite (same_peer ps p' p) in Hor by done. destruct Hor as [|(_ & _ & Hmax & _)]; [congruence|].
  destruct (kept_facts sort Hs cfg (eviction_candidates key now Inbound ps)) as (Hsub & Hlen & _).
  rewrite candidates_length in Hlen.
  destruct (decide (number (fun q => of_kind Inbound q /\ p_group q = g) ps = 0)) as [->|Hz]; [lia|].
  assert (exists q, q ∈ ps /\ p_group q = g) as (q & Hq & <-).
  { unfold number in Hz. destruct (filter _ ps) as [|q l] eqn:Hf; [done|]. exists q.
    assert (q ∈ q :: l) as Hq by left. rewrite <- Hf in Hq. apply elem_of_list_filter in Hq. tauto. }
  assert (Hg : forall u, u ∈ ps -> length (filter (fun d => c_group d = key (p_group u)) (eviction_candidates key now Inbound ps)) =
    number (fun w => of_kind Inbound w /\ p_group w = p_group u) ps).
  { intros u Hu. apply candidates_number. intros w Hw _. cbn. split; [auto|by intros ->]. }
  pose proof (count_lost (fun d => c_group d = key (p_group q)) _ _ Hsub) as Hlost.
  pose proof (count_submseteq (fun d => c_group d = key (p_group p)) _ _ Hsub) as Hle.
  specialize (Hmax (key (p_group q))). rewrite candidates_length in Hlost. rewrite (Hg q Hq) in Hlost. rewrite (Hg p Hp) in Hle. lia.
Qed.

(** Of its group it is the one that came last, up to the number of protected peers: the ids of peers grow. *)
Theorem C89_youngest sort key r cfg now ps p : sorts sort -> distinct_ids ps ->
  evict_inbound sort key r cfg now ps = Ok (Some (p_id p)) -> p ∈ ps -> p_banned_or_discouraged p = false ->
  number (fun q => of_kind Inbound q /\ p_group q = p_group p /\ (p_id p < p_id q)%N) ps <= total_preserved_inbound_count cfg.
Proof.
  intros Hs Hd Hx Hp Hb. apply (inbound_some sort Hs) in Hx as (p' & Hin & _ & He & Hn & Hor).
  rewrite (same_peer ps p' p) in Hor by done. destruct Hor as [|(_ & _ & _ & Hy)]; [congruence|].
  destruct (kept_facts sort Hs cfg (eviction_candidates key now Inbound ps)) as (Hsub & Hlen & _).
  rewrite candidates_length in Hlen.
  etrans; [|apply Nat.eq_le_incl, Nat.add_sub_eq_l].
  2:{ instantiate (1 := number (of_kind Inbound) ps). instantiate (1 := length (kept sort cfg (eviction_candidates key now Inbound ps))). lia. }
  pose proof (count_lost (fun d => c_group d = key (p_group p) /\ (p_id p < c_id d)%N) _ _ Hsub) as Hlost.
  rewrite (count_zero _ (kept _ _ _)) in Hlost by (intros d Hd' [Hg Hlt]; specialize (Hy d Hd' Hg); lia).
  rewrite candidates_length in Hlost. etrans; [|exact Hlost].
  rewrite (candidates_number key now Inbound ps _ (fun q => key (p_group q) = key (p_group p) /\ (p_id p < p_id q)%N)) by done.
  apply count_mono. intros q _ (Hk & Hg & Hlt). by rewrite Hg.
Qed.

(** * Outbound *)

Section Outbound.
Context (sort : sorting) (key : Z -> Z) (rnd : nat) (cfg : config) (now : N) (ps : list peer) (r : role).
Hypothesis Hr : r = OutboundBlockRelay \/ r = OutboundFullRelay.

(** An automatic outbound connection is given up exactly when there are too many of its kind, and too many that had their time
    to prove themselves (or one is banned). *)
Theorem C89_outbound_evicted : sorts sort -> sane_times ps ->
  let banned := exists q, q ∈ ps /\ of_kind r q /\ p_banned_or_discouraged q = true in
  let proven := number (fun q => of_kind r q /\ connected_for now (min_age r cfg) q) ps in
  (wanted r cfg < number (of_kind r) ps -> (banned \/ wanted r cfg < proven) ->
     exists p, p ∈ ps /\ of_kind r p /\ evict_outbound r sort key rnd cfg now ps = Ok (Some (p_id p))) /\
  (number (of_kind r) ps <= wanted r cfg \/ ~ banned /\ proven <= wanted r cfg ->
     evict_outbound r sort key rnd cfg now ps = Ok None).
Proof using Hr.
  intros Hs Ht banned proven.
  assert (evict_outbound r sort key rnd cfg now ps =
    select_for_eviction_outbound sort rnd (eviction_candidates key now r ps) (min_age r cfg) (wanted r cfg) now) as -> by by destruct Hr as [-> | ->].
  split.
  - intros Hn Hor. destruct (outbound_found sort Hs key rnd now ps r (min_age r cfg) (wanted r cfg) Ht Hn Hor) as [x Hx].
    rewrite Hx. apply (outbound_some sort Hs) in Hx as (p & Hin & Hk & <- & _). eauto.
  - intros Hor. apply outbound_none. destruct Hor as [|[Hb Hm]]; [by left|right]. split; [|done].
    intros q Hq Hk. destruct (p_banned_or_discouraged q) eqn:He; [|done]. exfalso. apply Hb. by exists q.
Qed.

(** Which one: a banned one if there is one; otherwise one that had its time, and of those the one that never gave a new tip
    and connected last, or else the one that did so longest ago. *)
Theorem C89_outbound_choice p : sorts sort -> distinct_ids ps ->
  evict_outbound r sort key rnd cfg now ps = Ok (Some (p_id p)) -> p ∈ ps -> p_banned_or_discouraged p = false ->
  (forall q, q ∈ ps -> of_kind r q -> p_banned_or_discouraged q = false) /\
  connected_for now (min_age r cfg) p /\
  forall q, q ∈ ps -> of_kind r q -> connected_for now (min_age r cfg) q ->
    match last_tip now p, last_tip now q with
    | None, None => (now - p_created p <= now - p_created q)%N
    | None, Some _ => True
    | Some _, None => False
    | Some t, Some t' => (t <= t')%N
    end.
Proof using Hr.
  intros Hs Hd Hx Hp Hb.
  assert (evict_outbound r sort key rnd cfg now ps =
    select_for_eviction_outbound sort rnd (eviction_candidates key now r ps) (min_age r cfg) (wanted r cfg) now) as He by by destruct Hr as [-> | ->].
  rewrite He in Hx. apply (outbound_some sort Hs) in Hx as (p' & Hin & _ & Hid & _ & Hor).
  rewrite (same_peer ps p' p) in Hor by done. destruct Hor as [|(H1 & H2 & _ & H3 & H4)]; [congruence|].
  split_and!; [done..|]. intros q Hq Hk Ha. specialize (H4 q Hq Hk Ha).
  destruct (last_tip now p) as [t|] eqn:Hlt, (last_tip now q) as [t'|] eqn:Hlq; try done. by apply H3.
Qed.
End Outbound.

(** * Concrete cases *)
Definition cfg1 : config := Config 1 1 1 1 1 1 120 120.
Definition pr (id : N) (g : Z) (ping last_tip last_tx : option N) : peer := Peer id id g ping Inbound last_tip last_tx None false false.
(** Six peers, four of them from group 7. *)
Definition six : list peer :=
  [pr 1 7 (Some 5000) None None; pr 2 7 (Some 90000) None None; pr 3 7 None None None; pr 4 7 None (Some 40) None;
   pr 5 8 (Some 70000) None (Some 9); pr 6 9 None None None]%N.
Example C89_six_sane : distinct_ids six /\ sane_pings six /\ groups_told_apart id six /\
  total_preserved_inbound_count cfg1 < number (of_kind Inbound) six.
Proof.
  split_and!.
  - apply (bool_decide_unpack _). by vm_compute.
  - intros p Hp. unfold six in Hp. repeat (apply elem_of_cons in Hp as [->|Hp]; [by vm_compute|]). by apply elem_of_nil in Hp.
  - intros p q _ _. done.
  - vm_compute. lia.
Qed.
(** Peer 1 is the quickest, 4 was the last to give a tip, 5 to give a transaction, 6 has the greatest group. *)
Example C89_six : evict_inbound isort id 0 cfg1 100 six = Ok (Some 3%N).
Proof. by vm_compute. Qed.
Example C89_six_banned :
  evict_inbound isort id 0 cfg1 100 (Peer 7 7 9 (Some 1%N) Inbound (Some 99%N) (Some 99%N) None true false :: six) = Ok (Some 7%N).
Proof. by vm_compute. Qed.
Definition po (id created : N) (last_tip expecting : option N) : peer :=
  Peer id created 7 None OutboundFullRelay last_tip None expecting false false.
Example C89_outbound :
  evict_full_relay isort id 0 cfg1 1000 [po 1 0 (Some 500%N) None; po 2 10 (Some 400%N) None; po 3 990 None None] = Ok (Some 2%N) /\
  evict_full_relay isort id 0 cfg1 1000 [po 1 0 (Some 500%N) None; po 2 10 None None; po 3 20 None None; po 4 30 None (Some 600%N)] = Ok (Some 3%N) /\
  evict_full_relay isort id 0 cfg1 1000 [po 1 0 (Some 500%N) None; po 3 990 None None] = Ok None.
Proof. by vm_compute. Qed.

Print Assumptions C89_inbound_evicted.
Print Assumptions C89_banned_first.
Print Assumptions C89_protected.
Print Assumptions C89_no_crowding.
Print Assumptions C89_youngest.
Print Assumptions C89_outbound_evicted.
Print Assumptions C89_outbound_choice.
