From Verif Require Import Base PeerTableModel.

(** * One table: it is a map from slots to addresses, each address at its own slot *)

Definition holds (t : table) (s : slot) : option addr := t_buckets t !! s ≫= fun id => t_addresses t !! id.

Record shape := Shape { sh_hashes : hashes; sh_rows : N; sh_cols : N; sh_id_max : N }.
Definition shape_of (t : table) : shape := Shape (t_hashes t) (t_rows t) (t_cols t) (t_id_max t).

Record table_ok (t : table) : Prop := TableOk {
  ok_rows : (0 < t_rows t)%N; ok_cols : (0 < t_cols t)%N; ok_id_max : (t_rows t * t_cols t <= t_id_max t)%N;
  ok_bucket : forall s id, t_buckets t !! s = Some id -> (id < t_id_max t)%N /\ exists a, t_addresses t !! id = Some a /\ bucket_coords t a = s;
  ok_address : forall id a, t_addresses t !! id = Some a -> t_buckets t !! bucket_coords t a = Some id }.

Lemma coords_shape t t' a : shape_of t = shape_of t' -> bucket_coords t a = bucket_coords t' a.
Proof. intros [= H1 H2 H3 H4]. unfold bucket_coords, bucket_idx, bucket_pos. by rewrite H1, H2, H3. Qed.

Lemma holds_coords t s a : table_ok t -> holds t s = Some a -> bucket_coords t a = s.
Proof.
  intros Hok. unfold holds. destruct (t_buckets t !! s) as [id|] eqn:Hs; [|done]. cbn. intros Ha.
  destruct (ok_bucket t Hok s id Hs) as (_ & a' & Ha' & Hc). congruence.
Qed.
Lemma holds_in t s a : table_ok t -> holds t s = Some a <-> bucket_coords t a = s /\ exists id, t_addresses t !! id = Some a.
Proof.
  intros Hok. split.
  - intros Hh. split; [by apply holds_coords|]. unfold holds in Hh. destruct (t_buckets t !! s) as [id|]; [|done]. cbn in Hh. eauto.
  - intros [<- [id Hid]]. unfold holds. rewrite (ok_address t Hok id a Hid). done.
Qed.
Lemma entry_holds t a : entry t a = holds t (bucket_coords t a).
Proof. done. Qed.
Lemma bucket_none t s : table_ok t -> holds t s = None -> t_buckets t !! s = None.
Proof.
  intros Hok Hh. unfold holds in Hh. destruct (t_buckets t !! s) as [id|] eqn:Hs; [|done]. cbn in Hh.
  destruct (ok_bucket t Hok s id Hs) as (_ & a' & Ha' & _). congruence.
Qed.
Lemma addresses_inj t i j a : table_ok t -> t_addresses t !! i = Some a -> t_addresses t !! j = Some a -> i = j.
Proof. intros Hok Hi Hj. apply (ok_address t Hok) in Hi, Hj. congruence. Qed.
Lemma table_addresses_in t a : table_ok t -> a ∈ table_addresses t <-> holds t (bucket_coords t a) = Some a.
Proof.
  intros Hok. unfold table_addresses. rewrite elem_of_list_fmap. rewrite holds_in by done. split.
  - intros ([id a'] & -> & Hin%elem_of_map_to_list). eauto.
  - intros [_ [id Hid]]. exists (id, a). split; [done|]. by apply elem_of_map_to_list.
Qed.

(** ** Sizes *)
Lemma bounded_nodup (l : list N) n : NoDup l -> (forall x, x ∈ l -> (x < n)%N) -> length l <= N.to_nat n.
Proof.
  intros Hn Hl. rewrite <- (map_length N.to_nat l), <- (seq_length (N.to_nat n) 0). apply NoDup_incl_length.
  - apply NoDup_ListNoDup. apply (NoDup_fmap_2 N.to_nat). done.
  - intros x Hx. apply in_map_iff in Hx as (y & <- & Hy). apply elem_of_list_In, Hl in Hy. apply in_seq. lia.
Qed.
Lemma bounded_inj {A} (f : A -> N) (l : list A) n : NoDup l -> (forall x y, x ∈ l -> y ∈ l -> f x = f y -> x = y) ->
  (forall x, x ∈ l -> (f x < n)%N) -> length l <= N.to_nat n.
Proof.
  intros Hn Hi Hl. rewrite <- (map_length f l). apply bounded_nodup.
  - clear Hl. induction Hn as [|x l Hx Hn IH]; [constructor|]. cbn. constructor.
    + intros (y & He & Hy)%elem_of_list_fmap. rewrite (Hi x y) in Hx; [done|left|by right|done].
    + apply IH. intros y z Hy Hz. apply Hi; by right.
  - intros x (y & -> & Hy)%elem_of_list_fmap. auto.
Qed.
Lemma code_inj c i j i' j' : (j < c)%N -> (j' < c)%N -> (i * c + j = i' * c + j')%N -> i = i' /\ j = j'.
Proof. intros Hj Hj' He. assert (i = i') as -> by nia. split; [done|lia]. Qed.
Lemma code_bound c n i j : (j < c)%N -> (i < n)%N -> (i * c + j < n * c)%N.
Proof. nia. Qed.
Lemma coords_bound t a : (0 < t_rows t)%N -> (0 < t_cols t)%N -> ((bucket_coords t a).1 < t_rows t)%N /\ ((bucket_coords t a).2 < t_cols t)%N.
Proof. intros Hr Hc. cbn. unfold bucket_idx, bucket_pos. split; apply N.mod_lt; lia. Qed.

Lemma table_size t (l : list (N * N)) : table_ok t -> NoDup l ->
  (forall s, s ∈ l -> exists a, s = bucket_coords t a) -> length l <= N.to_nat (t_rows t * t_cols t).
Proof.
  intros Hok Hn Hl. assert (Hb : forall s, s ∈ l -> (s.1 < t_rows t)%N /\ (s.2 < t_cols t)%N).
  { intros s Hs. destruct (Hl s Hs) as [a ->]. apply coords_bound; apply Hok. }
  apply (bounded_inj (fun s => s.1 * t_cols t + s.2)%N); [done| |].
  - intros [i j] [i' j'] H1 H2. cbn. intros He. apply Hb in H1, H2. cbn in *. destruct (code_inj (t_cols t) i j i' j'); [tauto..|]. congruence.
  - intros s Hs. apply Hb in Hs. apply code_bound; tauto.
Qed.
(** The addresses in a table are at most as many as its slots, and those of one group fill eight buckets at most. *)
Lemma table_count t (l : list N) : table_ok t -> NoDup l -> (forall a, a ∈ l -> holds t (bucket_coords t a) = Some a) ->
  length l <= N.to_nat (t_rows t * t_cols t).
Proof.
  intros Hok Hn Hl. rewrite <- (map_length (bucket_coords t) l). apply table_size; [done| |].
  - apply NoDup_fmap_2_strong; [|done]. intros a b Ha Hb He. apply Hl in Ha, Hb. congruence.
  - intros s (a & -> & _)%elem_of_list_fmap. eauto.
Qed.
Lemma table_group_count t (l : list N) g : table_ok t -> NoDup l ->
  (forall a, a ∈ l -> holds t (bucket_coords t a) = Some a /\ group_of (t_hashes t) a = g) ->
  length l <= N.to_nat (BUCKETS_PER_GROUP * t_cols t).
Proof.
  intros Hok Hn Hl. set (k := fun a => (hash_addr (t_hashes t) a mod BUCKETS_PER_GROUP)%N).
  assert (Hpos : forall a, ((bucket_coords t a).2 < t_cols t)%N) by (intros a; apply coords_bound; apply Hok).
  apply (bounded_inj (fun a => k a * t_cols t + (bucket_coords t a).2)%N); [done| |].
  - intros a b Ha Hb He. apply code_inj in He as [Hk Hp]; [|apply Hpos..].
    apply Hl in Ha as [Ha Hga], Hb as [Hb Hgb]. assert (bucket_idx t a = bucket_idx t b) as Hi.
    { unfold bucket_idx. fold (k a) (k b). by rewrite Hga, Hgb, Hk. }
    assert (bucket_coords t a = bucket_coords t b) as Hc by (apply injective_projections; [exact Hi|exact Hp]).
    rewrite Hc in Ha. congruence.
  - intros a Ha. apply code_bound; [apply Hpos|]. apply N.mod_lt. done.
Qed.

(** ** Allocating ids *)
Lemma next_id_above t id : is_Some (t_addresses t !! id) -> (id < next_id t)%N.
Proof.
  unfold next_id. revert id. apply (map_fold_ind (fun m (b : gmap N N) => forall id, is_Some (b !! id) -> (id < m)%N)).
  - intros id [? H]. by rewrite lookup_empty in H.
  - intros i x m r _ IH id. destruct (decide (i = id)) as [->|Hne]; [lia|]. rewrite lookup_insert_ne by done. intros Hs.
    specialize (IH id Hs). lia.
Qed.
Lemma next_id_below t n : (forall id, is_Some (t_addresses t !! id) -> (id < n)%N) -> (next_id t <= n)%N.
Proof.
  unfold next_id. apply (map_fold_ind (fun m (b : gmap N N) => (forall id, is_Some (b !! id) -> (id < n)%N) -> (m <= n)%N)).
  - intros _. lia.
  - intros i x m r Hi IH Hb. assert (i < n)%N by (apply Hb; rewrite lookup_insert; eauto).
    assert (r <= n)%N; [|lia]. apply IH. intros id Hid. apply Hb. rewrite lookup_insert_ne; [done|]. intros <-. destruct Hid; congruence.
Qed.

Lemma rebuild_buckets (idm : gmap N N) (l : list ((N * N) * N)) : forall b0 : gmap (N * N) N,
  NoDup l.*1 -> (forall p, p ∈ l -> is_Some (idm !! p.2)) ->
  exists b, rfold (fun (b : gmap (N * N) N) (p : (N * N) * N) => let? id := expect (idm !! p.2) in (Ok (<[p.1 := id]> b) : res unit _)) l b0 = Ok b /\
    (forall s id, (s, id) ∈ l -> b !! s = idm !! id) /\ (forall s, s ∉ l.*1 -> b !! s = b0 !! s).
Proof.
  induction l as [|[s id] l IH]; intros b0 Hn Hl.
  - exists b0. split_and!; [done| |done]. intros ? ? H. by apply elem_of_nil in H.
  - cbn in Hn. apply NoDup_cons in Hn as [Hs Hn]. destruct (Hl (s, id)) as [i Hi]; [left|]. cbn in Hi.
    destruct (IH (<[s := i]> b0) Hn) as (b & Hb & H1 & H2). { intros p Hp. apply Hl. by right. }
    exists b. cbn. rewrite Hi. cbn. split_and!; [done| |].
    + intros s' id' [[= -> ->]|Hin]%elem_of_cons; [|auto]. rewrite H2 by done. by rewrite lookup_insert, Hi.
    + intros s' Hs'. apply not_elem_of_cons in Hs' as [Hne Hs']. rewrite H2 by done. by rewrite lookup_insert_ne.
Qed.

Lemma rebuild_ok t : table_ok t ->
  exists t', rebuild_ids t = Ok t' /\ table_ok t' /\ shape_of t' = shape_of t /\ (forall s, holds t' s = holds t s) /\
    (forall id, is_Some (t_addresses t' !! id) -> (id < N.of_nat (size (t_addresses t)))%N) /\
    (forall s, t_buckets t' !! s = None <-> t_buckets t !! s = None).
Proof.
  intros Hok. unfold rebuild_ids. set (l := map_to_list (t_addresses t)).
  set (na := list_to_map (imap (fun i p => (N.of_nat i, p.2)) l) : gmap N N).
  set (idm := list_to_map (imap (fun i p => (p.1, N.of_nat i)) l) : gmap N N).
  assert (Hl : length l = size (t_addresses t)) by done.
  assert (Hna : forall i a, na !! i = Some a <-> exists id, l !! N.to_nat i = Some (id, a)).
  { intros i a. unfold na. rewrite <- elem_of_list_to_map.
    - rewrite elem_of_lookup_imap. split.
      + intros (k & [id a'] & [= -> ->] & Hk). exists id. by rewrite Nat2N.id.
      + intros [id Hid]. exists (N.to_nat i), (id, a). by rewrite N2Nat.id.
    - apply NoDup_alt. intros i1 i2 x. rewrite !list_lookup_fmap, !list_lookup_imap.
      destruct (l !! i1), (l !! i2); cbn; try done. intros [= <-] [= H]. lia. }
  assert (Hidm : forall id i, idm !! id = Some i <-> exists a, l !! N.to_nat i = Some (id, a)).
  { intros id i. unfold idm. rewrite <- elem_of_list_to_map.
    - rewrite elem_of_lookup_imap. split.
      + intros (k & [id' a] & [= -> ->] & Hk). exists a. by rewrite Nat2N.id.
      + intros [a Ha]. exists (N.to_nat i), (id, a). by rewrite N2Nat.id.
    - apply NoDup_alt. intros i1 i2 x. rewrite !list_lookup_fmap, !list_lookup_imap.
      destruct (l !! i1) as [[k1 a1]|] eqn:E1, (l !! i2) as [[k2 a2]|] eqn:E2; cbn; try done. intros [= <-] [= ->].
      pose proof (NoDup_fst_map_to_list (t_addresses t)) as Hn. fold l in Hn. eapply NoDup_lookup; [exact Hn| |].
      + rewrite list_lookup_fmap, E1. done.
      + rewrite list_lookup_fmap, E2. done. }
  assert (Hin : forall id a, t_addresses t !! id = Some a <-> exists k, l !! k = Some (id, a)).
  { intros id a. unfold l. rewrite <- elem_of_map_to_list, elem_of_list_lookup. done. }
  assert (Hex : forall id a, t_addresses t !! id = Some a -> exists i, idm !! id = Some i /\ na !! i = Some a).
  { intros id a [k Hk]%Hin. exists (N.of_nat k). rewrite Hidm, Hna, Nat2N.id. eauto. }
  destruct (rebuild_buckets idm (map_to_list (t_buckets t)) ∅) as (b & Hb & H1 & H2).
  { apply NoDup_fst_map_to_list. }
  { intros [s id] Hp%elem_of_map_to_list. cbn. destruct (ok_bucket t Hok s id Hp) as (_ & a & Ha & _).
    destruct (Hex id a Ha) as (i & Hi & _). eauto. }
  rewrite Hb. cbn [rbind]. eexists; split; [done|].
  assert (Hbl : forall s, b !! s = t_buckets t !! s ≫= fun id => idm !! id).
  { intros s. destruct (t_buckets t !! s) as [id|] eqn:Hs; cbn.
    - apply H1. by apply elem_of_map_to_list.
    - rewrite H2; [done|]. intros ([s' id] & -> & Hp)%elem_of_list_fmap. apply elem_of_map_to_list in Hp. cbn in *. congruence. }
  assert (Hc : forall a, bucket_coords (set_parts t b na) a = bucket_coords t a) by done.
  assert (Hsz : (N.of_nat (size (t_addresses t)) <= t_rows t * t_cols t)%N).
  { rewrite <- Hl. enough (length l <= N.to_nat (t_rows t * t_cols t)) by lia.
    rewrite <- (map_length snd l). apply table_count; [done| |].
    - apply NoDup_fmap_2_strong; [|apply NoDup_map_to_list]. intros [i1 a1] [i2 a2] E1 E2. cbn. intros ->. f_equal.
      apply elem_of_map_to_list in E1, E2. by eapply addresses_inj.
    - intros a ([id a'] & -> & Hp)%elem_of_list_fmap. apply elem_of_map_to_list in Hp. apply holds_in; [done|]. split; [done|]. cbn. eauto. }
  assert (Hlt : forall i, is_Some (na !! i) -> (i < N.of_nat (size (t_addresses t)))%N).
  { intros i [a Ha]. apply Hna in Ha as [id Hid]. apply lookup_lt_Some in Hid. lia. }
  split_and!; try done.
  - constructor; cbn [t_rows t_cols t_id_max t_buckets t_addresses set_parts]; try apply Hok.
    + intros s i. rewrite Hbl. destruct (t_buckets t !! s) as [id|] eqn:Hs; [|done]. cbn. intros Hi.
      destruct (ok_bucket t Hok s id Hs) as (_ & a & Ha & Hca). destruct (Hex id a Ha) as (i' & Hi' & Hna').
      replace i with i' by congruence. split; [|eauto].
      assert (i' < N.of_nat (size (t_addresses t)))%N by eauto. pose proof (ok_id_max t Hok). lia.
    + intros i a Ha. rewrite Hc, Hbl. apply Hna in Ha as [id Hid].
      rewrite (ok_address t Hok id a) by (apply Hin; eauto). cbn. apply Hidm. eauto.
  - intros s. unfold holds. cbn [t_buckets t_addresses set_parts]. rewrite Hbl.
    destruct (t_buckets t !! s) as [id|] eqn:Hs; [|done]. cbn.
    destruct (ok_bucket t Hok s id Hs) as (_ & a & Ha & _). destruct (Hex id a Ha) as (i & Hi & Hi'). rewrite Hi. cbn. congruence.
  - intros s. cbn. rewrite Hbl. destruct (t_buckets t !! s) as [id|] eqn:Hs; [|done]. cbn.
    destruct (ok_bucket t Hok s id Hs) as (_ & a & Ha & _). destruct (Hex id a Ha) as (i & Hi & _). rewrite Hi. done.
Qed.

Lemma size_free t c a0 : table_ok t -> c = bucket_coords t a0 -> t_buckets t !! c = None -> (N.of_nat (size (t_addresses t)) < t_id_max t)%N.
Proof.
  intros Hok -> Hc. change (size (t_addresses t)) with (length (map_to_list (t_addresses t))). set (l := map_to_list (t_addresses t)).
  enough (length (bucket_coords t a0 :: map (fun p => bucket_coords t p.2) l) <= N.to_nat (t_rows t * t_cols t)) as Hle.
  { cbn in Hle. rewrite map_length in Hle. pose proof (ok_id_max t Hok). lia. }
  apply table_size; [done| |].
  - constructor.
    + intros ([id a] & He & Hp)%elem_of_list_fmap. apply elem_of_map_to_list in Hp. cbn in He.
      apply (ok_address t Hok) in Hp. congruence.
    + apply NoDup_fmap_2_strong; [|apply NoDup_map_to_list]. intros [i1 a1] [i2 a2] E1 E2. cbn. intros He.
      apply elem_of_map_to_list in E1, E2. pose proof (ok_address t Hok _ _ E1). pose proof (ok_address t Hok _ _ E2).
      assert (i1 = i2) as -> by congruence. congruence.
  - intros s [->|Hs]%elem_of_cons; [eauto|]. apply elem_of_list_fmap in Hs as (p & -> & _). eauto.
Qed.

Lemma allocate_ok t a0 : table_ok t -> t_buckets t !! bucket_coords t a0 = None ->
  exists t' id, allocate_id t = Ok (t', id) /\ table_ok t' /\ shape_of t' = shape_of t /\ (forall s, holds t' s = holds t s) /\
    t_addresses t' !! id = None /\ (id < t_id_max t)%N /\ t_buckets t' !! bucket_coords t a0 = None.
Proof.
  intros Hok Hfree. unfold allocate_id.
  assert (Hnone : forall u, t_addresses u !! next_id u = None).
  { intros u. destruct (t_addresses u !! next_id u) eqn:He; [|done].
    assert (next_id u < next_id u)%N; [|lia]. apply next_id_above. eauto. }
  destruct (N.leb_spec (t_id_max t) (next_id t)) as [Hle|Hlt].
  - destruct (rebuild_ok t Hok) as (t' & -> & Hok' & Hsh & Hh & Hids & Hb). cbn [rbind].
    pose proof (size_free t _ a0 Hok eq_refl Hfree) as Hsz.
    pose proof (next_id_below t' _ Hids) as Hn. assert (t_id_max t' = t_id_max t) as Hm by (by injection Hsh).
    destruct (N.ltb_spec (next_id t') (t_id_max t')); [|lia]. exists t', (next_id t'). split_and!; try done; [lia|]. by apply Hb.
  - exists t, (next_id t). split_and!; try done.
Qed.

(** ** The operations *)
Lemma get_or_create_ok t a : table_ok t ->
  exists t' id x, get_or_create_entry t a = Ok (t', id, x) /\ table_ok t' /\ shape_of t' = shape_of t /\
    t_addresses t' !! id = Some x /\ t_buckets t' !! bucket_coords t a = Some id /\
    x = default a (holds t (bucket_coords t a)) /\
    forall s, holds t' s = if decide (s = bucket_coords t a) then Some x else holds t s.
Proof.
  intros Hok. unfold get_or_create_entry. destruct (t_buckets t !! bucket_coords t a) as [id|] eqn:Hb; cbn [rbind].
  - destruct (ok_bucket t Hok _ id Hb) as (_ & x & Hx & Hc). rewrite Hx. exists t, id, x.
    assert (holds t (bucket_coords t a) = Some x) as Hh by (unfold holds; by rewrite Hb).
    rewrite Hh. split_and!; try done. intros s. destruct (decide (s = _)) as [->|]; done.
  - destruct (allocate_ok t a Hok Hb) as (t' & id & -> & Hok' & Hsh & Hh & Hna & Hid & Hfree). cbn [rbind].
    cbn [t_addresses set_parts]. rewrite Hna. eexists _, id, a. split; [done|].
    assert (Hc : forall x, bucket_coords t' x = bucket_coords t x) by (intros x; by apply coords_shape).
    assert (t_id_max t' = t_id_max t) as Hm by by injection Hsh.
    assert (Hheld : holds t (bucket_coords t a) = None) by (unfold holds; by rewrite Hb).
    split_and!.
    + constructor; cbn [t_rows t_cols t_id_max t_buckets t_addresses set_parts]; try apply Hok'.
      * intros s i. destruct (decide (s = bucket_coords t a)) as [->|Hne].
        -- rewrite lookup_insert. intros [= <-]. split; [by rewrite Hm|]. exists a. rewrite lookup_insert. split; [done|]. apply Hc.
        -- rewrite lookup_insert_ne by done. intros Hi. destruct (ok_bucket t' Hok' s i Hi) as (Hlt & x & Hx & Hcx).
           split; [done|]. exists x. rewrite lookup_insert_ne by congruence. done.
      * intros i x. destruct (decide (i = id)) as [->|Hne].
        -- rewrite lookup_insert. intros [= <-]. transitivity ((<[bucket_coords t a := id]> (t_buckets t')) !! bucket_coords t a); [f_equal; exact (Hc a)|apply lookup_insert].
        -- rewrite lookup_insert_ne by done. intros Hx. pose proof (ok_address t' Hok' i x Hx) as Hbx.
           transitivity ((<[bucket_coords t a := id]> (t_buckets t')) !! bucket_coords t' x); [done|]. rewrite lookup_insert_ne; [done|]. intros He. rewrite <- He in Hbx. congruence.
    + by rewrite <- Hsh.
    + cbn. by rewrite lookup_insert.
    + cbn. by rewrite lookup_insert.
    + by rewrite Hheld.
    + intros s. unfold holds at 1. cbn. destruct (decide (s = bucket_coords t a)) as [->|Hne].
      * rewrite lookup_insert. cbn. by rewrite lookup_insert.
      * rewrite lookup_insert_ne by done. rewrite <- Hh. unfold holds. destruct (t_buckets t' !! s) as [i|] eqn:Hi; [|done].
        cbn. destruct (ok_bucket t' Hok' s i Hi) as (_ & x & Hx & _). rewrite lookup_insert_ne by congruence. done.
Qed.

(** Writing another address with the same coordinates at the id of a slot. *)
Lemma write_ok t a c id x : table_ok t -> c = bucket_coords t a -> t_buckets t !! c = Some id -> t_addresses t !! id = Some x ->
  let t' := set_parts t (t_buckets t) (<[id := a]> (t_addresses t)) in
  table_ok t' /\ forall s, holds t' s = if decide (s = c) then Some a else holds t s.
Proof.
  intros Hok -> Hb Hx. cbn zeta. set (t' := set_parts t _ _).
  assert (Hinj : forall s, t_buckets t !! s = Some id -> s = bucket_coords t a).
  { intros s Hs. destruct (ok_bucket t Hok s id Hs) as (_ & y & Hy & <-).
    destruct (ok_bucket t Hok _ id Hb) as (_ & z & Hz & Hcz). congruence. }
  split.
  - constructor; unfold t'; cbn [t_rows t_cols t_id_max t_buckets t_addresses set_parts]; try apply Hok.
    + intros s i Hi. destruct (ok_bucket t Hok s i Hi) as (Hlt & y & Hy & Hc). split; [done|].
      destruct (decide (i = id)) as [->|Hne].
      * exists a. rewrite lookup_insert. split; [done|]. change (bucket_coords _ a) with (bucket_coords t a). symmetry. by apply Hinj.
      * exists y. by rewrite lookup_insert_ne.
    + intros i y. destruct (decide (i = id)) as [->|Hne].
      * rewrite lookup_insert. intros [= <-]. done.
      * rewrite lookup_insert_ne by done. intros Hy. by apply (ok_address t Hok).
  - intros s. unfold holds, t'. cbn. destruct (decide (s = bucket_coords t a)) as [->|Hne].
    + rewrite Hb. cbn. by rewrite lookup_insert.
    + destruct (t_buckets t !! s) as [i|] eqn:Hi; [|done]. cbn. rewrite lookup_insert_ne; [done|]. intros <-. auto.
Qed.

Lemma remove_ok t a : table_ok t ->
  exists t', remove t a = Ok t' /\ table_ok t' /\ shape_of t' = shape_of t /\
    forall s, holds t' s = if decide (s = bucket_coords t a /\ holds t s = Some a) then None else holds t s.
Proof.
  intros Hok. unfold remove. destruct (t_buckets t !! bucket_coords t a) as [id|] eqn:Hb.
  - destruct (ok_bucket t Hok _ id Hb) as (_ & x & Hx & Hc). rewrite Hx.
    assert (holds t (bucket_coords t a) = Some x) as Hh by (unfold holds; by rewrite Hb).
    destruct (decide (x = a)) as [->|Hne].
    + eexists; split; [done|]. split_and!; [|done|].
      * constructor; cbn [t_rows t_cols t_id_max t_buckets t_addresses set_parts]; try apply Hok.
        -- intros s i Hi. apply lookup_delete_Some in Hi as [Hne Hi]. destruct (ok_bucket t Hok s i Hi) as (Hlt & y & Hy & Hcy).
           split; [done|]. exists y. split; [|done]. rewrite lookup_delete_ne; [done|]. intros ->. congruence.
        -- intros i y Hy. apply lookup_delete_Some in Hy as [Hne Hy]. pose proof (ok_address t Hok i y Hy) as Hby.
           change (bucket_coords _ y) with (bucket_coords t y). rewrite lookup_delete_ne; [done|]. intros He. rewrite <- He in Hby. congruence.
      * intros s. unfold holds at 1. cbn. destruct (decide (s = bucket_coords t a)) as [->|Hne].
        -- rewrite lookup_delete, decide_True by done. done.
        -- rewrite lookup_delete_ne, decide_False by (done || tauto). unfold holds. destruct (t_buckets t !! s) as [i|] eqn:Hi; [|done].
           cbn. rewrite lookup_delete_ne; [done|]. intros <-. destruct (ok_bucket t Hok s id Hi) as (_ & y & Hy & Hcy). congruence.
    + exists t. split_and!; try done. intros s. destruct (decide _) as [[-> He]|]; [congruence|done].
  - exists t. split_and!; try done. intros s. destruct (decide _) as [[-> He]|]; [|done]. unfold holds in He. by rewrite Hb in He.
Qed.

Lemma replace_ok t a : table_ok t ->
  exists t', replace t a = Ok (t', match holds t (bucket_coords t a) with Some x => if decide (x = a) then None else Some x | None => None end) /\
    table_ok t' /\ shape_of t' = shape_of t /\
    forall s, holds t' s = if decide (s = bucket_coords t a) then Some a else holds t s.
Proof.
  intros Hok. unfold replace. destruct (get_or_create_ok t a Hok) as (t1 & id & x & -> & Hok1 & Hsh & Hx & Hb & Hdef & Hh). cbn [rbind].
  destruct (holds t (bucket_coords t a)) as [y|] eqn:Hy; cbn in Hdef; subst x.
  - destruct (decide (y = a)) as [->|Hne].
    + eauto 10.
    + destruct (write_ok t1 a (bucket_coords t a) id y Hok1) as [Hok2 Hh2]; [by apply coords_shape|done|done|].
      eexists; split; [done|]. split_and!; [done|by rewrite <- Hsh|]. intros s. rewrite Hh2, Hh. by destruct (decide _).
  - rewrite decide_True by done. eauto 10.
Qed.

Lemma replace_if_ok t a f : table_ok t ->
  exists t' r, replace_if t a f = Ok (t', r) /\ table_ok t' /\ shape_of t' = shape_of t /\
    match holds t (bucket_coords t a) with
    | Some x => if decide (x = a) then r = None /\ forall s, holds t' s = holds t s
                else if f x then r = Some x /\ forall s, holds t' s = if decide (s = bucket_coords t a) then Some a else holds t s
                else r = Some a /\ forall s, holds t' s = holds t s
    | None => r = None /\ forall s, holds t' s = if decide (s = bucket_coords t a) then Some a else holds t s
    end.
Proof.
  intros Hok. unfold replace_if. destruct (get_or_create_ok t a Hok) as (t1 & id & x & -> & Hok1 & Hsh & Hx & Hb & Hdef & Hh). cbn [rbind].
  destruct (holds t (bucket_coords t a)) as [y|] eqn:Hy; cbn in Hdef; subst x.
  - assert (Hh' : forall s, holds t1 s = holds t s) by (intros s; rewrite Hh; destruct (decide _) as [->|]; congruence).
    destruct (decide (y = a)) as [->|Hne]; [eauto 10|]. destruct (f y); [|eauto 10].
    destruct (write_ok t1 a (bucket_coords t a) id y Hok1) as [Hok2 Hh2]; [by apply coords_shape|done|done|].
    eexists _, _; split; [done|]. split_and!; [done|by rewrite <- Hsh|done|]. intros s. rewrite Hh2, Hh. by destruct (decide _).
  - rewrite decide_True by done. eauto 10.
Qed.

Lemma new_generic_ok h rows cols mx : (0 < rows)%N -> (0 < cols)%N -> (rows * cols <= mx)%N ->
  exists t, new_generic h rows cols mx = Ok t /\ table_ok t /\ shape_of t = Shape h rows cols mx /\ forall s, holds t s = None.
Proof.
  intros Hr Hc Hm. unfold new_generic. destruct (N.leb_spec (rows * cols) mx); [|lia]. eexists; split; [done|]. by split_and!.
Qed.
