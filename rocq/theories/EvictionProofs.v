From Coq Require Import Permutation Sorted.
From Verif Require Import Base EvictionModel EvictionSpec.

Section Sorted.
Context (sort : sorting) (Hsort : sorts sort).

Notation count P l := (length (filter P l)).

Lemma count_submseteq {A} (P : A -> Prop) `{forall x, Decision (P x)} (l k : list A) : l ⊆+ k -> count P l <= count P k.
Proof using.
  intros Hs. apply submseteq_length. induction Hs as [|x l k _ IH|x y l|x l k _ IH|l k j _ IH1 _ IH2].
  - done.
  - rewrite !filter_cons. destruct (decide (P x)); [by apply submseteq_skip|done].
  - rewrite !filter_cons. repeat destruct (decide _); try done; apply submseteq_swap.
  - rewrite !filter_cons. destruct (decide (P x)); [by apply submseteq_cons|done].
  - by etrans.
Qed.

Lemma count_perm {A} (P : A -> Prop) `{forall x, Decision (P x)} (l k : list A) : Permutation l k -> count P l = count P k.
Proof using. intros Hp. apply Nat.le_antisymm; apply count_submseteq; by rewrite Hp. Qed.

Lemma count_app {A} (P : A -> Prop) `{forall x, Decision (P x)} (l k : list A) : count P (l ++ k) = count P l + count P k.
Proof using. by rewrite filter_app, app_length. Qed.

Lemma count_le {A} (P : A -> Prop) `{forall x, Decision (P x)} (l : list A) : count P l <= length l.
Proof using. induction l as [|x l IH]; [done|]. rewrite filter_cons. destruct (decide (P x)); cbn in *; lia. Qed.

Lemma count_all {A} (P : A -> Prop) `{forall x, Decision (P x)} (l : list A) : (forall x, x ∈ l -> P x) -> count P l = length l.
Proof using.
  induction l as [|x l IH]; [done|]. intros Hl. rewrite filter_cons, decide_True; [|apply Hl; left].
  cbn. f_equal. apply IH. intros y Hy. apply Hl. by right.
Qed.

Lemma count_zero {A} (P : A -> Prop) `{forall x, Decision (P x)} (l : list A) : (forall x, x ∈ l -> ~ P x) -> count P l = 0.
Proof using.
  induction l as [|x l IH]; [done|]. intros Hl. rewrite filter_cons, decide_False; [|apply Hl; left].
  apply IH. intros y Hy. apply Hl. by right.
Qed.

Lemma count_map {A B} (f : A -> B) (P : B -> Prop) (Q : A -> Prop) `{forall x, Decision (P x)} `{forall x, Decision (Q x)} l :
  (forall x, x ∈ l -> P (f x) <-> Q x) -> count P (map f l) = count Q l.
Proof using.
  induction l as [|x l IH]; [done|]. intros Hl. cbn [map]. rewrite !filter_cons.
  assert (P (f x) <-> Q x) as Hx by (apply Hl; left).
  rewrite (decide_ext _ _ _ _ Hx). destruct (decide (Q x)); cbn [length]; rewrite IH; try done; intros y Hy; apply Hl; by right.
Qed.

Lemma count_mono {A} (P Q : A -> Prop) `{forall x, Decision (P x)} `{forall x, Decision (Q x)} (l : list A) :
  (forall x, x ∈ l -> P x -> Q x) -> count P l <= count Q l.
Proof using.
  induction l as [|x l IH]; [done|]. intros Hl. rewrite !filter_cons.
  assert (count P l <= count Q l) as Hle by (apply IH; intros y Hy; apply Hl; by right).
  assert (P x -> Q x) by (apply Hl; left). repeat destruct (decide _); cbn; try lia. tauto.
Qed.

Lemma sorted_lookup {A} (R : A -> A -> Prop) (s : list A) i k x y :
  StronglySorted R s -> i < k -> s !! i = Some x -> s !! k = Some y -> R x y.
Proof using.
  intros Hs. revert i k. induction Hs as [|z s _ IH Hz]; [done|]. intros i k Hik Hi Hk.
  destruct k as [|k]; [lia|]. destruct i as [|i]; cbn in Hi, Hk.
  - injection Hi as ->. rewrite Forall_forall in Hz. apply Hz. by apply elem_of_list_lookup_2 in Hk.
  - eapply (IH i k); [lia|done|done].
Qed.

(** One filter: it keeps all but the [n] greatest, and what it keeps has [n] others that are at least as great. *)
Section Drop.
Context (leb : cand -> cand -> bool).
Hypothesis leb_total : forall x y, leb x y = true \/ leb y x = true.
Hypothesis leb_trans : forall x y z, leb x y = true -> leb y z = true -> leb x z = true.

Lemma drop_last_sub l n : drop_last sort leb l n ⊆+ l.
Proof using Hsort leb_total leb_trans.
  destruct (Hsort cand leb l leb_total leb_trans) as [Hp _]. unfold drop_last.
  etrans; [apply sublist_submseteq, sublist_take|]. by rewrite Hp.
Qed.

Lemma drop_last_length l n : length (drop_last sort leb l n) = length l - n.
Proof using Hsort leb_total leb_trans.
  destruct (Hsort cand leb l leb_total leb_trans) as [Hp _]. unfold drop_last.
  rewrite take_length. apply Permutation_length in Hp. lia.
Qed.

Lemma drop_last_kept l n x : x ∈ drop_last sort leb l n -> n < count (fun y => leb x y = true) l.
Proof using Hsort leb_total leb_trans.
  destruct (Hsort cand leb l leb_total leb_trans) as [Hp Hs]. unfold drop_last. intros Hx.
  rewrite <- (count_perm _ _ _ Hp). pose proof (Permutation_length Hp) as Hlen.
  set (s := sort cand leb l) in *. set (m := length l - n) in *.
  rewrite <- (take_drop m s), count_app.
  assert (m <= length s) as Hm by (unfold m; lia).
  assert (Hdrop : count (fun y => leb x y = true) (drop m s) = length (drop m s)).
  { apply count_all. intros y Hy. apply elem_of_list_lookup in Hx as [i Hi]. apply elem_of_list_lookup in Hy as [j Hj].
    rewrite lookup_drop in Hj. pose proof (lookup_lt_Some _ _ _ Hi) as Hi'. rewrite take_length in Hi'.
    rewrite lookup_take in Hi by lia. apply (sorted_lookup _ _ i (m + j) _ _ Hs); [lia|done|done]. }
  assert (0 < count (fun y => leb x y = true) (take m s)) as Htake.
  { apply elem_of_list_split in Hx as (l1 & l2 & Hx). rewrite Hx, count_app, filter_cons, decide_True; [cbn; lia|].
    destruct (leb_total x x); done. }
  rewrite Hdrop, drop_length. destruct (decide (n <= length l)) as [Hn|Hn].
  - unfold m in *. lia.
  - exfalso. assert (m = 0) as -> by (unfold m; lia). rewrite take_0 in Hx. by apply elem_of_nil in Hx.
Qed.
End Drop.

Lemma opt_leb_total x y : opt_leb x y = true \/ opt_leb y x = true.
Proof using. destruct x, y; cbn; auto. destruct (N.leb_spec n n0); [auto|right; lia]. Qed.
Lemma opt_leb_trans x y z : opt_leb x y = true -> opt_leb y z = true -> opt_leb x z = true.
Proof using. destruct x, y, z; cbn; auto; try done. rewrite !N.leb_le. lia. Qed.
Lemma opt_leb_spec x y : opt_leb x y = true <-> at_least_as_late x y.
Proof using. destruct x, y; cbn; rewrite ?N.leb_le; done. Qed.

Lemma group_total (x y : cand) : (c_group x <=? c_group y)%Z = true \/ (c_group y <=? c_group x)%Z = true.
Proof using. rewrite !Z.leb_le. lia. Qed.
Lemma group_trans (x y z : cand) : (c_group x <=? c_group y)%Z = true -> (c_group y <=? c_group z)%Z = true -> (c_group x <=? c_group z)%Z = true.
Proof using. rewrite !Z.leb_le. lia. Qed.
Lemma ping_total (x y : cand) : (- c_ping x <=? - c_ping y)%Z = true \/ (- c_ping y <=? - c_ping x)%Z = true.
Proof using. rewrite !Z.leb_le. lia. Qed.
Lemma ping_trans (x y z : cand) : (- c_ping x <=? - c_ping y)%Z = true -> (- c_ping y <=? - c_ping z)%Z = true -> (- c_ping x <=? - c_ping z)%Z = true.
Proof using. rewrite !Z.leb_le. lia. Qed.

(** [max_by_key] and [min_by]. *)
Lemma max_by_key_spec {A} (f : A -> N) l x : max_by_key f l = Some x -> x ∈ l /\ forall y, y ∈ l -> (f y <= f x)%N.
Proof using.
  revert x. induction l as [|z l IH]; [done|]. intros x. cbn. destruct (max_by_key f l) as [y|] eqn:Hy.
  - destruct (IH y eq_refl) as [Hin Hmax]. destruct (N.leb_spec (f z) (f y)); intros [= <-].
    + split; [by right|]. intros w [->|Hw]%elem_of_cons; [done|auto].
    + split; [left|]. intros w [->|Hw]%elem_of_cons; [done|]. specialize (Hmax w Hw). lia.
  - intros [= <-]. split; [left|]. intros w [->|Hw]%elem_of_cons; [done|]. exfalso.
    destruct l as [|u l]; [by apply elem_of_nil in Hw|]. cbn in Hy. destruct (max_by_key f l); [|done]. by destruct (_ <=? _)%N.
Qed.
Lemma max_by_key_some {A} (f : A -> N) l : l <> [] -> is_Some (max_by_key f l).
Proof using. destruct l as [|z l]; [done|]. intros _. cbn. destruct (max_by_key f l); [destruct (_ <=? _)%N|]; eauto. Qed.
Lemma min_by_spec {A} (leb : A -> A -> bool) l x :
  (forall x y, leb x y = true \/ leb y x = true) -> (forall x y z, leb x y = true -> leb y z = true -> leb x z = true) ->
  min_by leb l = Some x -> x ∈ l /\ forall y, y ∈ l -> leb x y = true.
Proof using.
  intros Ht Hr. revert x. induction l as [|z l IH]; [done|]. intros x. cbn. destruct (min_by leb l) as [y|] eqn:Hy.
  - destruct (IH y eq_refl) as [Hin Hmin]. destruct (leb z y) eqn:Hz; intros [= <-].
    + split; [left|]. intros w [->|Hw]%elem_of_cons; [by destruct (Ht z z)|eauto].
    + split; [by right|]. intros w [->|Hw]%elem_of_cons; [destruct (Ht z y); congruence|auto].
  - intros [= <-]. split; [left|]. intros w [->|Hw]%elem_of_cons; [by destruct (Ht z z)|]. exfalso.
    destruct l as [|u l]; [by apply elem_of_nil in Hw|]. cbn in Hy. destruct (min_by leb l); [|done]. by destruct (leb _ _).
Qed.
Lemma min_by_some {A} (leb : A -> A -> bool) l : l <> [] -> is_Some (min_by leb l).
Proof using. destruct l as [|z l]; [done|]. intros _. cbn. destruct (min_by leb l); [destruct (leb _ _)|]; eauto. Qed.

Lemma choose_banned_some r l c : choose_banned r l = Some c -> c ∈ l /\ c_banned c = true.
Proof using. intros Hc. apply elem_of_list_lookup_2, elem_of_list_filter in Hc. tauto. Qed.
Lemma choose_banned_none r l : choose_banned r l = None -> forall c, c ∈ l -> c_banned c = false.
Proof using.
  unfold choose_banned. intros Hn c Hc. destruct (c_banned c) eqn:Hb; [|done]. exfalso.
  assert (c ∈ filter (fun c => c_banned c = true) l) as Hf by by apply elem_of_list_filter.
  apply lookup_ge_None in Hn. destruct (filter _ l) as [|d k]; [by apply elem_of_nil in Hf|].
  pose proof (Nat.mod_upper_bound r (length (d :: k))). cbn [length] in *. lia.
Qed.

(** The group with the most connections. *)
Lemma group_counts_spec l g n : (g, n) ∈ group_counts sort l <->
  (exists c, c ∈ l /\ c_group c = g) /\ n = N.of_nat (count (fun c => c_group c = g) l).
Proof using Hsort.
  unfold group_counts. destruct (Hsort Z Z.leb (remove_dups (map c_group l))) as [Hp _].
  { intros. rewrite !Z.leb_le. lia. } { intros. rewrite !Z.leb_le in *. lia. }
  rewrite elem_of_list_fmap. split.
  - intros (g' & [= -> ->] & Hg). split; [|done]. rewrite Hp, elem_of_remove_dups, elem_of_list_fmap in Hg.
    destruct Hg as (c & -> & Hc). eauto.
  - intros [(c & Hc & <-) ->]. eexists; split; [done|]. rewrite Hp, elem_of_remove_dups, elem_of_list_fmap. eauto.
Qed.

Lemma most_connections l x : find_group_most_connections sort l = Ok (Some x) ->
  exists c, c ∈ l /\ c_id c = x /\
    (forall g, count (fun d => c_group d = g) l <= count (fun d => c_group d = c_group c) l) /\
    (forall d, d ∈ l -> c_group d = c_group c -> (c_id d <= c_id c)%N).
Proof using Hsort.
  unfold find_group_most_connections. destruct l as [|c0 l0]; [done|]. set (l := c0 :: l0).
  destruct (max_by_key snd (group_counts sort l)) as [[g n]|] eqn:Hg; [|done]. cbn [expect rbind fst].
  destruct (max_by_key c_id _) as [c|] eqn:Hc; [|done]. cbn [expect rbind]. intros [= <-].
  apply max_by_key_spec in Hg as [Hin Hmax]. apply max_by_key_spec in Hc as [Hcin Hcmax].
  apply elem_of_list_filter in Hcin as [<- Hcl]. apply group_counts_spec in Hin as [_ ->]. exists c. split_and!; [done..| |].
  - intros g. destruct (decide (count (fun d => c_group d = g) l = 0)) as [Hz|Hz].
    { lia. }
    assert (exists d, d ∈ l /\ c_group d = g) as Hd.
    { destruct (filter (fun d => c_group d = g) l) as [|d k] eqn:Hf; [done|]. exists d.
      assert (d ∈ filter (fun d => c_group d = g) l) as Hd by (rewrite Hf; left).
      apply elem_of_list_filter in Hd. tauto. }
    specialize (Hmax (g, N.of_nat (count (fun d => c_group d = g) l))). cbn in Hmax.
    enough (N.of_nat (count (fun d => c_group d = g) l) <= N.of_nat (count (fun d => c_group d = c_group c) l))%N by lia.
    apply Hmax, group_counts_spec. done.
  - intros d Hd Hgd. apply Hcmax. by apply elem_of_list_filter.
Qed.

Lemma most_connections_ok l : l <> [] -> exists x, find_group_most_connections sort l = Ok (Some x).
Proof using Hsort.
  intros Hl. unfold find_group_most_connections. destruct l as [|c0 l0]; [done|]. set (l := c0 :: l0) in *.
  destruct (max_by_key_some snd (group_counts sort l)) as [[g n] Hg].
  { intros He. assert ((c_group c0, N.of_nat (count (fun c => c_group c = c_group c0) l)) ∈ group_counts sort l) as Hi.
    { apply group_counts_spec. split; [|done]. exists c0. split; [left|done]. }
    rewrite He in Hi. by apply elem_of_nil in Hi. }
  rewrite Hg. cbn [expect rbind fst]. apply max_by_key_spec in Hg as [Hin _]. apply group_counts_spec in Hin as [(c & Hc & <-) _].
  destruct (max_by_key_some c_id (filter (fun d => c_group d = c_group c) l)) as [d Hd].
  { intros He. assert (c ∈ filter (fun d => c_group d = c_group c) l) as Hi by by apply elem_of_list_filter.
    rewrite He in Hi. by apply elem_of_nil in Hi. }
  rewrite Hd. cbn. eauto.
Qed.

(** The inbound filters in a row. *)
Definition kept (cfg : config) (l : list cand) : list cand :=
  let l := filter_address_group sort l (preserved_address_group cfg) in
  let l := drop_last sort (fun a b => (- c_ping a <=? - c_ping b)%Z) l (preserved_ping cfg) in
  let l := filter_by_last_tip_block_time sort l (preserved_new_blocks cfg) in
  filter_by_last_transaction_time sort l (preserved_new_transactions cfg).

Lemma kept_facts cfg l :
  kept cfg l ⊆+ l /\ length (kept cfg l) = length l - total_preserved_inbound_count cfg /\
  forall x, x ∈ kept cfg l ->
    preserved_address_group cfg < count (fun y => (c_group x <= c_group y)%Z) l /\
    preserved_ping cfg < count (fun y => (c_ping y <= c_ping x)%Z) l /\
    preserved_new_blocks cfg < count (fun y => at_least_as_late (c_last_tip x) (c_last_tip y)) l /\
    preserved_new_transactions cfg < count (fun y => at_least_as_late (c_last_tx x) (c_last_tx y)) l.
Proof using Hsort.
  unfold kept, filter_address_group, filter_by_last_tip_block_time, filter_by_last_transaction_time.
  set (l1 := drop_last sort (fun a b => (c_group a <=? c_group b)%Z) l _).
  set (l2 := drop_last sort _ l1 _). set (l3 := drop_last sort _ l2 _). set (l4 := drop_last sort _ l3 _).
  assert (l1 ⊆+ l) as S1 by (apply drop_last_sub; [apply group_total|apply group_trans]).
  assert (l2 ⊆+ l1) as S2 by (apply drop_last_sub; [apply ping_total|apply ping_trans]).
  assert (l3 ⊆+ l2) as S3 by (apply drop_last_sub; intros; [apply opt_leb_total|by eapply opt_leb_trans]).
  assert (l4 ⊆+ l3) as S4 by (apply drop_last_sub; intros; [apply opt_leb_total|by eapply opt_leb_trans]).
  assert (length l1 = length l - preserved_address_group cfg) as E1 by (apply drop_last_length; [apply group_total|apply group_trans]).
  assert (length l2 = length l1 - preserved_ping cfg) as E2 by (apply drop_last_length; [apply ping_total|apply ping_trans]).
  assert (length l3 = length l2 - preserved_new_blocks cfg) as E3 by (apply drop_last_length; intros; [apply opt_leb_total|by eapply opt_leb_trans]).
  assert (length l4 = length l3 - preserved_new_transactions cfg) as E4 by (apply drop_last_length; intros; [apply opt_leb_total|by eapply opt_leb_trans]).
  split_and!; [by etrans; [|etrans; [|etrans; [|exact S1]]]|unfold total_preserved_inbound_count; lia|].
  intros x H4. pose proof (elem_of_submseteq _ _ _ H4 S4) as H3.
  assert (H2 : x ∈ l2) by by eapply elem_of_submseteq. assert (H1 : x ∈ l1) by by eapply elem_of_submseteq.
  apply drop_last_kept in H1; [|apply group_total|apply group_trans].
  apply drop_last_kept in H2; [|apply ping_total|apply ping_trans].
  apply drop_last_kept in H3; [|intros; apply opt_leb_total|intros; by eapply opt_leb_trans].
  apply drop_last_kept in H4; [|intros; apply opt_leb_total|intros; by eapply opt_leb_trans].
  split_and!.
  - eapply Nat.lt_le_trans; [apply H1|]. apply count_mono. intros y _ Hy. by apply Z.leb_le.
  - eapply Nat.lt_le_trans; [apply H2|]. etrans; [apply (count_submseteq _ _ _ S1)|]. apply count_mono. intros y _ Hy. apply Z.leb_le in Hy. lia.
  - eapply Nat.lt_le_trans; [apply H3|]. etrans; [apply (count_submseteq _ _ l); by etrans|]. apply count_mono. intros y _ Hy. by apply opt_leb_spec.
  - eapply Nat.lt_le_trans; [apply H4|]. etrans; [apply (count_submseteq _ _ l); by etrans; [|etrans]|]. apply count_mono. intros y _ Hy. by apply opt_leb_spec.
Qed.

Lemma count_lost {A} (P : A -> Prop) `{forall x, Decision (P x)} (l k : list A) : k ⊆+ l -> count P l <= count P k + (length l - length k).
Proof using.
  intros [j Hj]%submseteq_Permutation. rewrite (count_perm P _ _ Hj), (Permutation_length Hj), count_app, app_length.
  pose proof (count_le P j). lia.
Qed.
End Sorted.
