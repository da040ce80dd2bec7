(** More proofs about the block tree: main chain, new branches, median time, branches, candidates. *)
From Coq Require Import Sorting.Permutation Sorting.Sorted.
From Verif Require Import Base StatusModel StatusSpec BlockTreeModel BlockTreeSpec BlockTreeProofs.
Local Open Scope N_scope.

Section tree.
Context (cf : tree_cfg).

(** ** The main chain and new branches *)
Lemma in_main_chain_spec s id : wf cf (t_idx s) -> main_chain_listed cf s -> is_Some (get_gen cf (t_idx s) id) ->
  in_main_chain cf s id = true <-> ancestor cf (t_idx s) id (t_best s).
Proof.
  intros Hwf [[gb Hb] Hm] [g Hg]. unfold in_main_chain, height_in_main_chain.
  destruct (id =? genesis_id cf) eqn:E.
  - assert (id = genesis_id cf) as -> by lia. split; [|reflexivity]. intros _. eexists. apply (up_genesis cf _ _ _ Hwf Hb).
  - destruct g as [|b]; [apply get_gen_gen in Hg; lia|]. pose proof Hg as Hb'. apply get_gen_block in Hb' as [_ Hb']. rewrite Hb'.
    destruct (decide (t_main s !! bi_height b = Some id)) as [Hd|Hd]; split; intro H; try discriminate; try reflexivity.
    + apply Hm in Hd as (_ & _ & _ & Ha). exact Ha.
    + exfalso. apply Hd. apply Hm. exists (Block b). split; [exact Hg|]. split; [reflexivity|exact H].
Qed.
Lemma in_main_chain_genesis s : in_main_chain cf s (genesis_id cf) = true.
Proof. unfold in_main_chain, height_in_main_chain. rewrite N.eqb_refl. reflexivity. Qed.

Lemma path_app a l1 b l2 c : path a l1 b -> path b l2 c -> path a (l1 ++ l2) c.
Proof. revert a. induction l1 as [|x l1 IH]; cbn; intros a H1 H2; [subst; exact H2|]. destruct H1 as [? H1]. split; [assumption|]. apply IH; assumption. Qed.

Lemma new_chain_loop_spec s fuel b acc z : wf cf (t_idx s) -> main_chain_listed cf s -> t_idx s !! bi_id b = Some b ->
  (N.to_nat (bi_height b) < fuel)%nat -> path (bi_id b) acc z ->
  (in_main_chain cf s (bi_id b) = true -> acc <> []) ->
  exists f l, new_chain_loop cf s fuel b acc = Ok (l ++ acc) /\ path f (l ++ acc) z /\
    ancestor cf (t_idx s) f (bi_id b) /\ in_main_chain cf s f = true /\ is_Some (get_gen cf (t_idx s) f) /\ (l ++ acc <> []) /\
    (forall x, x ∈ l -> t_idx s !! bi_id x = Some x /\ in_main_chain cf s (bi_id x) = false).
Proof.
  intros Hwf Hmc. revert b acc. induction fuel as [|fuel IH]; intros b acc Hb Hf Hpath Hne; [lia|]. cbn [new_chain_loop].
  assert (Hg : get_gen cf (t_idx s) (bi_id b) = Some (Block b)).
  { apply get_gen_block. split; [|exact Hb]. apply (Hwf _ _ Hb). }
  destruct (in_main_chain cf s (bi_id b)) eqn:Em.
  { exists (bi_id b), []. split; [reflexivity|]. split; [exact Hpath|]. split; [apply ancestor_refl|]. split; [exact Em|].
    split; [exists (Block b); exact Hg|]. split; [exact (Hne eq_refl)|]. intros x Hx. inversion Hx. }
  destruct (Hwf _ _ Hb) as (_ & _ & _ & (p & Hp & Hh & _) & _). unfold get_previous. rewrite Hp. cbn [ok_or rbind].
  assert (Hpath' : path (bi_prev b) (b :: acc) z) by (cbn; split; [reflexivity|exact Hpath]).
  destruct p as [|pb].
  - exists (bi_prev b), [b]. cbn [app]. split; [reflexivity|]. split; [exact Hpath'|].
    split; [eapply ancestor_parent; [exact Hg|reflexivity|apply ancestor_refl]|].
    pose proof Hp as Hp'. apply get_gen_gen in Hp' as ->. split; [apply in_main_chain_genesis|]. split; [exists Genesis; apply get_gen_genesis|].
    split; [discriminate|]. intros x Hx. apply elem_of_list_singleton in Hx as ->. split; [exact Hb|exact Em].
  - pose proof Hp as Hp'. apply get_gen_block in Hp' as [_ Hp'].
    assert (Hid : bi_id pb = bi_prev b) by apply (Hwf _ _ Hp').
    destruct (IH pb (b :: acc)) as (f & l & Hl & Hpa & Han & Hmf & Hk & Hnn & Hall).
    + rewrite Hid. exact Hp'.
    + cbn in Hh. lia.
    + rewrite Hid. exact Hpath'.
    + discriminate.
    + exists f, (l ++ [b]). rewrite <- app_assoc. cbn [app]. split; [exact Hl|]. split; [exact Hpa|].
      split; [eapply ancestor_parent; [exact Hg|reflexivity|rewrite <- Hid; exact Han]|]. split; [exact Hmf|]. split; [exact Hk|]. split; [exact Hnn|].
      intros x Hx. apply elem_of_app in Hx as [Hx|Hx]; [apply Hall, Hx|]. apply elem_of_list_singleton in Hx as ->. split; [exact Hb|exact Em].
Qed.
Lemma new_chain_spec s b : wf cf (t_idx s) -> main_chain_listed cf s -> t_idx s !! bi_id b = Some b -> in_main_chain cf s (bi_id b) = false ->
  exists f fg l, get_new_chain cf s b = Ok l /\ l <> [] /\ path f l (bi_id b) /\
    (forall x, x ∈ l -> t_idx s !! bi_id x = Some x /\ in_main_chain cf s (bi_id x) = false) /\
    get_gen cf (t_idx s) f = Some fg /\ lca_in_main_chain cf s (Block b) = Ok fg /\ ancestor cf (t_idx s) f (bi_id b) /\ ancestor cf (t_idx s) f (t_best s).
Proof.
  intros Hwf Hmc Hb Hnm.
  assert (Hg : get_gen cf (t_idx s) (bi_id b) = Some (Block b)).
  { apply get_gen_block. split; [|exact Hb]. apply (Hwf _ _ Hb). }
  destruct (new_chain_loop_spec s (S (N.to_nat (bi_height b))) b [] (bi_id b) Hwf Hmc Hb ltac:(lia) eq_refl) as (f & l & Hl & Hpa & Han & Hmf & [fg Hk] & Hnn & Hall).
  { intro H. rewrite Hnm in H. discriminate. }
  rewrite app_nil_r in *. exists f, fg, l. split; [exact Hl|]. split; [exact Hnn|]. split; [exact Hpa|]. split; [exact Hall|]. split; [exact Hk|].
  assert (Hfb : ancestor cf (t_idx s) f (t_best s)) by (apply in_main_chain_spec; [exact Hwf|exact Hmc|exists fg; exact Hk|exact Hmf]).
  split; [|split; [exact Han|exact Hfb]].
  unfold lca_in_main_chain, best_index. destruct Hmc as [[gb Hgb] Hmm]. rewrite Hgb. cbn [ok_or rbind].
  destruct (lca_spec cf _ _ _ _ _ Hwf Hg Hgb) as (g & Hlca & Hst & A1 & A2 & Hmax). rewrite Hlca. f_equal.
  (* the first block of [l] is a child of [f] outside the main chain, so nothing above [f] is shared *)
  destruct l as [|x l]; [congruence|]. cbn in Hpa. destruct Hpa as [Hx Hpl].
  destruct (Hall x ltac:(left)) as [Hxs Hxn].
  assert (Hxb : ancestor cf (t_idx s) (bi_id x) (bi_id b)).
  { clear -Hpl Hall Hwf. assert (Hall' : forall y, y ∈ l -> t_idx s !! bi_id y = Some y) by (intros y Hy; apply Hall; right; exact Hy).
    clear Hall. revert Hpl. generalize (bi_id b) as z, (bi_id x) as a. intros z a. revert a.
    induction l as [|y l IH]; cbn; intros a Hpl; [subst; apply ancestor_refl|]. destruct Hpl as [Hy Hpl].
    assert (Hyz := IH ltac:(intros; apply Hall'; right; assumption) _ Hpl).
    eapply ancestor_trans; [|exact Hyz].
    assert (Hys := Hall' y ltac:(left)).
    eapply (ancestor_parent cf (t_idx s) a a (bi_id y) y); [|exact Hy|apply ancestor_refl]. apply get_gen_block. split; [apply (Hwf _ _ Hys)|exact Hys]. }
  assert (Hfg : ancestor cf (t_idx s) f (gen_id cf g)) by (apply Hmax; assumption).
  assert (Hgid := wf_gen_id cf _ _ _ Hwf Hst).
  assert (Hxg : get_gen cf (t_idx s) (bi_id x) = Some (Block x)) by (apply get_gen_block; split; [apply (Hwf _ _ Hxs)|exact Hxs]).
  destruct (Hwf _ _ Hxs) as (_ & _ & _ & (p & Hp & Hhp & _) & _). rewrite Hx, Hk in Hp. injection Hp as <-.
  destruct (N.le_gt_cases (gen_height g) (gen_height fg)) as [Hle|Hgt].
  - assert (gen_id cf g = f) as He.
    { destruct (ancestor_known cf _ _ _ _ Hwf Hst Hfg) as (fg' & Hfg' & Hle'). rewrite Hk in Hfg'. injection Hfg' as <-.
      eapply (ancestor_same_height cf (t_idx s) (gen_id cf g) f (bi_id b) g fg (Block b)); try eassumption. lia. }
    rewrite He in Hst. congruence.
  - exfalso. assert (Hxa : ancestor cf (t_idx s) (bi_id x) (gen_id cf g)).
    { eapply (ancestor_linear cf (t_idx s) (bi_id x) (gen_id cf g) (bi_id b) (Block x) g (Block b)); try eassumption. cbn. lia. }
    assert (in_main_chain cf s (bi_id x) = true) as Hc; [|congruence].
    apply in_main_chain_spec; [exact Hwf|split; [exists gb; exact Hgb|exact Hmm]|exists (Block x); exact Hxg|]. eapply ancestor_trans; eassumption.
Qed.

(** ** Median time *)
Lemma insert_sorted_perm x l : Permutation (insert_sorted x l) (x :: l).
Proof.
  induction l as [|y l IH]; [reflexivity|]. cbn. destruct (x <=? y); [reflexivity|]. rewrite IH. apply perm_swap.
Qed.
Lemma sorted_times_perm l : Permutation (sorted_times l) l.
Proof. induction l as [|x l IH]; [reflexivity|]. cbn. rewrite insert_sorted_perm, IH. reflexivity. Qed.
Lemma insert_sorted_sorted x l : StronglySorted N.le l -> StronglySorted N.le (insert_sorted x l).
Proof.
  induction 1 as [|y l Hs IH Hy]; cbn; [repeat constructor|]. destruct (x <=? y) eqn:E.
  - constructor; [constructor; assumption|]. constructor; [lia|]. eapply List.Forall_impl; [|exact Hy]. intros z Hz. cbn in *. lia.
  - constructor; [exact IH|]. apply List.Forall_forall. intros z Hz. apply (Permutation_in _ (insert_sorted_perm x l)) in Hz as [<-|Hz]; [lia|].
    rewrite List.Forall_forall in Hy. apply Hy, Hz.
Qed.
Lemma sorted_times_sorted l : StronglySorted N.le (sorted_times l).
Proof. induction l as [|x l IH]; [constructor|]. cbn. apply insert_sorted_sorted, IH. Qed.
Lemma count_perm p l l' : Permutation l l' -> count p l = count p l'.
Proof.
  unfold count. induction 1 as [|x l l' _ IH|x y l|l l' l'' _ IH1 _ IH2]; cbn; [reflexivity|destruct (p x); cbn; congruence| |congruence].
  destruct (p x), (p y); reflexivity.
Qed.
Lemma count_app p l l' : count p (l ++ l') = (count p l + count p l')%nat.
Proof. unfold count. rewrite List.filter_app, app_length. reflexivity. Qed.
Lemma count_none p l : (forall x, In x l -> p x = false) -> count p l = 0%nat.
Proof. unfold count. induction l as [|x l IH]; intro H; [reflexivity|]. cbn. rewrite (H x (or_introl eq_refl)). apply IH. intros y Hy. apply H. right. exact Hy. Qed.
Lemma count_all p l : (forall x, In x l -> p x = true) -> count p l = length l.
Proof. unfold count. induction l as [|x l IH]; intro H; [reflexivity|]. cbn. rewrite (H x (or_introl eq_refl)). cbn. f_equal. apply IH. intros y Hy. apply H. right. exact Hy. Qed.
Lemma count_le p l : (count p l <= length l)%nat.
Proof. unfold count. induction l as [|x l IH]; cbn; [lia|]. destruct (p x); cbn; lia. Qed.
Lemma count_imp p q l : (forall x, p x = true -> q x = true) -> (count p l <= count q l)%nat.
Proof. unfold count. intro H. induction l as [|x l IH]; cbn; [lia|]. specialize (H x). destruct (p x); [rewrite H by reflexivity; cbn; lia|]. destruct (q x); cbn; lia. Qed.
Lemma sorted_lookup_median l m : StronglySorted N.le l -> l !! (length l / 2)%nat = Some m -> is_median m l.
Proof.
  intros Hs Hm. split; [eapply elem_of_list_lookup_2; exact Hm|].
  pose proof (lookup_lt_Some _ _ _ Hm) as Hlt. pose proof (take_drop_middle _ _ _ Hm) as Hdec.
  set (k := (length l / 2)%nat) in *.
  assert (Hlo : forall x, In x (take k l) -> x <= m).
  { rewrite <- Hdec in Hs. clear -Hs. induction (take k l) as [|y l' IH]; cbn in *; [tauto|]. inversion Hs as [|? ? Hs' Hy]; subst.
    intros x [<-|Hx]; [|apply IH; assumption]. rewrite List.Forall_forall in Hy. apply Hy. apply in_or_app. right. left. reflexivity. }
  assert (Hhi : forall x, In x (drop (S k) l) -> m <= x).
  { rewrite <- Hdec in Hs. clear -Hs. induction (take k l) as [|y l' IH]; cbn in *; inversion Hs as [|? ? Hs' Hy]; subst; [|apply IH; assumption].
    rewrite List.Forall_forall in Hy. intros x Hx. apply Hy, Hx. }
  assert (Hlen : length (take k l) = k) by (rewrite take_length; lia).
  assert (Hsplit : forall p, count p l = (count p (take k l) + (count p [m] + count p (drop (S k) l)))%nat).
  { intro p. rewrite <- Hdec at 1. rewrite count_app. f_equal. apply (count_app p [m]). }
  rewrite !Hsplit. split.
  - rewrite (count_none _ (drop (S k) l)) by (intros x Hx; specialize (Hhi x Hx); lia).
    rewrite (count_none _ [m]) by (intros x [<-|[]]; lia). pose proof (count_le (fun x => x <? m) (take k l)). lia.
  - rewrite (count_all _ (take k l)) by (intros x Hx; specialize (Hlo x Hx); lia).
    rewrite (count_all _ [m]) by (intros x [<-|[]]; lia). rewrite Hlen. change (length [m]) with 1%nat. lia.
Qed.
Lemma is_median_perm m l l' : Permutation l l' -> is_median m l -> is_median m l'.
Proof.
  intros Hp (Hin & H1 & H2). split; [rewrite <- Hp; exact Hin|]. rewrite <- (count_perm _ _ _ Hp), <- (count_perm _ _ _ Hp), <- (Permutation_length Hp). split; assumption.
Qed.
Lemma median_of_times_spec times : times <> [] -> exists m, median_of_times times = Ok m /\ is_median m (take MEDIAN_TIME_SPAN times).
Proof.
  intro Hne. unfold median_of_times. set (w := take MEDIAN_TIME_SPAN times).
  assert (Hw : length (sorted_times w) = length w) by apply (Permutation_length (sorted_times_perm w)).
  assert (Hpos : (0 < length w)%nat). { unfold w. rewrite take_length. destruct times; [congruence|]. unfold MEDIAN_TIME_SPAN. cbn. lia. }
  destruct (sorted_times w !! (length (sorted_times w) / 2)%nat) as [m|] eqn:E.
  - exists m. split; [reflexivity|]. apply (is_median_perm m (sorted_times w)); [apply sorted_times_perm|].
    apply sorted_lookup_median; [apply sorted_times_sorted|exact E].
  - exfalso. apply lookup_ge_None in E. rewrite Hw in E.
    pose proof (Nat.div_lt (length w) 2 Hpos ltac:(lia)). lia.
Qed.
Lemma is_median_unique m m' l : is_median m l -> is_median m' l -> m = m'.
Proof.
  intros (_ & H1 & H2) (_ & H3 & H4). destruct (N.lt_trichotomy m m') as [H|[H|H]]; [|exact H|]; exfalso.
  - pose proof (count_imp (fun x => x <=? m) (fun x => x <? m') l ltac:(cbn; intros; lia)). lia.
  - pose proof (count_imp (fun x => x <=? m') (fun x => x <? m) l ltac:(cbn; intros; lia)). lia.
Qed.
Lemma is_median_half m l : is_median m l ->
  (length l <= 2 * count (fun x => N.leb x m) l)%nat /\ (length l <= 2 * count (fun x => N.leb m x) l)%nat.
Proof.
  intros (_ & H1 & H2). assert (Hd := Nat.div_mod (length l) 2 ltac:(lia)). assert (Hr := Nat.mod_upper_bound (length l) 2 ltac:(lia)).
  assert (Hc : (count (fun x => N.ltb x m) l + count (fun x => N.leb m x) l = length l)%nat).
  { clear. unfold count. induction l as [|x l IH]; [reflexivity|]. cbn. destruct (N.ltb_spec x m), (N.leb_spec m x); cbn; lia. }
  revert H1 H2 Hd Hr. generalize (length l / 2)%nat, (length l mod 2)%nat. intros q r H1 H2 Hd Hr. lia.
Qed.
(** The window after one more block keeps or raises the median if the new time is not below it. *)
Lemma median_step m m' t w : is_median m w -> m <= t -> (length w <= 11)%nat -> is_median m' (take 11 (t :: w)) -> m <= m'.
Proof.
  intros (_ & H1 & H2) Ht Hlen (_ & H3 & H4). apply N.nlt_ge. intro Hlt.
  change (take 11 (t :: w)) with (t :: take 10 w) in *.
  assert (Hc1 : (count (fun x => N.leb x m') (t :: take 10 w) <= count (fun x => N.ltb x m) (take 10 w))%nat).
  { unfold count at 1. cbn [List.filter]. replace (t <=? m') with false by lia. apply count_imp. intros; lia. }
  assert (Hc2 : (count (fun x => N.ltb x m) (take 10 w) <= count (fun x => N.ltb x m) w)%nat).
  { rewrite <- (take_drop 10 w) at 2. rewrite count_app. lia. }
  cbn [length] in *. rewrite take_length in *.
  assert (Hdiv : (length w / 2 <= S (10 `min` length w) / 2)%nat) by (apply Nat.div_le_mono; lia). lia.
Qed.

Lemma history_take t n m id : take n (history cf t m id) = history cf t (n `min` m) id.
Proof.
  revert m id. induction n as [|n IH]; intros m id; [reflexivity|]. destruct m as [|m]; [reflexivity|]. cbn [Nat.min history].
  destruct (get_gen cf t id) as [[|b]|]; [destruct n; reflexivity| |reflexivity]. cbn. f_equal. apply IH.
Qed.
Lemma history_length t n id : (length (history cf t n id) <= n)%nat.
Proof. revert id. induction n as [|n IH]; intro id; [cbn; lia|]. cbn. destruct (get_gen cf t id) as [[|b]|]; cbn; [lia| |lia]. specialize (IH (bi_prev b)). lia. Qed.
Lemma history_cons t n id b : get_gen cf t id = Some (Block b) -> history cf t (S n) id = Block b :: history cf t n (bi_prev b).
Proof. intro H. cbn. rewrite H. reflexivity. Qed.
(** The [i]-th item is what is stored [i] parent links down. *)
Lemma history_lookup t n id i : wf cf t -> is_Some (get_gen cf t id) -> (i < n)%nat ->
  history cf t n id !! i = match up cf t i id with Some a => get_gen cf t a | None => None end.
Proof.
  intro Hwf. revert id i. induction n as [|n IH]; intros id i [g Hg] Hi; [lia|]. cbn [history]. rewrite Hg. destruct i as [|i].
  - cbn [up]. destruct g; cbn; congruence.
  - cbn [up]. destruct g as [|b].
    + apply get_gen_gen in Hg as ->. unfold parent. rewrite N.eqb_refl. reflexivity.
    + replace (parent cf t id) with (Some (bi_prev b)) by (symmetry; apply parent_some; exists b; split; [exact Hg|reflexivity]).
      cbn. apply IH; [|lia]. apply get_gen_block in Hg as [_ Hg]. apply Hwf in Hg as (_ & _ & _ & (p & Hp & _) & _). exists p. exact Hp.
Qed.
Lemma history_nonempty t n id : is_Some (get_gen cf t id) -> history cf t (S n) id <> [].
Proof. intros [g Hg]. cbn. rewrite Hg. destruct g; discriminate. Qed.
Lemma median_time_past_spec t id : is_Some (get_gen cf t id) ->
  exists m, median_time_past cf t id = Ok m /\ is_median m (gen_time cf <$> history cf t MEDIAN_TIME_SPAN id).
Proof.
  intro Hk. unfold median_time_past.
  destruct (median_of_times_spec (gen_time cf <$> history cf t MEDIAN_TIME_SPAN id)) as (m & Hm & Hmed).
  - intro H. apply fmap_nil_inv in H. revert H. apply history_nonempty, Hk.
  - exists m. split; [exact Hm|]. rewrite <- fmap_take, history_take in Hmed. exact Hmed.
Qed.
Lemma median_time_grows t id b m m' : wf cf t -> get_gen cf t id = Some (Block b) -> median_time_past cf t (bi_prev b) = Ok m -> m <= bi_time b ->
  median_time_past cf t id = Ok m' -> m <= m'.
Proof.
  intros Hwf Hg Hm Hle Hm'.
  assert (Hk : is_Some (get_gen cf t (bi_prev b))). { apply get_gen_block in Hg as [_ Hg]. apply Hwf in Hg as (_ & _ & _ & (p & Hp & _) & _). exists p. exact Hp. }
  destruct (median_time_past_spec t (bi_prev b) Hk) as (m1 & E1 & M1). rewrite Hm in E1. injection E1 as <-.
  destruct (median_time_past_spec t id ltac:(exists (Block b); exact Hg)) as (m2 & E2 & M2). rewrite Hm' in E2. injection E2 as <-.
  eapply (median_step m m' (bi_time b)); [exact M1|exact Hle| |].
  - rewrite fmap_length. apply history_length.
  - unfold MEDIAN_TIME_SPAN in M2. rewrite (history_cons t 10 id b Hg) in M2. cbn [fmap list_fmap gen_time] in M2.
    change (bi_time b :: (gen_time cf <$> history cf t MEDIAN_TIME_SPAN (bi_prev b))) with ([bi_time b] ++ (gen_time cf <$> history cf t MEDIAN_TIME_SPAN (bi_prev b))).
    cbn [app]. change (take 11 (bi_time b :: (gen_time cf <$> history cf t MEDIAN_TIME_SPAN (bi_prev b))))
      with (bi_time b :: take 10 (gen_time cf <$> history cf t MEDIAN_TIME_SPAN (bi_prev b))).
    rewrite <- fmap_take, history_take. exact M2.
Qed.
End tree.
