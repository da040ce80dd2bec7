(** Proofs about locators and headers. *)
From Verif Require Import Base StatusModel StatusSpec BlockTreeModel BlockTreeSpec BlockTreeProofs SyncModel SyncSpec.
Local Open Scope N_scope.

Lemma distance_next i : N.max 1 (2 * distance i) = distance (S i).
Proof.
  destruct i as [|i]; [done|]. cbn [distance]. replace (N.of_nat (S i)) with (N.succ (N.of_nat i)) by lia. rewrite N.pow_succ_r'.
  assert (0 < 2 ^ N.of_nat i) by (apply N.neq_0_lt_0, N.pow_nonzero; lia). lia.
Qed.
Lemma distance_mono i j : (i <= j)%nat -> distance i <= distance j.
Proof.
  intros L. destruct i as [|i]; [cbn; lia|]. destruct j as [|j]; [lia|]. cbn [distance]. apply N.pow_le_mono_r; lia.
Qed.
Lemma distance_big i : (63 <= i)%nat -> 2 ^ 62 <= distance i.
Proof. intros L. apply (distance_mono 63 i) in L. exact L. Qed.

Lemma locator_loop_spec height fuel : forall i, height < 2 ^ 61 -> distance i <= 2 ^ 61 -> (64 <= i + fuel)%nat ->
  exists l, locator_loop fuel height (distance i) = Ok l /\ forall j h, l !! j = Some h <-> distance (i + j) <= height /\ h = height - distance (i + j).
Proof.
  induction fuel as [|fuel IH]; intros i B D F.
  - pose proof (distance_big i ltac:(lia)) as G. exfalso. assert (2 ^ 61 < 2 ^ 62) by done. lia.
  - cbn [locator_loop]. rewrite (proj2 (N.leb_le (2 * distance i) I64_TOP)).
    2: { assert (2 * 2 ^ 61 <= I64_TOP) by done. lia. }
    cbn [rbind]. rewrite distance_next. unfold height_sub. rewrite (proj2 (N.leb_le height I64_TOP)).
    2: { assert (2 ^ 61 <= I64_TOP) by done. lia. }
    cbn [andb]. destruct (N.leb_spec (distance i) height) as [L|L].
    + destruct (IH (S i) B) as (l & E & P); [rewrite <- distance_next; assert (2 * 2 ^ 60 = 2 ^ 61) by done; destruct i; [done|]|lia|].
      { cbn [distance] in *. destruct (decide (i <= 60)%nat) as [X|X].
        - replace (N.max 1 (2 * 2 ^ N.of_nat i)) with (distance (S (S i))) by (symmetry; apply (distance_next (S i))). apply (distance_mono (S (S i)) 62). lia.
        - exfalso. assert (2 ^ 61 <= 2 ^ N.of_nat i) by (apply N.pow_le_mono_r; lia). lia. }
      rewrite E. cbn [rbind]. eexists. split; [reflexivity|]. intros [|j] h; cbn [lookup list_lookup].
      * rewrite Nat.add_0_r. split; [intros [= <-]; done|]. intros [_ ->]. done.
      * rewrite P. replace (i + S j)%nat with (S i + j)%nat by lia. done.
    + eexists. split; [reflexivity|]. intros j h. split; [done|]. intros [H _]. exfalso. pose proof (distance_mono i (i + j) ltac:(lia)). lia.
Qed.
Lemma locator_heights_spec height : height < 2 ^ 61 ->
  exists l, locator_heights height = Ok l /\ forall j h, l !! j = Some h <-> distance j <= height /\ h = height - distance j.
Proof. intros B. apply (locator_loop_spec height 66 0 B); [done|lia]. Qed.

Section SyncProofs.
  Context (cf : tree_cfg).

  (** The main chain by height *)
  Lemma main_at s h id gb : wf cf (t_idx s) -> main_chain_listed cf s -> get_gen cf (t_idx s) (t_best s) = Some gb ->
    t_main s !! h = Some id <-> h <= gen_height gb /\ ancestor_at cf (t_idx s) (t_best s) h id.
  Proof.
    intros W [_ M] B. rewrite M. unfold ancestor_at. split.
    - intros (g & G & <- & A). destruct (ancestor_known cf _ _ _ _ W B A) as (ga & G' & L). rewrite G in G'. injection G' as <-. split; [done|]. by exists g.
    - intros (_ & g & G & E & A). by exists g.
  Qed.
  Lemma ancestor_at_ex t id g h : wf cf t -> get_gen cf t id = Some g -> h <= gen_height g -> exists a, ancestor_at cf t id h a.
  Proof.
    intros W G L. destruct (up_ex cf t (N.to_nat (gen_height g - h)) id g W G ltac:(lia)) as (a & U). exists a.
    destruct (up_height cf t _ _ _ _ W G U) as (ga & Ga & Ha). exists ga. split; [done|]. split; [lia|]. by eexists.
  Qed.
  Lemma ancestor_at_uniq t id g h a b : wf cf t -> get_gen cf t id = Some g -> ancestor_at cf t id h a -> ancestor_at cf t id h b -> a = b.
  Proof.
    intros W G (ga & Ga & Ha & A) (gb & Gb & Hb & B). exact (ancestor_same_height cf t a b id ga gb g W G A B Ga Gb ltac:(congruence)).
  Qed.

  Fixpoint desc (top : N) (hs : list N) : Prop := match hs with [] => True | h :: r => h <= top /\ desc h r end.
  Lemma desc_le top top' hs : top <= top' -> desc top hs -> desc top' hs.
  Proof. destruct hs; cbn; [done|]. intros L [A B]. split; [lia|done]. Qed.
  Lemma desc_of height l : forall i, (forall j h, l !! j = Some h <-> distance (i + j) <= height /\ h = height - distance (i + j)) -> desc (height - distance i) l.
  Proof.
    induction l as [|h l IH]; intros i P; [done|]. cbn. destruct (proj1 (P O h) eq_refl) as [D E]. rewrite Nat.add_0_r in D, E. split; [lia|].
    apply (desc_le (height - distance (S i))). { pose proof (distance_mono i (S i) ltac:(lia)). lia. }
    apply IH. intros j x. replace (S i + j)%nat with (i + S j)%nat by lia. apply (P (S j) x).
  Qed.

  Lemma omap_lookup {A B} (f : A -> option B) (l : list A) : (forall x, x ∈ l -> is_Some (f x)) -> forall i : nat, omap f l !! i = l !! i ≫= f.
  Proof.
    induction l as [|x l IH]; intros H i; [by destruct i|]. cbn. destruct (H x) as [y E]; [left|]. rewrite E.
    destruct i as [|i]; cbn; [done|]. apply IH. intros z Z. apply H. by right.
  Qed.

  Lemma locator_from_best s gb : wf cf (t_idx s) -> main_chain_listed cf s -> get_gen cf (t_idx s) (t_best s) = Some gb -> gen_height gb < 2 ^ 61 ->
    exists l, get_locator_from_best_block cf s = Ok l /\ locates cf (t_idx s) (t_best s) l.
  Proof.
    intros W M B H. unfold get_locator_from_best_block, best_index. rewrite B. cbn [ok_or rmap_err rbind]. unfold get_locator_from_height.
    destruct (locator_heights_spec _ H) as (hs & -> & P). cbn [rbind]. eexists. split; [reflexivity|]. exists gb. split; [done|].
    assert (forall x, x ∈ hs -> is_Some (t_main s !! x)) as S.
    { intros x [j J]%elem_of_list_lookup. apply P in J as [D ->]. destruct (ancestor_at_ex (t_idx s) _ _ (gen_height gb - distance j) W B ltac:(lia)) as (a & A).
      exists a. apply (main_at s _ _ _ W M B). split; [lia|done]. }
    intros i a. rewrite (omap_lookup _ _ S). split.
    - destruct (hs !! i) as [h|] eqn:E; [|done]. cbn. intros L. apply P in E as [D ->]. split; [done|]. by apply (main_at s _ _ _ W M B) in L as [_ L].
    - intros [D A]. rewrite (proj2 (P i (gen_height gb - distance i)) (conj D eq_refl)). cbn. apply (main_at s _ _ _ W M B). split; [lia|done].
  Qed.

  Lemma locator_steps_spec s gb id g hs : wf cf (t_idx s) -> main_chain_listed cf s -> get_gen cf (t_idx s) (t_best s) = Some gb -> get_gen cf (t_idx s) id = Some g ->
    forall last on_main, get_gen cf (t_idx s) (gen_id cf last) = Some last -> ancestor cf (t_idx s) (gen_id cf last) id -> desc (gen_height last) hs ->
    (on_main = true -> ancestor cf (t_idx s) (gen_id cf last) (t_best s)) ->
    exists l, locator_steps cf s last on_main hs = Ok l /\ forall i a, l !! i = Some a <-> exists h, hs !! i = Some h /\ ancestor_at cf (t_idx s) id h a.
  Proof.
    intros W M B G. induction hs as [|h hs IH]; intros last on_main GL AL D O; cbn [locator_steps].
    - exists []. split; [done|]. intros i a. split; [done|]. intros (h & H & _). done.
    - destruct D as [D1 D2]. set (om := on_main || _). assert (om = true -> ancestor cf (t_idx s) (gen_id cf last) (t_best s)) as O'.
      { unfold om. intros [E|E]%orb_true_iff; [by apply O|]. apply bool_decide_eq_true in E. apply (main_at s _ _ _ W M B) in E as (_ & _ & _ & _ & E). done. }
      destruct om.
      + specialize (O' eq_refl). destruct (ancestor_at_ex (t_idx s) _ _ h W GL D1) as (x & gx & Gx & Hx & Ax).
        assert (t_main s !! h = Some x) as ->.
        { apply M. exists gx. split; [done|]. split; [done|]. by eapply ancestor_trans. }
        cbn [ok_or rbind]. destruct (IH last true GL AL) as (l & -> & P); [by eapply desc_le|done|]. cbn [rbind]. eexists. split; [reflexivity|].
        assert (ancestor_at cf (t_idx s) id h x) as AX. { exists gx. split; [done|]. split; [done|]. by eapply ancestor_trans. }
        intros [|i] a; cbn.
        * split; [intros [= <-]; by exists h|]. intros (h' & [= <-] & A). f_equal. by apply (ancestor_at_uniq _ _ _ _ _ _ W G AX A).
        * apply P.
      + destruct (get_ancestor_spec cf (t_idx s) _ _ h W GL D1) as (ga & -> & Ga & U). cbn [rmap_err rbind].
        assert (gen_height ga = h) as Hh. { destruct (up_height cf _ _ _ _ _ W GL U) as (g' & G' & E). rewrite Ga in G'. injection G' as <-. lia. }
        assert (ancestor cf (t_idx s) (gen_id cf ga) id) as Aa by (eapply ancestor_trans; [by eexists|done]).
        destruct (IH ga false Ga Aa) as (l & -> & P); [by rewrite Hh|done|]. cbn [rbind]. eexists. split; [reflexivity|].
        assert (ancestor_at cf (t_idx s) id h (gen_id cf ga)) as AX. { exists ga. done. }
        intros [|i] a; cbn.
        * split; [intros [= <-]; by exists h|]. intros (h' & [= <-] & A). f_equal. by apply (ancestor_at_uniq _ _ _ _ _ _ W G AX A).
        * apply P.
  Qed.
  Lemma locator_from_id s gb id g : wf cf (t_idx s) -> main_chain_listed cf s -> get_gen cf (t_idx s) (t_best s) = Some gb -> get_gen cf (t_idx s) id = Some g ->
    gen_height g < 2 ^ 61 -> exists l, get_locator_from_block_id cf s id = Ok l /\ locates cf (t_idx s) id l.
  Proof.
    intros W M B G H. unfold get_locator_from_block_id. rewrite G. cbn [ok_or rbind].
    destruct (locator_heights_spec _ H) as (hs & -> & P). cbn [rbind].
    pose proof (wf_gen_id cf _ _ _ W G) as I.
    destruct (locator_steps_spec s gb id g hs W M B G g false) as (l & -> & Q).
    { by rewrite I. } { rewrite I. apply ancestor_refl. } { apply (desc_le (gen_height g - distance 0)); [lia|]. by apply desc_of. } { done. }
    exists l. split; [done|]. exists g. split; [done|]. intros i a. rewrite Q. split.
    - intros (h & Hh & A). apply P in Hh as [D ->]. done.
    - intros [D A]. exists (gen_height g - distance i). split; [by apply P|done].
  Qed.

  (** Headers *)
  Lemma headers_from_spec s gb n : wf cf (t_idx s) -> main_chain_listed cf s -> get_gen cf (t_idx s) (t_best s) = Some gb ->
    forall a ga, get_gen cf (t_idx s) a = Some ga -> ancestor cf (t_idx s) a (t_best s) -> gen_height ga + N.of_nat n <= gen_height gb ->
    exists l z, headers_from cf s n (gen_height ga + 1) = Ok l /\ length l = n /\ path a l z /\ ancestor cf (t_idx s) z (t_best s) /\ Forall (fun b => t_idx s !! bi_id b = Some b) l.
  Proof.
    intros W M B. induction n as [|n IH]; intros a ga Ga A L; cbn [headers_from].
    - exists [], a. done.
    - destruct (ancestor_at_ex (t_idx s) _ _ (gen_height ga + 1) W B ltac:(lia)) as (x & gx & Gx & Hx & Ax).
      unfold get_header_from_height. assert (t_main s !! (gen_height ga + 1) = Some x) as ->. { apply M. by exists gx. }
      cbn [ok_or rbind]. destruct (N.eqb_spec x (genesis_id cf)) as [->|N].
      { rewrite get_gen_genesis in Gx. injection Gx as <-. cbn in Hx. lia. }
      destruct gx as [|bx]; [apply get_gen_gen in Gx; done|]. pose proof Gx as Gx0. apply get_gen_block in Gx as [_ Gx]. rewrite Gx. cbn [rbind].
      cbn [gen_height] in Hx. destruct (IH x (Block bx) Gx0 Ax) as (l & z & E & Ln & P & Z & F); [cbn; lia|]. cbn [gen_height] in E. rewrite Hx in E. rewrite E. cbn [rbind].
      pose proof (W _ _ Gx) as (I & _ & _ & (p & Gp & Hp & _) & _).
      exists (bx :: l), z. split; [done|]. split; [cbn; lia|]. split; [|split; [done|constructor; [by rewrite I|done]]].
      cbn [path]. split; [|by rewrite I]. assert (ancestor cf (t_idx s) (bi_prev bx) (t_best s)) as Ap.
      { eapply ancestor_trans; [|exact Ax]. eapply ancestor_parent; [exact Gx0|reflexivity|apply ancestor_refl]. }
      apply (ancestor_same_height cf (t_idx s) _ _ _ p ga gb W B Ap A Gp Ga). lia.
  Qed.
  Lemma headers_higher_spec s gb a ga limit : wf cf (t_idx s) -> main_chain_listed cf s -> get_gen cf (t_idx s) (t_best s) = Some gb ->
    gen_height gb < 2 ^ 61 -> limit < 2 ^ 61 -> get_gen cf (t_idx s) a = Some ga -> ancestor cf (t_idx s) a (t_best s) ->
    exists l, headers_higher_than cf s (gen_height ga) limit = Ok l /\ next_blocks cf s a limit l.
  Proof.
    intros W M B HB HL Ga A. unfold headers_higher_than. assert (2 ^ 61 + 2 ^ 61 <= I64_TOP) as K1 by done. assert (2 ^ 61 + 2 <= U64_MAX) as K2 by done.
    rewrite (proj2 (N.leb_le limit I64_TOP)) by lia. unfold best_index. rewrite B. cbn [ok_or rmap_err rbind].
    destruct (ancestor_known cf _ _ _ _ W B A) as (ga' & Ga' & L). rewrite Ga in Ga'. injection Ga' as <-.
    unfold height_add. rewrite (proj2 (N.leb_le _ I64_TOP)) by lia. cbn [rbind]. rewrite (proj2 (N.leb_le _ U64_MAX)) by lia.
    destruct (headers_from_spec s gb (N.to_nat (N.min (gen_height ga + limit) (gen_height gb) - gen_height ga)) W M B a ga Ga A) as (l & z & E & Ln & P & Z & F); [lia|].
    exists l. split; [done|]. exists ga, gb. split_and!; try done; [lia|by exists z].
  Qed.

  (** The block a locator leads to *)
  Lemma anchor_spec s gb loc : wf cf (t_idx s) -> main_chain_listed cf s -> get_gen cf (t_idx s) (t_best s) = Some gb ->
    exists a ga, get_gen cf (t_idx s) a = Some ga /\ gen_height ga = locator_anchor cf s loc /\ ancestor cf (t_idx s) a (t_best s) /\
      ((exists i, loc !! i = Some a /\ forall j x, (j < i)%nat -> loc !! j = Some x -> ~ (is_Some (get_gen cf (t_idx s) x) /\ ancestor cf (t_idx s) x (t_best s))) \/
       (a = genesis_id cf /\ forall x, x ∈ loc -> ~ (is_Some (get_gen cf (t_idx s) x) /\ ancestor cf (t_idx s) x (t_best s)))).
  Proof.
    intros W M B. assert (forall x g, get_gen cf (t_idx s) x = Some g -> in_main_chain cf s x = true <-> ancestor cf (t_idx s) x (t_best s)) as K.
    { intros x g G. unfold in_main_chain, height_in_main_chain. destruct (N.eqb_spec x (genesis_id cf)) as [->|N].
      - split; [|done]. intros _. exists (N.to_nat (gen_height gb)). by apply up_genesis.
      - destruct g as [|b]; [apply get_gen_gen in G; done|]. pose proof G as G0. apply get_gen_block in G as [_ G]. rewrite G.
        destruct (decide (t_main s !! bi_height b = Some x)) as [E|E].
        + split; [|done]. intros _. apply (main_at s _ _ _ W M B) in E as (_ & _ & _ & _ & E). done.
        + split; [done|]. intros A. exfalso. apply E. apply M. exists (Block b). done. }
    induction loc as [|x loc IH]; cbn [locator_anchor].
    - exists (genesis_id cf), Genesis. rewrite get_gen_genesis. split; [done|]. split; [done|]. split.
      { exists (N.to_nat (gen_height gb)). by apply up_genesis. }
      right. split; [done|]. intros x X. by apply elem_of_nil in X.
    - assert (forall P : Prop, (is_Some (get_gen cf (t_idx s) x) /\ ancestor cf (t_idx s) x (t_best s) -> False) ->
        (exists a ga, get_gen cf (t_idx s) a = Some ga /\ gen_height ga = locator_anchor cf s loc /\ ancestor cf (t_idx s) a (t_best s) /\
          ((exists i, loc !! i = Some a /\ forall j x, (j < i)%nat -> loc !! j = Some x -> ~ (is_Some (get_gen cf (t_idx s) x) /\ ancestor cf (t_idx s) x (t_best s))) \/
           (a = genesis_id cf /\ forall x, x ∈ loc -> ~ (is_Some (get_gen cf (t_idx s) x) /\ ancestor cf (t_idx s) x (t_best s))))) ->
        exists a ga, get_gen cf (t_idx s) a = Some ga /\ gen_height ga = locator_anchor cf s loc /\ ancestor cf (t_idx s) a (t_best s) /\
          ((exists i, (x :: loc) !! i = Some a /\ forall j y, (j < i)%nat -> (x :: loc) !! j = Some y -> ~ (is_Some (get_gen cf (t_idx s) y) /\ ancestor cf (t_idx s) y (t_best s))) \/
           (a = genesis_id cf /\ forall y, y ∈ x :: loc -> ~ (is_Some (get_gen cf (t_idx s) y) /\ ancestor cf (t_idx s) y (t_best s))))) as Skip.
      { intros _ N (a & ga & Ga & Ha & Aa & C). exists a, ga. split; [done|]. split; [done|]. split; [done|]. destruct C as [(i & I & C)|(E & C)].
        - left. exists (S i). split; [done|]. intros [|j] y Lj Y; [injection Y as <-; exact N|]. apply (C j y); [lia|done].
        - right. split; [done|]. intros y [->|Y]%elem_of_cons; [exact N|by apply C]. }
      destruct (get_gen cf (t_idx s) x) as [g|] eqn:G.
      + destruct (in_main_chain cf s x) eqn:I.
        * exists x, g. split; [done|]. split; [done|]. split; [by apply (K x g G)|]. left. exists O. split; [done|]. intros j y L. lia.
        * apply (Skip True); [|done]. intros [_ A]. apply (K x g G) in A. congruence.
      + apply (Skip True); [|done]. intros [[? ?] _]. done.
  Qed.

  (** Two nodes *)
  Lemma consistent_up t t' n : wf cf t -> wf cf t' -> consistent t t' -> forall x, is_Some (get_gen cf t x) -> is_Some (get_gen cf t' x) -> up cf t n x = up cf t' n x.
  Proof.
    intros W W' C. induction n as [|n IH]; intros x X X'; [done|]. cbn [up]. unfold parent. destruct (N.eqb_spec x (genesis_id cf)) as [|N]; [done|].
    destruct X as [[|b] G]; [by apply get_gen_gen in G|]. destruct X' as [[|b'] G']; [by apply get_gen_gen in G'|].
    apply get_gen_block in G as [_ G]. apply get_gen_block in G' as [_ G']. rewrite G, G'. cbn. destruct (C _ _ _ G G') as [<- _]. apply IH.
    - pose proof (W _ _ G) as (_ & _ & _ & (p & Gp & _) & _). by exists p.
    - pose proof (W' _ _ G') as (_ & _ & _ & (p & Gp & _) & _). destruct (C _ _ _ G G') as [-> _]. by exists p.
  Qed.
  Lemma consistent_height t t' x g g' : consistent t t' -> get_gen cf t x = Some g -> get_gen cf t' x = Some g' -> gen_height g = gen_height g'.
  Proof.
    intros C G G'. destruct g as [|b].
    - apply get_gen_gen in G as ->. rewrite get_gen_genesis in G'. by injection G' as <-.
    - apply get_gen_block in G as [N G]. destruct g' as [|b']; [by apply get_gen_gen in G'|]. apply get_gen_block in G' as [_ G']. apply (C _ _ _ G G').
  Qed.
  Lemma power_between d : 0 < d -> exists k : nat, d <= 2 ^ N.of_nat k < 2 * d.
  Proof.
    intros D. destruct (N.eq_dec d 1) as [->|N]; [exists O; cbn; lia|]. exists (N.to_nat (N.log2_up d)). rewrite N2Nat.id.
    destruct (N.log2_up_spec d ltac:(lia)) as [A B]. split; [done|].
    assert (0 < N.log2_up d) by (apply N.log2_up_pos; lia). replace (N.log2_up d) with (N.succ (N.pred (N.log2_up d))) by lia. rewrite N.pow_succ_r'. lia.
  Qed.

  Lemma anchor_bound c s gb x gx loc a ga : wf cf (t_idx c) -> wf cf (t_idx s) -> main_chain_listed cf s -> consistent (t_idx c) (t_idx s) ->
    get_gen cf (t_idx s) (t_best s) = Some gb -> get_gen cf (t_idx c) x = Some gx -> locates cf (t_idx c) x loc ->
    get_gen cf (t_idx s) a = Some ga ->
    ((exists i, loc !! i = Some a /\ forall j x, (j < i)%nat -> loc !! j = Some x -> ~ (is_Some (get_gen cf (t_idx s) x) /\ ancestor cf (t_idx s) x (t_best s))) \/
       (a = genesis_id cf /\ forall x, x ∈ loc -> ~ (is_Some (get_gen cf (t_idx s) x) /\ ancestor cf (t_idx s) x (t_best s)))) ->
    ancestor cf (t_idx c) a x /\
    forall f gf, ancestor cf (t_idx c) f x -> get_gen cf (t_idx s) f = Some gf -> ancestor cf (t_idx s) f (t_best s) ->
      gen_height gx <= gen_height ga + 2 * (gen_height gx - gen_height gf).
  Proof.
    intros W W' M C B Gx (gx' & Gx' & L) Ga Case. rewrite Gx in Gx'. injection Gx' as <-.
    assert (ancestor cf (t_idx c) a x) as Aa.
    { destruct Case as [(i & I & _)|(-> & _)]; [apply L in I as (_ & g & _ & _ & A); done|]. exists (N.to_nat (gen_height gx)). by apply up_genesis. }
    split; [done|]. intros f gf Af Gf Mf. destruct (ancestor_known cf _ _ _ _ W Gx Af) as (gf' & Gf' & Lf).
    pose proof (consistent_height _ _ _ _ _ C Gf' Gf) as Ef. rewrite <- Ef. clear Ef.
    destruct (ancestor_known cf _ _ _ _ W Gx Aa) as (ga' & Ga' & La). pose proof (consistent_height _ _ _ _ _ C Ga' Ga) as Ea. rewrite <- Ea. clear Ea.
    (** the blocks of the locator at or below [f] are on the server's main chain *)
    assert (forall j y, loc !! j = Some y -> gen_height gx - distance j <= gen_height gf' -> is_Some (get_gen cf (t_idx s) y) /\ ancestor cf (t_idx s) y (t_best s)) as On.
    { intros j y Y D. apply L in Y as (_ & gy & Gy & Hy & Ay).
      pose proof (ancestor_linear cf (t_idx c) y f x gy gf' gx W Gx Ay Af Gy Gf' ltac:(lia)) as [n U].
      rewrite (consistent_up _ _ n W W' C f ltac:(by eexists) ltac:(by eexists)) in U.
      destruct (up_height cf _ _ _ _ _ W' Gf U) as (g' & G' & _). split; [by exists g'|]. eapply ancestor_trans; [by exists n|done]. }
    (** so the first one that is on it is not much lower *)
    assert (forall j y, loc !! j = Some y -> gen_height gx - distance j <= gen_height gf' -> gen_height gx <= gen_height ga' + distance j) as First.
    { intros j y Y D. pose proof (On j y Y D) as O. destruct Case as [(i & I & Min)|(_ & Min)].
      - destruct (decide (j < i)%nat) as [l|l]; [exfalso; by eapply Min|]. pose proof (distance_mono i j ltac:(lia)) as Dm.
        apply L in I as (Di & g' & G' & H' & _). rewrite Ga' in G'. injection G' as <-. lia.
      - exfalso. apply (Min y); [by eapply elem_of_list_lookup_2|done]. }
    destruct (N.eq_dec (gen_height gx) (gen_height gf')) as [E|N].
    - assert (loc !! O = Some x) as Y. { apply L. cbn [distance]. split; [lia|]. exists gx. split; [done|]. split; [lia|apply ancestor_refl]. }
      specialize (First O x Y). cbn [distance] in First. lia.
    - destruct (power_between (gen_height gx - gen_height gf') ltac:(lia)) as (k & K1 & K2).
      destruct (N.le_gt_cases (2 ^ N.of_nat k) (gen_height gx)) as [l|l]; [|lia].
      destruct (ancestor_at_ex (t_idx c) _ _ (gen_height gx - 2 ^ N.of_nat k) W Gx ltac:(lia)) as (y & Y).
      assert (loc !! (S k) = Some y) as Y'. { apply L. cbn [distance]. done. }
      specialize (First (S k) y Y'). cbn [distance] in First. lia.
  Qed.

  (** Fork points *)
  Lemma latest_fork_spec s gb ids : wf cf (t_idx s) -> get_gen cf (t_idx s) (t_best s) = Some gb -> Forall (fun id => is_Some (get_gen cf (t_idx s) id)) ids -> forall low,
    exists h, rfold (fun best id =>
      let? g := ok_or (get_gen cf (t_idx s) id) (TreeErr BlockIndexNotFound) in
      let? f := rmap_err TreeErr (lca_in_main_chain cf s g) in Ok (N.max best (gen_height f))) ids low = Ok h /\
      low <= h /\ (forall id f gf, id ∈ ids -> ancestor cf (t_idx s) f id -> ancestor cf (t_idx s) f (t_best s) -> get_gen cf (t_idx s) f = Some gf -> gen_height gf <= h) /\
      (h = low \/ exists id a ga, id ∈ ids /\ ancestor cf (t_idx s) a id /\ ancestor cf (t_idx s) a (t_best s) /\ get_gen cf (t_idx s) a = Some ga /\ gen_height ga = h).
  Proof.
    intros W B. induction ids as [|id ids IH]; intros F low; cbn [rfold].
    - exists low. split; [done|]. split; [lia|]. split; [intros id f gf I; by apply elem_of_nil in I|by left].
    - apply Forall_cons in F as [[g G] F]. rewrite G. cbn [ok_or rbind]. unfold lca_in_main_chain at 1, best_index at 1. rewrite B. cbn [ok_or rbind].
      destruct (lca_spec cf (t_idx s) id (t_best s) g gb W G B) as (f & -> & Gf & A1 & A2 & Best). cbn [rmap_err rbind].
      destruct (IH F (N.max low (gen_height f))) as (h & E & L & U & Ex). exists h. split; [exact E|]. split; [lia|]. split.
      + intros i x gx [->|I]%elem_of_cons Ax Bx Gx; [|by eapply U].
        destruct (ancestor_known cf _ _ _ _ W Gf (Best x Ax Bx)) as (gx' & Gx' & Lx). rewrite Gx in Gx'. injection Gx' as <-. lia.
      + destruct Ex as [->|(i & a & ga & I & R)].
        * destruct (N.le_gt_cases (gen_height f) low) as [l|l]; [left; lia|]. right. exists id, (gen_id cf f), f. split; [left|]. split_and!; try done. lia.
        * right. exists i, a, ga. split; [by right|done].
  Qed.

  (** Lists for checkpoints *)
  Lemma checkpoints_spec s gb top step fuel : wf cf (t_idx s) -> main_chain_listed cf s -> get_gen cf (t_idx s) (t_best s) = Some gb -> 0 < step ->
    top <= gen_height gb + 1 -> forall h, (N.to_nat (top - h) <= fuel)%nat ->
    exists l, checkpoints_from s fuel h top step = Ok l /\
      forall i x id, l !! i = Some (x, id) <-> x = h + N.of_nat i * step /\ x < top /\ ancestor_at cf (t_idx s) (t_best s) x id.
  Proof.
    intros W M B SP T. induction fuel as [|fuel IH]; intros h F; cbn [checkpoints_from].
    - exists []. split; [done|]. intros i x id. split; [done|]. intros (-> & L & _). lia.
    - destruct (N.ltb_spec h top) as [L|L].
      + destruct (ancestor_at_ex (t_idx s) _ _ h W B ltac:(lia)) as (a & A). assert (t_main s !! h = Some a) as ->. { apply (main_at s _ _ _ W M B). split; [lia|done]. }
        cbn [ok_or rbind]. destruct (IH (h + step) ltac:(lia)) as (l & -> & P). cbn [rbind]. eexists. split; [reflexivity|].
        intros [|i] x id; cbn.
        * split; [intros [= <- <-]; split; [lia|done]|]. intros (-> & _ & A'). rewrite N.add_0_r in *. by rewrite (ancestor_at_uniq _ _ _ _ _ _ W B A A').
        * rewrite P. replace (h + step + N.of_nat i * step) with (h + N.of_nat (S i) * step) by lia. done.
      + exists []. split; [done|]. intros i x id. split; [done|]. intros (-> & L' & _). lia.
  Qed.
End SyncProofs.
