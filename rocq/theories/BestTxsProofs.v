From Verif Require Import Base BestTxsModel BestTxsSpec.

Section Proofs.
  Context (pool : gmap N txe) (sel : gset N).
  Notation parent := (parent pool).

  Inductive nearest : N -> N -> Prop :=
  | nearest_parent t p : parent p t -> p ∈ sel -> nearest t p
  | nearest_through t p a : parent p t -> p ∉ sel -> nearest p a -> nearest t a.

  Context (closed : forall p t, parent p t -> is_Some (pool !! p)) (h : N -> nat) (acyclic : forall p t, parent p t -> h p < h t).

  Lemma nearest_height t a : nearest t a -> h a < h t.
  Proof. induction 1 as [t p P _|t p a P _ _ IH]; apply acyclic in P; lia. Qed.
  Lemma nearest_sel t a : nearest t a -> a ∈ sel.
  Proof. induction 1; done. Qed.
  Lemma nearest_ancestor t a : nearest t a -> tc parent a t.
  Proof. induction 1 as [t p P _|t p a P _ _ IH]; [by apply tc_once|]. eapply tc_r; [exact IH|done]. Qed.

  (** ** The ancestors *)
  Definition good_map (m : gmap N (gset N)) : Prop := forall id s, m !! id = Some s -> forall a, a ∈ s <-> nearest id a.

  (** What the parents in a list contribute *)
  Definition through (ps : list N) (a : N) : Prop := exists p, p ∈ ps /\ ((p ∈ sel /\ a = p) \/ (p ∉ sel /\ nearest p a)).
  Lemma collect_ok fuel : forall (P : gset N) m t, good_map m -> P ⊆ dom pool -> (forall x, x ∈ P -> h t < h x) -> size pool < fuel + size P ->
    is_Some (pool !! t) -> exists m', collect_nearest_selected_ancestors pool fuel sel m t = Ok m' /\ good_map m' /\ is_Some (m' !! t).
  Proof.
    induction fuel as [|fuel IH]; intros P m t G SP HP F [e E].
    { exfalso. assert (size P <= size (dom pool)) by (by apply subseteq_size). rewrite size_dom in *. lia. }
    cbn [collect_nearest_selected_ancestors]. destruct (m !! t) as [s|] eqn:M; [eauto|]. rewrite E. cbn [ok_or rbind].
    assert (t ∉ P) as NP by (intros B; apply HP in B; lia).
    assert (forall ps am, (forall p, p ∈ ps -> parent p t) -> good_map am.2 ->
      exists am', rfold (fun (am : gset N * gmap N (gset N)) p =>
                   if decide (p ∈ sel) then Ok ({[p]} ∪ am.1, am.2)
                   else match am.2 !! p with
                        | Some existing => Ok (existing ∪ am.1, am.2)
                        | None => let? m := collect_nearest_selected_ancestors pool fuel sel am.2 p in
                                  let? s := expect (m !! p) in
                                  Ok (s ∪ am.1, m)
                        end) ps am = Ok am' /\ good_map am'.2 /\ forall a, a ∈ am'.1 <-> a ∈ am.1 \/ through ps a) as H.
    { induction ps as [|p ps IHps]; intros am Ps Gm; cbn [rfold].
      - exists am. split_and!; try done. intros a. split; [tauto|]. intros [?|(p & B & _)]; [done|]. by apply elem_of_nil in B.
      - assert (parent p t) as PT by (apply Ps; left).
        assert (forall a, through (p :: ps) a <-> ((p ∈ sel /\ a = p) \/ (p ∉ sel /\ nearest p a)) \/ through ps a) as TH.
        { intros a. unfold through. setoid_rewrite elem_of_cons. naive_solver. }
        assert (forall am1, good_map am1.2 -> (forall a, a ∈ am1.1 <-> a ∈ am.1 \/ (p ∈ sel /\ a = p) \/ (p ∉ sel /\ nearest p a)) ->
          exists am', rfold (fun (am : gset N * gmap N (gset N)) p =>
                   if decide (p ∈ sel) then Ok ({[p]} ∪ am.1, am.2)
                   else match am.2 !! p with
                        | Some existing => Ok (existing ∪ am.1, am.2)
                        | None => let? m := collect_nearest_selected_ancestors pool fuel sel am.2 p in
                                  let? s := expect (m !! p) in
                                  Ok (s ∪ am.1, m)
                        end) ps am1 = Ok am' /\ good_map am'.2 /\ forall a, a ∈ am'.1 <-> a ∈ am.1 \/ through (p :: ps) a) as K.
        { intros am1 G1 H1. destruct (IHps am1) as (am' & E' & G' & H'); [intros q Q; apply Ps; by right|done|]. exists am'. split_and!; try done.
          intros a. rewrite H', H1, TH. tauto. }
        destruct (decide (p ∈ sel)) as [S|S].
        + apply K; cbn [fst snd]; [done|]. intros a. rewrite elem_of_union, elem_of_singleton. tauto.
        + destruct (am.2 !! p) as [s|] eqn:L.
          * apply K; cbn [fst snd]; [done|]. intros a. rewrite elem_of_union, (Gm _ _ L a). tauto.
          * destruct (IH ({[t]} ∪ P) am.2 p) as (m' & -> & G' & [s Hs]); [done| | | |by eapply closed|].
            -- apply union_subseteq. split; [|done]. apply singleton_subseteq_l, elem_of_dom. eauto.
            -- intros x X. apply elem_of_union in X as [->%elem_of_singleton|X]; [by apply acyclic|]. apply HP in X. apply acyclic in PT. lia.
            -- rewrite size_union by (clear - NP; set_solver). rewrite size_singleton. lia.
            -- cbn [rbind]. rewrite Hs. cbn [expect rbind]. apply K; cbn [fst snd]; [done|]. intros a. rewrite elem_of_union, (G' _ _ Hs a). tauto. }
    destruct (H (b_parents e) (∅, m)) as ([acc m'] & -> & G' & A); [intros p B; exists e; done|done|]. cbn [rbind fst snd] in *.
    eexists. split; [reflexivity|]. split; [|rewrite lookup_insert; eauto].
    intros id s L a. apply lookup_insert_Some in L as [[<- <-]|[_ L]]; [|by apply (G' _ _ L)]. rewrite A.
    split.
    - intros [B|(p & B & [[S ->]|[S N]])]; [by apply elem_of_empty in B| |].
      + apply nearest_parent; [|done]. exists e. done.
      + eapply nearest_through; [|done..]. exists e. done.
    - intros N. right. destruct N as [t p (e' & E' & B) S|t p a (e' & E' & B) S N']; rewrite E in E'; injection E' as <-; exists p; auto.
  Qed.

  (** ** The preparation *)
  Record prepared (done : gset N) (st : best_state) : Prop := {
    p_map : good_map (s_ancestors st);
    p_ready : forall t, t ∈ s_ready st <-> t ∈ done /\ forall a, ~ nearest t a;
    p_missing : forall t n, s_missing st !! t = Some n <-> t ∈ done /\ n <> 0 /\ exists s : gset N, (forall a, a ∈ s <-> nearest t a) /\ n = size s;
    p_desc : forall a t, t ∈ default ∅ (s_descendants st !! a) <-> t ∈ done /\ nearest t a
  }.
  Lemma desc_fold (id : N) (l : list N) : forall (d : gmap N (gset N)) (a t : N),
    t ∈ default ∅ (fold_left (fun d a => <[a := {[id]} ∪ default ∅ (d !! a)]> d) l d !! a) <-> t ∈ default ∅ (d !! a) \/ (t = id /\ a ∈ l).
  Proof.
    induction l as [|x l IH]; intros d a t; cbn [fold_left].
    - rewrite elem_of_nil. tauto.
    - rewrite IH, elem_of_cons. destruct (decide (a = x)) as [->|N].
      + rewrite lookup_insert. change (default ∅ (Some ({[id]} ∪ default ∅ (d !! x)))) with ({[id]} ∪ default ∅ (d !! x)). rewrite elem_of_union, elem_of_singleton. tauto.
      + rewrite lookup_insert_ne by done. tauto.
  Qed.
  Lemma set_size_eq (s1 s2 : gset N) : (forall a, a ∈ s1 <-> a ∈ s2) -> s1 = s2.
  Proof. intros E. apply leibniz_equiv. exact E. Qed.
  Lemma prepare_ok dn st id : prepared dn st -> is_Some (pool !! id) -> id ∉ dn -> exists st', prepare pool sel st id = Ok st' /\ prepared ({[id]} ∪ dn) st'.
  Proof.
    intros I [e E] ND. unfold prepare. rewrite E. cbn [ok_or rbind].
    destruct (collect_ok (S (size pool)) ∅ (s_ancestors st) id) as (m & -> & G & [s S]); [apply I|set_solver|set_solver|rewrite size_empty; lia|eauto|].
    cbn [rbind]. rewrite S. cbn [expect rbind].
    assert (s_missing st !! id = None) as MN. { destruct (s_missing st !! id) eqn:M; [|done]. apply (p_missing _ _ I) in M as (B & _). done. }
    destruct (decide (s = ∅)) as [Z|Z].
    - eexists. split; [reflexivity|]. constructor; cbn [s_ancestors s_ready s_missing s_descendants]; try done.
      + intros t. rewrite !elem_of_union, elem_of_singleton, (p_ready _ _ I). split.
        * intros [->|[B C]]; [|tauto]. split; [tauto|]. intros a A. apply (G _ _ S) in A. rewrite Z in A. by apply elem_of_empty in A.
        * intros [[->|B] C]; tauto.
      + intros t n. rewrite (p_missing _ _ I), elem_of_union, elem_of_singleton. split; [tauto|]. intros ([->|B] & C & s' & A & ->); [|eauto].
        exfalso. apply C. assert (s' = s) as ->; [|rewrite Z; apply size_empty]. apply set_eq. intros a. rewrite A, (G _ _ S). done.
      + intros a t. rewrite (p_desc _ _ I), elem_of_union, elem_of_singleton. split; [tauto|]. intros [[->|B] C]; [|tauto].
        apply (G _ _ S) in C. rewrite Z in C. by apply elem_of_empty in C.
    - eexists. split; [reflexivity|]. constructor; cbn [s_ancestors s_ready s_missing s_descendants]; try done.
      + intros t. rewrite elem_of_union, elem_of_singleton, (p_ready _ _ I). split; [tauto|]. intros [[->|B] C]; [|tauto].
        exfalso. apply set_choose_L in Z as [a A]. apply (C a). by apply (G _ _ S).
      + intros t n. rewrite lookup_insert_Some, (p_missing _ _ I), elem_of_union, elem_of_singleton. split.
        * intros [[<- <-]|[B C]]; [|tauto]. split_and!; [tauto|intros Q; apply Z, leibniz_equiv, size_empty_inv, Q|]. exists s. split; [|done]. intros a. apply (G _ _ S).
        * intros ([->|B] & C & s' & A & ->).
          -- left. split; [done|]. f_equal. apply set_eq. intros a. rewrite A, (G _ _ S). done.
          -- right. split; [congruence|]. split_and!; eauto.
      + intros a t. rewrite desc_fold, (p_desc _ _ I), elem_of_union, elem_of_singleton, elem_of_elements, (G _ _ S). naive_solver.
  Qed.

  Lemma prepare_all ids : forall dn st, prepared dn st -> NoDup ids -> (forall t, t ∈ ids -> is_Some (pool !! t) /\ t ∉ dn) ->
    exists st', rfold (prepare pool sel) ids st = Ok st' /\ prepared (list_to_set ids ∪ dn) st'.
  Proof.
    induction ids as [|id ids IH]; intros dn st I ND H; cbn [rfold].
    - exists st. split; [done|]. cbn. replace (∅ ∪ dn) with dn by (apply leibniz_equiv; clear; set_solver). done.
    - apply NoDup_cons in ND as [NI ND]. destruct (H id) as [S N]; [left|]. destruct (prepare_ok dn st id I S N) as (st1 & -> & I1).
      destruct (IH ({[id]} ∪ dn) st1 I1 ND) as (st' & E & I').
      { intros t T. destruct (H t) as [S' N']; [by right|]. split; [done|]. intros [->%elem_of_singleton|B]%elem_of_union; done. }
      exists st'. split; [done|]. replace (list_to_set (id :: ids) ∪ dn) with (list_to_set ids ∪ ({[id]} ∪ dn)) by (apply leibniz_equiv; clear; set_solver). done.
  Qed.

  (** ** The heap *)
  Lemma not_better_refl a : not_better pool a a = true.
  Proof. unfold not_better. lia. Qed.
  Lemma not_better_trans a b c : not_better pool a b = true -> not_better pool b c = true -> not_better pool a c = true.
  Proof. unfold not_better. lia. Qed.
  Lemma not_better_total a b : not_better pool a b = false -> not_better pool b a = true.
  Proof. unfold not_better. lia. Qed.
  Lemma best_of_spec l : match best_of pool l with None => l = [] | Some x => x ∈ l /\ forall y, y ∈ l -> not_better pool y x = true end.
  Proof.
    induction l as [|x l IH]; [done|]. cbn [best_of]. destruct (best_of pool l) as [y|].
    - destruct IH as [I M]. destruct (not_better pool x y) eqn:B.
      + split; [by right|]. intros z [->|Z]%elem_of_cons; [done|by apply M].
      + split; [left|]. intros z [->|Z]%elem_of_cons; [apply not_better_refl|]. eapply not_better_trans; [by apply M|]. by apply not_better_total.
    - subst l. split; [left|]. intros z Z%elem_of_list_singleton. subst z. apply not_better_refl.
  Qed.

  (** ** The children *)
  Lemma release_all cs : forall mr, NoDup cs -> (forall c, c ∈ cs -> is_Some (pool !! c) /\ exists n, mr.1 !! c = Some (S n)) ->
    exists mr', rfold (release pool) cs mr = Ok mr' /\
      (forall c n, mr'.1 !! c = Some n <-> (c ∉ cs /\ mr.1 !! c = Some n) \/ (c ∈ cs /\ mr.1 !! c = Some (S n) /\ n <> 0)) /\
      (forall c, c ∈ mr'.2 <-> c ∈ mr.2 \/ (c ∈ cs /\ mr.1 !! c = Some 1)).
  Proof.
    induction cs as [|x cs IH]; intros mr ND H; cbn [rfold].
    - exists mr. split; [done|]. split; intros; rewrite elem_of_nil; tauto.
    - apply NoDup_cons in ND as [NI ND]. destruct (H x) as [[e E] [n X]]; [left|]. unfold release at 1. rewrite X.
      assert (forall c, c ∈ cs -> c <> x) as NE by (intros c C ->; done).
      destruct n as [|n].
      + rewrite E. cbn [ok_or rbind]. destruct (IH (delete x mr.1, {[x]} ∪ mr.2) ND) as (mr' & -> & H1 & H2).
        { intros c C. destruct (H c) as [S [k K]]; [by right|]. split; [done|]. exists k. cbn. rewrite lookup_delete_ne by (intros ->; by apply (NE c)). done. }
        exists mr'. split; [done|]. cbn [fst snd] in *. split.
        * intros c k. rewrite H1, !lookup_delete_Some, elem_of_cons. destruct (decide (c = x)) as [->|N]; [|naive_solver].
          split; [naive_solver|]. intros [(B & _)|(_ & B & C)]; [tauto|]. rewrite X in B. injection B as <-. done.
        * intros c. rewrite H2, elem_of_union, elem_of_singleton, elem_of_cons, lookup_delete_Some. destruct (decide (c = x)) as [->|N]; naive_solver.
      + destruct (IH (<[x := S n]> mr.1, mr.2) ND) as (mr' & -> & H1 & H2).
        { intros c C. destruct (H c) as [S [k K]]; [by right|]. split; [done|]. exists k. cbn. rewrite lookup_insert_ne by (intros ->; by apply (NE c)). done. }
        exists mr'. split; [done|]. cbn [fst snd] in *. split.
        * intros c k. rewrite H1, !lookup_insert_Some, elem_of_cons. destruct (decide (c = x)) as [->|N]; [|naive_solver]. rewrite X. naive_solver.
        * intros c. rewrite H2, elem_of_cons, lookup_insert_Some. destruct (decide (c = x)) as [->|N]; [|naive_solver]. rewrite X. naive_solver.
  Qed.

  (** ** The loop *)
  Context (sel_in : forall t, t ∈ sel -> is_Some (pool !! t)).
  Section Loop.
    Context (desc : gmap N (gset N)) (desc_ok : forall a t, t ∈ default ∅ (desc !! a) <-> t ∈ sel /\ nearest t a).
    Definition near (t : N) : gset N := filter (fun a => t ∈ default ∅ (desc !! a)) sel.
    Lemma near_spec t a : t ∈ sel -> a ∈ near t <-> nearest t a.
    Proof. intros T. unfold near. rewrite elem_of_filter, desc_ok. split; [tauto|]. intros N. split; [tauto|]. by eapply nearest_sel. Qed.
    Record emitting (missing : gmap N nat) (ready : gset N) (R : list N) : Prop := {
      e_ready : forall t, t ∈ ready <-> t ∈ sel /\ t ∉ R /\ forall a, nearest t a -> a ∈ R;
      e_missing : forall t n, missing !! t = Some n <-> t ∈ sel /\ t ∉ R /\ n <> 0 /\ n = size (near t ∖ list_to_set R);
      e_nodup : NoDup R;
      e_sub : forall t, t ∈ R -> t ∈ sel;
      e_closed : forall t a, t ∈ R -> nearest t a -> a ∈ R
    }.
    Lemma near_zero t R : t ∈ sel -> size (near t ∖ list_to_set R) = 0 <-> forall a, nearest t a -> a ∈ R.
    Proof.
      intros T. split.
      - intros Z a N. apply size_empty_inv in Z. apply (near_spec t a T) in N. destruct (decide (a ∈ R)) as [|B]; [done|]. exfalso.
        assert (a ∈ near t ∖ list_to_set R) as Q by (apply elem_of_difference; split; [done|]; rewrite elem_of_list_to_set; done).
        apply Z in Q. by apply elem_of_empty in Q.
      - intros H. apply size_empty_iff. intros a. split; [|intros B; by apply elem_of_empty in B]. intros [N B]%elem_of_difference. exfalso. apply B, elem_of_list_to_set, H. by apply near_spec.
    Qed.
    Lemma emit_step missing ready R t : emitting missing ready R -> t ∈ ready ->
      exists mr, rfold (release pool) (elements (default ∅ (desc !! t))) (missing, ready ∖ {[t]}) = Ok mr /\ emitting mr.1 mr.2 (R ++ [t]).
    Proof.
      intros I T. apply (e_ready _ _ _ I) in T as (TS & TR & TN).
      assert (forall c, c ∈ elements (default ∅ (desc !! t)) <-> c ∈ sel /\ nearest c t) as CH by (intros c; rewrite elem_of_elements; apply desc_ok).
      assert (forall c, c ∈ sel -> nearest c t -> c ∉ R /\ exists n, size (near c ∖ list_to_set R) = S n /\ size (near c ∖ list_to_set (R ++ [t])) = n) as ST.
      { intros c C N. assert (c ∉ R) as CR by (intros B; by apply TR, (e_closed _ _ _ I c)). split; [done|].
        assert (near c ∖ list_to_set R = {[t]} ∪ near c ∖ list_to_set (R ++ [t])) as EQ.
        { apply set_eq. intros a. rewrite elem_of_union, elem_of_singleton, !elem_of_difference, !elem_of_list_to_set, elem_of_app, elem_of_list_singleton.
          split; [intros [B D]; destruct (decide (a = t)); tauto|]. intros [->|B]; [split; [by apply near_spec|done]|tauto]. }
        eexists. split; [|reflexivity]. rewrite EQ, size_union, size_singleton; [done|]. intros a A%elem_of_singleton B. subst a.
        apply elem_of_difference in B as [_ B]. apply B, elem_of_list_to_set, elem_of_app. right. by apply elem_of_list_singleton. }
      assert (forall c, c ∈ sel -> ~ nearest c t -> near c ∖ list_to_set (R ++ [t]) = near c ∖ list_to_set R) as SN.
      { intros c C N. apply set_eq. intros a. rewrite !elem_of_difference, !elem_of_list_to_set, elem_of_app, elem_of_list_singleton.
        split; [tauto|]. intros [A B]. split; [done|]. intros [?| ->]; [done|]. by apply N, near_spec. }
      destruct (release_all (elements (default ∅ (desc !! t))) (missing, ready ∖ {[t]})) as (mr & E & H1 & H2); [apply NoDup_elements| |].
      { intros c C. apply CH in C as [C N]. split; [by apply sel_in|]. destruct (ST c C N) as (CR & n & S1 & _). exists n. apply (e_missing _ _ _ I). rewrite S1. done. }
      exists mr. split; [done|]. cbn [fst snd] in *.
      assert (forall c, (nearest c t \/ ~ nearest c t) \/ c ∉ sel) as DEC.
      { intros c. destruct (decide (c ∈ sel)) as [C|C]; [left|by right]. destruct (decide (c ∈ elements (default ∅ (desc !! t)))) as [B|B]; [left; by apply CH|right]. intros N. apply B, CH. done. }
      constructor.
      - intros c. rewrite H2, elem_of_difference, elem_of_singleton, (e_ready _ _ _ I), CH, (e_missing _ _ _ I), elem_of_app, elem_of_list_singleton. setoid_rewrite elem_of_app. setoid_rewrite elem_of_list_singleton.
        split.
        + intros [((C & CR & CN) & NE)|((C & N) & (_ & CR & _ & S1))].
          * split_and!; [done|tauto|]. intros a A. left. by apply CN.
          * split_and!; [done| |].
            -- intros [?| ->]; [done|]. apply nearest_height in N. lia.
            -- destruct (ST c C N) as (_ & n & S2 & S3). rewrite S2 in S1. assert (n = 0) as -> by lia. intros a A.
               rewrite (near_zero c (R ++ [t]) C) in S3. apply S3 in A. rewrite elem_of_app, elem_of_list_singleton in A. done.
        + intros (C & CR & CN). destruct (DEC c) as [[N|N]|?]; [| |done].
          * right. destruct (ST c C N) as (CR' & n & S2 & S3). split_and!; try done. assert (n = 0) as ->; [|done].
            rewrite <- S3. apply near_zero; [done|]. intros a A. rewrite elem_of_app, elem_of_list_singleton. by apply CN.
          * left. split_and!; [done|tauto| |tauto]. intros a A. destruct (CN a A) as [?| ->]; [done|]. done.
      - intros c n. rewrite H1, CH, !(e_missing _ _ _ I), not_elem_of_app, not_elem_of_cons. split.
        + intros [(N & C & CR & Z & S1)|((C & N) & (_ & CR & _ & S1) & Z)].
          * split_and!; try done; [intros ->|apply not_elem_of_nil|].
            -- apply Z. rewrite S1. apply near_zero; done.
            -- rewrite SN; [done|done|tauto].
          * destruct (ST c C N) as (_ & k & S2 & S3). split_and!; try done; [|apply not_elem_of_nil|lia]. intros ->. apply nearest_height in N. lia.
        + intros (C & (CR & NE & _) & Z & S1). destruct (DEC c) as [[N|N]|?]; [| |done].
          * right. destruct (ST c C N) as (_ & k & S2 & S3). split_and!; try done; lia.
          * left. rewrite SN in S1 by done. split_and!; try done. tauto.
      - apply NoDup_app. split_and!; [apply I|intros x X ->%elem_of_list_singleton; done|apply NoDup_singleton].
      - intros x [X|X]%elem_of_app; [by apply (e_sub _ _ _ I)|]. apply elem_of_list_singleton in X as ->. done.
      - intros x a [X|X]%elem_of_app A; apply elem_of_app; left; [by eapply (e_closed _ _ _ I)|]. apply elem_of_list_singleton in X as ->. by apply TN.
    Qed.
    Lemma emitted_all missing R : emitting missing ∅ R -> forall t, t ∈ sel -> t ∈ R.
    Proof.
      intros I. enough (forall n t, h t < n -> t ∈ sel -> t ∈ R) as H by (intros t; apply (H (S (h t))); lia).
      induction n as [|n IH]; intros t L T; [lia|]. destruct (decide (t ∈ R)) as [|NR]; [done|]. exfalso.
      assert (t ∈ (∅ : gset N)) as B; [|by apply elem_of_empty in B]. apply (e_ready _ _ _ I). split_and!; try done.
      intros a A. apply IH; [|by eapply nearest_sel]. apply nearest_height in A. lia.
    Qed.
    Lemma length_all missing R : emitting missing ∅ R -> length R = size sel.
    Proof.
      intros I. rewrite <- (size_list_to_set (C := gset N) R (e_nodup _ _ _ I)). f_equal. apply set_eq. intros t. rewrite elem_of_list_to_set.
      split; [apply I|by eapply emitted_all].
    Qed.
    Lemma length_le missing ready R : emitting missing ready R -> length R <= size sel.
    Proof.
      intros I. rewrite <- (size_list_to_set (C := gset N) R (e_nodup _ _ _ I)). apply subseteq_size. intros t. rewrite elem_of_list_to_set. apply I.
    Qed.
    Definition in_good_order (R0 R : list N) : Prop := forall R1 t R2, R = R1 ++ t :: R2 ->
      (forall a, nearest t a -> a ∈ R0 ++ R1) /\ (forall u, u ∈ sel -> u ∉ R0 ++ R1 -> (forall a, nearest u a -> a ∈ R0 ++ R1) -> not_better pool u t = true).
    Lemma emit_ok k : forall missing ready R, emitting missing ready R ->
      exists R', emit pool k desc missing ready R = Ok (R ++ R') /\ NoDup (R ++ R') /\ (forall t, t ∈ R ++ R' -> t ∈ sel) /\
        length (R ++ R') = Nat.min (length R + k) (size sel) /\ in_good_order R R'.
    Proof.
      induction k as [|k IH]; intros missing ready R I; cbn [emit].
      - exists []. rewrite app_nil_r. pose proof (length_le _ _ _ I). split_and!; [done|apply I|apply I|lia|]. intros R1 t R2 E. by destruct R1.
      - pose proof (best_of_spec (elements ready)) as B. destruct (best_of pool (elements ready)) as [t|].
        + destruct B as [B M]. rewrite elem_of_elements in B. destruct (emit_step _ _ _ _ I B) as ([missing' ready'] & -> & I'). cbn [rbind fst snd] in *.
          destruct (IH _ _ _ I') as (R' & -> & ND & SU & LE & OR). exists (t :: R'). rewrite <- app_assoc in *. cbn [app] in *. split_and!; try done.
          { rewrite LE, app_length. cbn. f_equal. lia. }
          intros R1 u R2 E. destruct R1 as [|x R1]; injection E as -> E.
          * rewrite app_nil_r. split; [apply (e_ready _ _ _ I) in B as (_ & _ & B); exact B|]. intros v V1 V2 V3. apply M, elem_of_elements, (e_ready _ _ _ I). done.
          * specialize (OR R1 u R2 E). rewrite <- app_assoc in OR. exact OR.
        + apply elements_empty_inv, leibniz_equiv in B. subst ready. exists []. rewrite app_nil_r. pose proof (length_all _ _ I).
          split_and!; [done|apply I|apply I|lia|]. intros R1 t R2 E. by destruct R1.
    Qed.
  End Loop.

  Lemma best_ok count : 0 < count -> exists R, get_best_tx_ids_by_score_and_ancestry pool sel count = Ok R /\ NoDup R /\ (forall t, t ∈ R -> t ∈ sel) /\
    length R = Nat.min count (size sel) /\ in_good_order [] R.
  Proof.
    intros C. unfold get_best_tx_ids_by_score_and_ancestry. rewrite decide_False by lia.
    destruct (prepare_all (elements sel) ∅ {| s_ancestors := ∅; s_descendants := ∅; s_missing := ∅; s_ready := ∅ |}) as (st & -> & I).
    { constructor; cbn [s_ancestors s_ready s_missing s_descendants].
      - intros id s L. rewrite lookup_empty in L. discriminate.
      - intros t. split; [intros B; by apply elem_of_empty in B|intros [B _]; by apply elem_of_empty in B].
      - intros t n. rewrite lookup_empty. split; [discriminate|]. intros [B _]. by apply elem_of_empty in B.
      - intros a t. rewrite lookup_empty. change (default ∅ (None : option (gset N))) with (∅ : gset N). split; [intros B; by apply elem_of_empty in B|intros [B _]; by apply elem_of_empty in B]. }
    { apply NoDup_elements. }
    { intros t T. apply elem_of_elements in T. split; [by apply sel_in|apply not_elem_of_empty]. }
    cbn [rbind]. rewrite list_to_set_elements_L in I. replace (sel ∪ ∅) with sel in I by (apply leibniz_equiv; clear; set_solver).
    destruct (emit_ok (s_descendants st) (p_desc _ _ I) count (s_missing st) (s_ready st) []) as (R & E & H); [|exists R; exact (conj E H)].
    constructor.
    - intros t. rewrite (p_ready _ _ I). split.
      + intros [T N]. split_and!; [done|apply not_elem_of_nil|]. intros a A. by apply N in A.
      + intros (T & _ & N). split; [done|]. intros a A. apply N in A. by apply elem_of_nil in A.
    - intros t n. rewrite (p_missing _ _ I). cbn [list_to_set]. rewrite difference_empty_L. split.
      + intros (T & Z & s & S & ->). split_and!; try done; [apply not_elem_of_nil|]. f_equal. apply set_eq. intros a. rewrite S, (near_spec _ (p_desc _ _ I)) by done. done.
      + intros (T & _ & Z & ->). split_and!; try done. eexists. split; [|reflexivity]. intros a. apply near_spec; [apply I|done].
    - constructor.
    - intros t B. by apply elem_of_nil in B.
    - intros t a B. by apply elem_of_nil in B.
  Qed.

  Lemma ancestor_nearest a t : tc parent a t -> a ∈ sel -> exists b, nearest t b /\ (b = a \/ tc parent a b).
  Proof.
    intros H A. assert (forall n a t, h t < n -> tc parent a t -> a ∈ sel -> exists b, nearest t b /\ (b = a \/ tc parent a b)) as K; [|by apply (K (S (h t)) a t); [lia|..]].
    clear a t H A. induction n as [|n IH]; intros a t L H A; [lia|].
    assert (exists p, parent p t /\ (p = a \/ tc parent a p)) as (p & P & Q).
    { clear - H. induction H as [x y H|x y z H1 H2 (p & P & Q)]; [eauto|]. exists p. split; [done|]. right. destruct Q as [->|Q]; [by apply tc_once|]. by eapply tc_l. }
    destruct (decide (p ∈ sel)) as [S|S]; [exists p; split; [by apply nearest_parent|done]|].
    destruct Q as [->|Q]; [done|]. destruct (IH a p) as (b & B & C); [apply acyclic in P; lia|done..|]. exists b. split; [by eapply nearest_through|done].
  Qed.
  Lemma ordered_ancestors R R1 t R2 a : in_good_order [] R -> R = R1 ++ t :: R2 -> tc parent a t -> a ∈ sel -> a ∈ R1.
  Proof.
    intros O E H A. subst R. assert (forall x b, x ∈ R1 -> nearest x b -> b ∈ R1) as CL.
    { intros x b X B. apply elem_of_list_split in X as (l1 & l2 & ->). destruct (O l1 x (l2 ++ t :: R2)) as [O1 _]; [by rewrite <- app_assoc|].
      apply O1 in B. apply elem_of_app. by left. }
    destruct (ancestor_nearest a t H A) as (b & B & C). apply (proj1 (O R1 t R2 eq_refl)) in B. cbn [app] in B.
    assert (forall n b, h b < n -> b ∈ R1 -> b = a \/ tc parent a b -> a ∈ R1) as K; [|by apply (K (S (h b)) b); [lia|..]].
    clear b B C. induction n as [|n IH]; intros b L B C; [lia|]. destruct C as [->|C]; [done|].
    destruct (ancestor_nearest a b C A) as (c & D & F). apply (IH c); [apply nearest_height in D; lia|by eapply CL|done].
  Qed.
  Lemma prepare_missing ids : forall dn st, prepared dn st -> NoDup ids -> (forall t, t ∈ ids -> t ∉ dn) -> (exists t, t ∈ ids /\ pool !! t = None) ->
    exists t, t ∈ ids /\ pool !! t = None /\ rfold (prepare pool sel) ids st = Err (TxEntryNotFound t).
  Proof.
    induction ids as [|id ids IH]; intros dn st I ND H (t & T & N); [by apply elem_of_nil in T|]. cbn [rfold].
    apply NoDup_cons in ND as [NI ND]. destruct (pool !! id) as [e|] eqn:E.
    - destruct (prepare_ok dn st id I) as (st1 & -> & I1); [eauto|apply H; left|].
      destruct (IH ({[id]} ∪ dn) st1 I1 ND) as (u & U & UN & EQ).
      + intros x X [->%elem_of_singleton|B]%elem_of_union; [done|]. revert B. apply H. by right.
      + apply elem_of_cons in T as [->|T]; [congruence|]. eauto.
      + exists u. split_and!; [by right|done|exact EQ].
    - exists id. split_and!; [left|done|]. unfold prepare. rewrite E. done.
  Qed.
  Lemma nothing_prepared : prepared ∅ {| s_ancestors := ∅; s_descendants := ∅; s_missing := ∅; s_ready := ∅ |}.
  Proof.
    constructor; cbn [s_ancestors s_ready s_missing s_descendants].
    - intros id s L. rewrite lookup_empty in L. discriminate.
    - intros t. split; [intros B; by apply elem_of_empty in B|intros [B _]; by apply elem_of_empty in B].
    - intros t n. rewrite lookup_empty. split; [discriminate|]. intros [B _]. by apply elem_of_empty in B.
    - intros a t. rewrite lookup_empty. change (default ∅ (None : option (gset N))) with (∅ : gset N). split; [intros B; by apply elem_of_empty in B|intros [B _]; by apply elem_of_empty in B].
  Qed.
End Proofs.
