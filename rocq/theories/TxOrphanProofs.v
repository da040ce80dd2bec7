From Verif Require Import Base TxOrphanModel TxOrphanSpec.
Local Open Scope N_scope.

(** * Lists *)
Lemma swap_remove_last {A} (l : list A) i x : l !! i = Some x -> S i = length l -> swap_remove i l = removelast l ∧ l = removelast l ++ [x].
Proof.
  intros E L. unfold swap_remove. rewrite last_lookup, <- L. cbn [pred]. rewrite E, decide_True by done. split; [done|].
  rewrite removelast_firstn_len, <- L. cbn [pred]. rewrite <- (take_drop i l) at 1. f_equal. erewrite drop_S by done. f_equal. apply drop_ge. lia.
Qed.
Lemma swap_remove_inner {A} (l : list A) i x : l !! i = Some x -> S i ≠ length l -> ∃ y, l !! pred (length l) = Some y ∧ swap_remove i l = <[i := y]> (removelast l) ∧ l = removelast l ++ [y].
Proof.
  intros E L. pose proof (lookup_lt_Some _ _ _ E) as Lt. destruct (lookup_lt_is_Some_2 l (pred (length l)) ltac:(lia)) as [y Y]. exists y.
  unfold swap_remove. rewrite last_lookup, Y, decide_False by done. split; [done|]. split; [done|].
  rewrite removelast_firstn_len, <- (take_drop (pred (length l)) l) at 1. f_equal. erewrite drop_S by done. f_equal. apply drop_ge. lia.
Qed.
Lemma swap_remove_perm {A} (l : list A) i x : l !! i = Some x -> l ≡ₚ x :: swap_remove i l.
Proof.
  intros E. destruct (decide (S i = length l)) as [L|L].
  - destruct (swap_remove_last l i x E L) as [-> Q]. rewrite Q at 1. by rewrite Permutation_app_comm.
  - destruct (swap_remove_inner l i x E L) as (y & Y & -> & Q). pose proof (lookup_lt_Some _ _ _ E) as Lt.
    assert (length l = length (removelast l) + 1)%nat as Ll by (rewrite Q at 1; by rewrite app_length).
    assert (removelast l !! i = Some x) as E' by (rewrite Q in E; rewrite lookup_app_l in E by lia; done).
    rewrite Q at 1. set (m := removelast l) in *. rewrite (insert_take_drop m i y) by lia. rewrite <- (take_drop_middle m i x E') at 1.
    generalize (take i m), (drop (S i) m). intros a b. rewrite <- (Permutation_middle a b x), <- (Permutation_middle a b y). cbn. constructor. by rewrite Permutation_app_comm.
Qed.
Lemma swap_remove_lookup {A} (l : list A) i x j : l !! i = Some x ->
  swap_remove i l !! j = if decide (S j = length l) then None else if decide (j = i) then l !! pred (length l) else l !! j.
Proof.
  intros E. pose proof (lookup_lt_Some _ _ _ E) as Lt.
  assert (∀ y, l = removelast l ++ [y] -> ∀ k, removelast l !! k = if decide (S k = length l) then None else l !! k) as R.
  { intros y Q k. assert (length l = length (removelast l) + 1)%nat as Ll by (rewrite Q at 1; by rewrite app_length).
    destruct (decide (S k = length l)); [apply lookup_ge_None; lia|]. rewrite Q at 2. destruct (decide (k < length (removelast l))%nat); [by rewrite lookup_app_l by lia|].
    rewrite lookup_ge_None_2 by lia. symmetry. apply lookup_ge_None_2. rewrite app_length. cbn. lia. }
  destruct (decide (S i = length l)) as [L|L].
  - destruct (swap_remove_last l i x E L) as [-> Q]. rewrite (R x Q). destruct (decide (S j = length l)); [done|]. rewrite decide_False; [done|]. intros ->. done.
  - destruct (swap_remove_inner l i x E L) as (y & Y & -> & Q).
    assert (length l = length (removelast l) + 1)%nat as Ll by (rewrite Q at 1; by rewrite app_length).
    destruct (decide (j = i)) as [->|N].
    + rewrite list_lookup_insert by lia. rewrite decide_False by done. done.
    + rewrite list_lookup_insert_ne by done. apply (R y Q).
Qed.
Lemma rmapM_all {E A B} (f : A -> res E B) (Q : A -> B -> Prop) l : (∀ x, x ∈ l -> ∃ y, f x = Ok y ∧ Q x y) -> ∃ ys, rmapM f l = Ok ys ∧ Forall2 Q l ys.
Proof.
  induction l as [|x l IH]; intros F; [exists []; by split|]. destruct (F x ltac:(constructor)) as (y & Ey & Qy).
  destruct IH as (ys & Eys & Fys); [intros z I; apply F; by constructor|]. exists (y :: ys). cbn. rewrite Ey, Eys. split; [done|]. by constructor.
Qed.
Lemma first_of_spec l : match first_of l with None => l = [] | Some y => y ∈ l ∧ ∀ z, z ∈ l -> y.1 <= z.1 end.
Proof.
  induction l as [|x l IH]; [done|]. cbn [first_of foldr]. fold (first_of l). destruct (first_of l) as [y|] eqn:E.
  - destruct IH as [I M]. unfold earlier. destruct ((x.1 <? y.1) || ((x.1 =? y.1) && (x.2 <=? y.2)%nat)) eqn:C.
    + split; [constructor|]. intros z Z. apply elem_of_cons in Z as [->|Z]; [lia|]. specialize (M z Z). lia.
    + split; [by constructor|]. intros z Z. apply elem_of_cons in Z as [->|Z]; [|by apply M]. lia.
  - subst l. split; [constructor|]. intros z Z. apply elem_of_list_singleton in Z as ->. lia.
Qed.

Section Pool.
  Context {T P D : Type} `{Countable T} `{Countable P} `{Countable D}.
  Notation pool := (pool T P D).
  Notation entry := (entry T D).

  (** * The books *)
  (** The maps describe these transactions, under these indices *)
  Record describes (R : entry P -> nat -> Prop) (p : pool) : Prop := Describes {
    d_id : ∀ id i, by_id p !! id = Some i <-> ∃ e, R e i ∧ eid e = id;
    d_time : ∀ t i, (t, i) ∈ by_time p <-> ∃ e, R e i ∧ created e = t;
    d_dep : ∀ d i, (d, i) ∈ by_dep p <-> ∃ e, R e i ∧ d ∈ needs e;
    d_origin : ∀ o i, (o, i) ∈ by_origin p <-> ∃ e, R e i ∧ origin e = o;
    d_fun : ∀ e e' i, R e i -> R e' i -> e = e' }.
  Lemma describes_ext R R' p : (∀ e i, R e i <-> R' e i) -> describes R p -> describes R' p.
  Proof. intros X [A B C Dd F]. constructor; try (intros; setoid_rewrite <- X; done). intros e e' i I J. apply X in I, J. by apply (F e e' i). Qed.
  Lemma describes_list R l p : describes R p -> describes R (set_list l p).
  Proof. intros [A B C Dd F]. by constructor. Qed.

  Lemma maps_insert_spec R e i p : describes R p -> (∀ e', ¬ R e' i) -> (∀ e' j, R e' j -> eid e' ≠ eid e) ->
    ∃ p', maps_insert e i p = Ok p' ∧ txs p' = txs p ∧ describes (fun e' j => R e' j ∨ (e' = e ∧ j = i)) p'.
  Proof.
    intros [A B C Dd F] Ni Ne. unfold maps_insert.
    assert (by_id p !! eid e = None) as E1.
    { destruct (by_id p !! eid e) as [j|] eqn:E; [|done]. apply A in E as (e' & Re & Q). by destruct (Ne e' j Re). }
    assert ((created e, i) ∉ by_time p) as E2 by (intros I; apply B in I as (e' & Re & _); by destruct (Ni e')).
    assert ((origin e, i) ∉ by_origin p) as E3 by (intros I; apply Dd in I as (e' & Re & _); by destruct (Ni e')).
    rewrite E1. rewrite (bool_decide_false (is_Some None)) by by intros []. rewrite !bool_decide_false by done. cbn. eexists. split; [done|]. split; [done|].
    constructor; cbn.
    - intros id j. rewrite lookup_insert_Some, A. split.
      + intros [[<- <-]|[N (e' & Re & <-)]]; [exists e; split; [by right|done]|exists e'; split; [by left|done]].
      + intros (e' & [Re|[-> ->]] & <-); [right; split; [|by exists e']|by left]. intros Q. by apply (Ne e' j Re).
    - intros t j. rewrite elem_of_union, elem_of_singleton, B. split.
      + intros [[= -> ->]|(e' & Re & <-)]; [exists e; split; [by right|done]|exists e'; split; [by left|done]].
      + intros (e' & [Re|[-> ->]] & <-); [right; by exists e'|by left].
    - intros d j. rewrite elem_of_union, elem_of_list_to_set, elem_of_list_fmap, C. split.
      + intros [(d' & [= -> ->] & I)|(e' & Re & I)]; [exists e; split; [by right|done]|exists e'; split; [by left|done]].
      + intros (e' & [Re|[-> ->]] & I); [right; by exists e'|left; by exists d].
    - intros o j. rewrite elem_of_union, elem_of_singleton, Dd. split.
      + intros [[= -> ->]|(e' & Re & <-)]; [exists e; split; [by right|done]|exists e'; split; [by left|done]].
      + intros (e' & [Re|[-> ->]] & <-); [right; by exists e'|by left].
    - intros e1 e2 j [R1|[-> ->]] [R2|[-> Q]]; [by apply (F e1 e2 j)| | |done].
      + subst j. by destruct (Ni e1).
      + by destruct (Ni e2).
  Qed.
  Lemma maps_remove_spec R e i p : describes R p -> R e i -> ∃ p', maps_remove e p = Ok p' ∧ txs p' = txs p ∧ describes (fun e' j => R e' j ∧ j ≠ i) p'.
  Proof.
    intros [A B C Dd F] Re. unfold maps_remove.
    assert (by_id p !! eid e = Some i) as -> by (apply A; by exists e). cbn.
    assert ((created e, i) ∈ by_time p) as E2 by (apply B; by exists e).
    assert ((origin e, i) ∈ by_origin p) as E3 by (apply Dd; by exists e).
    rewrite !bool_decide_true by done. cbn. eexists. split; [done|]. split; [done|].
    constructor; cbn.
    - intros id j. rewrite lookup_delete_Some, A. split.
      + intros [N (e' & Re' & <-)]. exists e'. split; [|done]. split; [done|]. intros ->. apply N. by rewrite (F e e' i Re Re').
      + intros (e' & [Re' N] & <-). split; [|by exists e']. intros Q. assert (by_id p !! eid e' = Some j) as X by (apply A; by exists e').
        assert (by_id p !! eid e = Some i) as Y by (apply A; by exists e). rewrite Q in Y. congruence.
    - intros t j. rewrite elem_of_difference, elem_of_singleton, B. split.
      + intros [(e' & Re' & <-) N]. exists e'. split; [|done]. split; [done|]. intros ->. apply N. by rewrite (F e e' i Re Re').
      + intros (e' & [Re' N] & <-). split; [by exists e'|]. congruence.
    - intros d j. rewrite elem_of_difference, elem_of_list_to_set, elem_of_list_fmap, C. split.
      + intros [(e' & Re' & I) N]. exists e'. split; [|done]. split; [done|]. intros ->. apply N. exists d. rewrite (F e e' i Re Re'). done.
      + intros (e' & [Re' N] & I). split; [by exists e'|]. intros (d' & [= -> ->] & _). done.
    - intros o j. rewrite elem_of_difference, elem_of_singleton, Dd. split.
      + intros [(e' & Re' & <-) N]. exists e'. split; [|done]. split; [done|]. intros ->. apply N. by rewrite (F e e' i Re Re').
      + intros (e' & [Re' N] & <-). split; [by exists e'|]. congruence.
    - intros e1 e2 j [R1 _] [R2 _]. by apply (F e1 e2 j).
  Qed.

  Definition books (p : pool) : Prop := describes (fun e i => txs p !! i = Some e) p ∧ NoDup (eid <$> txs p).
  Lemma books_ids p : describes (fun e i => txs p !! i = Some e) p -> NoDup (eid <$> txs p).
  Proof.
    intros B. apply NoDup_alt. intros i j x Ei Ej. rewrite list_lookup_fmap in Ei, Ej. apply fmap_Some in Ei as (e & Ei & ->), Ej as (e' & Ej & Q).
    assert (by_id p !! eid e = Some i) as X by (apply (d_id _ _ B); by exists e). assert (by_id p !! eid e = Some j) as Y by (apply (d_id _ _ B); by exists e'). congruence.
  Qed.
  Lemma books_empty : books no_orphans.
  Proof.
    split; [|constructor]. constructor; cbn.
    - intros id i. rewrite lookup_empty. split; [done|]. by intros (e & [=] & _).
    - intros t i. rewrite elem_of_empty. split; [done|]. by intros (e & [=] & _).
    - intros d i. rewrite elem_of_empty. split; [done|]. by intros (e & [=] & _).
    - intros o i. rewrite elem_of_empty. split; [done|]. by intros (e & [=] & _).
    - intros e e' i E. by rewrite lookup_nil in E.
  Qed.
  Lemma contains_spec id p : books p -> contains id p = true <-> ∃ e, e ∈ txs p ∧ eid e = id.
  Proof.
    intros [B _]. unfold contains. rewrite bool_decide_eq_true. split.
    - intros [i E]. apply (d_id _ _ B) in E as (e & E & Q). exists e. split; [by apply elem_of_list_lookup_2 in E|done].
    - intros (e & I & Q). apply elem_of_list_lookup in I as [i E]. exists i. apply (d_id _ _ B). by exists e.
  Qed.
  Lemma same_id p e e' : books p -> e ∈ txs p -> e' ∈ txs p -> eid e = eid e' -> e = e'.
  Proof.
    intros [_ N] I J Q. apply elem_of_list_lookup in I as [i I], J as [j J]. assert (i = j) as ->; [|congruence].
    apply (NoDup_lookup _ _ _ (eid e) N); rewrite list_lookup_fmap; [by rewrite I|rewrite J; cbn; by rewrite Q].
  Qed.
  Lemma by_id_entry p id i : books p -> by_id p !! id = Some i -> ∃ e, txs p !! i = Some e ∧ eid e = id.
  Proof. intros [B _] E. by apply (d_id _ _ B) in E. Qed.

  Lemma remove_at_spec i e p : books p -> txs p !! i = Some e -> ∃ p', remove_at i p = Ok (p', e) ∧ books p' ∧ txs p ≡ₚ e :: txs p'.
  Proof.
    intros [B ND] E. unfold remove_at, get_at. rewrite E. cbn [expect rbind].
    destruct (maps_remove_spec _ e i (set_list (swap_remove i (txs p)) p) (describes_list _ _ _ B) E) as (p1 & -> & T1 & B1). cbn [rbind].
    cbn [set_list txs] in T1. rewrite T1. pose proof (swap_remove_perm _ _ _ E) as Pm. pose proof (swap_remove_lookup (txs p) i e) as Lk.
    pose proof (lookup_lt_Some _ _ _ E) as Lt.
    destruct (swap_remove i (txs p) !! i) as [m|] eqn:M.
    - rewrite (Lk i E) in M. rewrite (decide_True (P := i = i)) in M by done. destruct (decide (S i = length (txs p))) as [|Ni]; [done|].
      destruct (maps_remove_spec _ m (pred (length (txs p))) p1 B1) as (p2 & -> & T2 & B2); [split; [done|lia]|]. cbn [rbind].
      destruct (maps_insert_spec _ m i p2 B2) as (p3 & -> & T3 & B3).
      { by intros e' [[_ ?] _]. }
      { intros e' j [[Ej Nj] Nl] Q. assert (j = pred (length (txs p))) as ->; [|done].
        apply (NoDup_lookup _ _ _ (eid m) ND); rewrite list_lookup_fmap; [rewrite Ej; cbn; by rewrite Q|by rewrite M]. }
      cbn [rbind]. exists p3. split; [done|].
      assert (describes (fun e i => txs p3 !! i = Some e) p3) as B4.
      { eapply describes_ext; [|exact B3]. intros e' j. rewrite T3, T2, T1, (Lk j E). cbn.
        destruct (decide (S j = length (txs p))) as [Sj|Sj].
        - split; [|done]. intros [[[Ej Nj] Nl]|[-> ->]]; [lia|done].
        - destruct (decide (j = i)) as [->|Nj].
          + rewrite M. split; [by intros [[[_ ?] _]|[-> _]]|]. intros [= ->]. by right.
          + split; [by intros [[[? _] _]|[_ ?]]|]. intros Ej. left. split; [done|]. intros ->. pose proof (lookup_lt_Some _ _ _ Ej). lia. }
      split; [split; [done|by apply books_ids]|]. by rewrite T3, T2, T1.
    - exists p1. split; [done|].
      assert (describes (fun e i => txs p1 !! i = Some e) p1) as B4.
      { eapply describes_ext; [|exact B1]. intros e' j. rewrite T1, (Lk j E). cbn. rewrite (Lk i E), (decide_True (P := i = i)) in M by done.
        destruct (decide (S i = length (txs p))) as [Si|Si].
        - destruct (decide (S j = length (txs p))) as [Sj|Sj].
          + split; [|done]. intros [_ N]. lia.
          + rewrite decide_False by lia. split; [by intros [? _]|]. intros Ej. split; [done|]. lia.
        - apply lookup_ge_None in M. lia. }
      split; [split; [done|by apply books_ids]|]. by rewrite T1.
  Qed.
  Lemma remove_at_len p p' (e : entry P) : txs p ≡ₚ e :: txs p' -> len p = S (len p').
  Proof. unfold len. intros ->. done. Qed.

  Lemma remove_expired_spec x : ∀ fuel p, books p -> (len p <= fuel)%nat ->
    ∃ p' rm, remove_expired fuel x p = Ok p' ∧ books p' ∧ txs p ≡ₚ rm ++ txs p' ∧ (∀ e, e ∈ rm -> created e < x) ∧ (∀ e, e ∈ txs p' -> x <= created e).
  Proof.
    intros fuel. induction fuel as [|fuel IH]; intros p B F.
    - exists p, []. split; [done|]. split; [done|]. split; [done|]. split; [intros e I; by apply elem_of_nil in I|].
      intros e I. destruct (txs p) eqn:E; [by apply elem_of_nil in I|]. unfold len in F. rewrite E in F. cbn in F. lia.
    - cbn [remove_expired]. pose proof (first_of_spec (elements (by_time p))) as Fs. destruct (first_of (elements (by_time p))) as [[t i]|].
      + destruct Fs as [I M]. apply elem_of_elements in I. apply (d_time _ _ (proj1 B)) in I as (e & E & <-). cbn in M.
        destruct (created e <? x) eqn:C.
        * apply N.ltb_lt in C. destruct (remove_at_spec i e p B E) as (p1 & -> & B1 & Pm). cbn [rbind].
          destruct (IH p1 B1) as (p' & rm & -> & B' & Pm' & R1 & R2); [rewrite (remove_at_len _ _ _ Pm) in F; lia|].
          exists p', (e :: rm). split; [done|]. split; [done|]. split; [by rewrite Pm, Pm'|]. split; [|done].
          intros e' J. apply elem_of_cons in J as [->|J]; [done|by apply R1].
        * apply N.ltb_ge in C. exists p, []. split; [done|]. split; [done|]. split; [done|]. split; [intros e' J; by apply elem_of_nil in J|].
          intros e' J. apply elem_of_list_lookup in J as [j J]. specialize (M (created e', j)). cbn in M.
          assert (created e <= created e'); [|lia]. apply M. apply elem_of_elements, (d_time _ _ (proj1 B)). by exists e'.
      + exists p, []. split; [done|]. split; [done|]. split; [done|]. split; [intros e' J; by apply elem_of_nil in J|].
        intros e' J. apply elem_of_list_lookup in J as [j J]. assert ((created e', j) ∈ elements (by_time p)) as X by (apply elem_of_elements, (d_time _ _ (proj1 B)); by exists e').
        rewrite Fs in X. by apply elem_of_nil in X.
  Qed.
  Lemma draw_lt (r : chance P) n : (0 < n)%nat -> (draw r n < n)%nat.
  Proof. intros. apply Nat.mod_upper_bound. lia. Qed.
  Lemma enforce_max_size_spec r mx : ∀ fuel p, books p -> (len p <= fuel)%nat -> N.of_nat (len p) <= HARD_LIMIT ->
    ∃ p' rm, enforce_max_size fuel r mx p = Ok p' ∧ books p' ∧ txs p ≡ₚ rm ++ txs p' ∧ N.of_nat (len p') <= mx ∧ ((p' = p ∧ rm = []) ∨ N.of_nat (len p') = mx).
  Proof.
    intros fuel. induction fuel as [|fuel IH]; intros p B F Hd.
    - exists p, []. split; [done|]. split; [done|]. split; [done|]. split; [lia|by left].
    - cbn [enforce_max_size]. destruct (mx <? N.of_nat (len p)) eqn:C.
      + apply N.ltb_lt in C. assert (draw r (len p) < len p)%nat as Dr by (apply draw_lt; lia).
        unfold new_index. rewrite (proj2 (N.ltb_lt _ _)) by lia. cbn [assert rbind].
        destruct (lookup_lt_is_Some_2 (txs p) (draw r (len p)) Dr) as [e E].
        destruct (remove_at_spec _ e p B E) as (p1 & -> & B1 & Pm). cbn [rbind]. pose proof (remove_at_len _ _ _ Pm) as Ln.
        destruct (IH p1 B1) as (p' & rm & -> & B' & Pm' & L' & Q); [lia|lia|].
        exists p', (e :: rm). split; [done|]. split; [done|]. split; [by rewrite Pm, Pm'|]. split; [done|]. right. destruct Q as [[-> _]|Q]; [lia|done].
      + apply N.ltb_ge in C. exists p, []. split; [done|]. split; [done|]. split; [done|]. split; [done|by left].
  Qed.

  Lemma insert_orphan_spec r e p : books p -> N.of_nat (len p) < HARD_LIMIT ->
    ∃ p', books p' ∧ if contains (eid e) p then p' = p ∧ insert_orphan r e p = Ok (p', Ok InOrphanPoolDuplicate)
      else txs p' = txs p ++ [e] ∧ insert_orphan r e p = Ok (p', Ok InOrphanPool).
  Proof.
    intros B L. unfold insert_orphan. pose proof (contains_spec (eid e) p B) as Cs. destruct (contains (eid e) p); [by exists p|].
    unfold new_index. rewrite (proj2 (N.ltb_lt _ _)) by done. cbn [assert rbind].
    destruct (maps_insert_spec _ e (len p) p (proj1 B)) as (p1 & -> & T1 & B1).
    { intros e' E. apply lookup_lt_Some in E. unfold len in E. lia. }
    { intros e' j E Q. assert (false = true); [|done]. apply Cs. exists e'. split; [by apply elem_of_list_lookup_2 in E|done]. }
    cbn [rbind]. set (p2 := set_list (txs p1 ++ [e]) p1).
    assert (books p2) as B2.
    { assert (describes (fun e i => txs p2 !! i = Some e) p2) as B2; [|split; [done|by apply books_ids]].
      apply describes_list. eapply describes_ext; [|exact B1]. intros e' j. cbn. rewrite T1. split.
      - intros [E|[-> ->]]; [by apply lookup_app_l_Some|]. unfold len. rewrite lookup_app_r, Nat.sub_diag by lia. done.
      - intros E. apply lookup_app_Some in E as [E|[Ge E]]; [by left|]. right. apply list_lookup_singleton_Some in E as [Z ->]. split; [done|]. unfold len. lia. }
    assert (len p2 = S (len p)) as L2 by (unfold len; cbn; rewrite T1, app_length; cbn; lia).
    destruct (enforce_max_size_spec r HARD_LIMIT (len p2) p2 B2 ltac:(lia) ltac:(lia)) as (p3 & rm & E3 & B3 & Pm & L3 & Q). rewrite E3. cbn [rbind].
    assert (p3 = p2) as ->.
    { destruct Q as [[-> _]|Q]; [done|]. (* at the limit exactly: nothing was removed *)
      clear - E3 L2 L Q. rewrite L2 in E3. cbn [enforce_max_size] in E3. rewrite (proj2 (N.ltb_ge _ _)) in E3 by lia. by injection E3. }
    exists p2. split; [done|]. split; [cbn; by rewrite T1|]. rewrite Nat.ltb_irrefl. done.
  Qed.

  Lemma insert_and_enforce_spec r e now p : books p -> N.of_nat (len p) <= CAPACITY ->
    ∃ p' rm1 rm2, let dup := contains (eid e) p in
      insert_and_enforce r e now p = Ok (p', if contains (eid e) p' then Ok (if dup then InOrphanPoolDuplicate else InOrphanPool) else Err Full) ∧ books p' ∧
      (if dup then txs p else txs p ++ [e]) ≡ₚ rm1 ++ rm2 ++ txs p' ∧ N.of_nat (len p') <= CAPACITY ∧ (∀ x, x ∈ rm1 -> expired now x) ∧
      (rm2 = [] ∨ N.of_nat (len p') = CAPACITY) ∧ (∀ x, x ∈ txs p' -> ¬ expired now x).
  Proof.
    intros B L. unfold insert_and_enforce. destruct (insert_orphan_spec r e p B) as (p1 & B1 & E1); [unfold CAPACITY, HARD_LIMIT in *; lia|].
    assert (∃ st, insert_orphan r e p = Ok (p1, Ok st) ∧ st = (if contains (eid e) p then InOrphanPoolDuplicate else InOrphanPool) ∧
      txs p1 = (if contains (eid e) p then txs p else txs p ++ [e]) ∧ N.of_nat (len p1) <= CAPACITY + 1) as (st & -> & -> & T1 & L1).
    { destruct (contains (eid e) p).
      - destruct E1 as [-> ->]. eexists. split; [done|]. split; [done|]. split; [done|]. lia.
      - destruct E1 as [T1 ->]. eexists. split; [done|]. split; [done|]. split; [done|]. unfold len in *. rewrite T1, app_length. cbn. lia. }
    cbn [rbind]. unfold enforce_limits.
    destruct (remove_expired_spec (now - EXPIRY) (len p1) p1 B1 ltac:(lia)) as (p2 & rm1 & -> & B2 & Pm1 & X1 & X2). cbn [rbind].
    assert (len p2 <= len p1)%nat as L2 by (unfold len; rewrite Pm1, app_length; lia).
    destruct (enforce_max_size_spec r CAPACITY (len p2) p2 B2 ltac:(lia)) as (p3 & rm2 & -> & B3 & Pm2 & L3 & Q); [unfold CAPACITY, HARD_LIMIT in *; lia|]. cbn [rbind].
    exists p3, rm1, rm2. split; [done|]. split; [done|]. split; [by rewrite <- T1, Pm1, Pm2|]. split; [done|]. split; [done|]. split.
    - destruct Q as [[_ ->]|Q]; [by left|by right].
    - intros x I. assert (x ∈ txs p2) as I2 by (rewrite Pm2; apply elem_of_app; by right). specialize (X2 x I2). unfold expired. lia.
  Qed.

  Lemma remove_by_origin_spec o : ∀ fuel p, books p -> (len p <= fuel)%nat ->
    ∃ p', remove_by_origin fuel o p = Ok p' ∧ books p' ∧ txs p' ≡ₚ filter (fun e => origin e ≠ o) (txs p).
  Proof.
    intros fuel. induction fuel as [|fuel IH]; intros p B F.
    - exists p. split; [done|]. split; [done|]. destruct (txs p) eqn:E; [done|]. unfold len in F. rewrite E in F. cbn in F. lia.
    - cbn [remove_by_origin]. unfold pick_by_origin. destruct (filter _ (elements (by_origin p))) as [|[o' i] l] eqn:E.
      + exists p. split; [done|]. split; [done|].
        assert (∀ l : list (entry P), (∀ e, e ∈ l -> origin e ≠ o) -> filter (fun e : entry P => origin e ≠ o) l = l) as X.
        { clear. intros l. induction l as [|e l IH]; intros A; [done|]. rewrite filter_cons_True by (apply A; constructor). f_equal. apply IH. intros e' I. apply A. by constructor. }
        rewrite X; [done|]. intros e I Q. apply elem_of_list_lookup in I as [i I].
        assert ((o, i) ∈ filter (fun x : P * nat => x.1 = o) (elements (by_origin p))) as J.
        { apply elem_of_list_filter. split; [done|]. apply elem_of_elements, (d_origin _ _ (proj1 B)). by exists e. }
        rewrite E in J. by apply elem_of_nil in J.
      + assert ((o', i) ∈ filter (fun x : P * nat => x.1 = o) (elements (by_origin p))) as J by (rewrite E; constructor).
        apply elem_of_list_filter in J as [Q J]. cbn in Q. subst o'. apply elem_of_elements, (d_origin _ _ (proj1 B)) in J as (e & Ee & Q).
        cbn [snd]. destruct (remove_at_spec i e p B Ee) as (p1 & -> & B1 & Pm). cbn [rbind].
        destruct (IH p1 B1) as (p' & -> & B' & Pm'); [rewrite (remove_at_len _ _ _ Pm) in F; lia|]. exists p'. split; [done|]. split; [done|].
        rewrite Pm', Pm. rewrite filter_cons_False; [done|]. intros X. by apply X.
  Qed.
  Lemma needs_of_spec {O} (e : entry O) (c : entry P) : (∃ d, d ∈ needs c ∧ needs_of (eid e) (provides e) d = true) <-> child_of e c.
  Proof.
    unfold child_of. split.
    - intros ([id i|d] & I & E); cbn in E; apply bool_decide_eq_true in E; [left; subst id; by exists i|right; by exists d].
    - intros [[i I]|(d & I & J)]; eexists; (split; [exact I|]); cbn; by apply bool_decide_eq_true.
  Qed.
  Lemma children_of_spec {O} (e : entry O) p : books p -> ∃ l, children_of e p = Ok l ∧ ∀ c, c ∈ l <-> c ∈ txs p ∧ child_of e c.
  Proof.
    intros B. unfold children_of.
    destruct (rmapM_all (fun x : dep * nat => get_at x.2 p) (fun x c => txs p !! x.2 = Some c ∧ x.1 ∈ needs c) (filter (fun x => needs_of (eid e) (provides e) x.1 = true) (elements (by_dep p)))) as (l & E & F).
    { intros [d i] I. apply elem_of_list_filter in I as [_ I]. apply elem_of_elements, (d_dep _ _ (proj1 B)) in I as (c & Ec & Ic). exists c. unfold get_at. cbn. by rewrite Ec. }
    exists l. split; [done|]. intros c. split.
    - intros I. apply elem_of_list_lookup in I as [k I]. destruct (Forall2_lookup_r _ _ _ _ _ F I) as ([d i] & Ix & Ei & Id). cbn in Ei, Id.
      apply elem_of_list_lookup_2, elem_of_list_filter in Ix as [Nd _]. cbn in Nd. split; [by apply elem_of_list_lookup_2 in Ei|]. apply needs_of_spec. by exists d.
    - intros [I C]. apply needs_of_spec in C as (d & Id & Nd). apply elem_of_list_lookup in I as [i I].
      assert ((d, i) ∈ filter (fun x : dep * nat => needs_of (eid e) (provides e) x.1 = true) (elements (by_dep p))) as J.
      { apply elem_of_list_filter. split; [done|]. apply elem_of_elements, (d_dep _ _ (proj1 B)). by exists c. }
      apply elem_of_list_lookup in J as [k J]. destruct (Forall2_lookup_l _ _ _ _ _ F J) as (c' & Ec & Ei & _). cbn in Ei.
      apply elem_of_list_lookup. exists k. congruence.
  Qed.
  Lemma is_ready_spec e p : books p -> is_ready e p = true <-> ∀ id i, TxOutput id i ∈ needs e -> ∀ e', e' ∈ txs p -> eid e' ≠ id.
  Proof.
    intros B. unfold is_ready. rewrite negb_true_iff. rewrite <- not_true_iff_false, existsb_exists. split.
    - intros X id i I e' I' Q. apply X. exists (TxOutput id i). split; [by apply elem_of_list_In|]. apply contains_spec; [done|]. by exists e'.
    - intros X ([id i|d] & I & E); [|done]. apply contains_spec in E as (e' & I' & Q); [|done]. apply elem_of_list_In in I. by apply (X id i I e' I').
  Qed.
End Pool.

(** * The queue *)
Section Queue.
  Context {P W : Type} `{Countable P} `{EqDecision W} (less : W -> W -> bool).
  Notation queue := (queue P W).
  Definition has (q : queue) (p : P) (w : W) : Prop := ∃ l, work q !! p = Some l ∧ w ∈ l.
  (** What holds of the queue when these peers have left *)
  Record qinv (G : P -> Prop) (q : queue) : Prop := Qinv {
    q_nodup : NoDup (scheduled q);
    q_nonempty : ∀ p, p ∈ scheduled q -> work q !! p ≠ Some [];
    q_gone : ∀ p, G p -> work q !! p = None;
    q_sched : ∀ p, p ∈ scheduled q -> is_Some (work q !! p) ∨ G p }.
  Definition settled (q : queue) : Prop := scheduled q = [] -> work q = ∅.

  Lemma put_in w x l : x ∈ put less w l <-> x = w ∨ x ∈ l.
  Proof.
    induction l as [|y l IH]; cbn; [rewrite elem_of_list_singleton, elem_of_nil; naive_solver|].
    destruct (decide (w = y)) as [->|N]; [rewrite elem_of_cons; naive_solver|]. destruct (less w y); [by rewrite elem_of_cons|]. rewrite !elem_of_cons, IH. naive_solver.
  Qed.
  Lemma put_nonempty w l : put less w l ≠ [].
  Proof. intros E. assert (w ∈ put less w l) as X by (apply put_in; by left). rewrite E in X. by apply elem_of_nil in X. Qed.
  Lemma swap_first_perm k p l : swap_first k p l ≡ₚ p :: (l : list P).
  Proof.
    destruct k as [|k]; [done|]. cbn. destruct (l !! k) as [x|] eqn:E; [|done].
    rewrite (insert_take_drop l k p) by by apply lookup_lt_Some in E. rewrite <- (take_drop_middle l k x E) at 3.
    generalize (take k l), (drop (S k) l). intros a b. rewrite <- !Permutation_middle. constructor.
  Qed.

  Lemma insert_has r p w (q : queue) p' w' : has (insert less r p w q) p' w' <-> (p' = p ∧ w' = w) ∨ has q p' w'.
  Proof.
    unfold has, insert. destruct (work q !! p) as [l|] eqn:E; cbn; setoid_rewrite lookup_insert_Some; split.
    - intros (l' & [[<- <-]|[N L]] & I); [|right; by exists l']. apply put_in in I as [->|I]; [by left|right; by exists l].
    - intros [[-> ->]|(l' & L & I)]; [exists (put less w l); split; [by left|apply put_in; by left]|].
      destruct (decide (p = p')) as [<-|N]; [|exists l'; split; [by right|done]]. exists (put less w l). split; [by left|]. apply put_in. right. congruence.
    - intros (l' & [[<- <-]|[N L]] & I); [|right; by exists l']. apply elem_of_list_singleton in I as ->. by left.
    - intros [[-> ->]|(l' & L & I)]; [exists [w]; split; [by left|by constructor]|]. exists l'. split; [|done]. right. split; [|done]. intros ->. congruence.
  Qed.
  Lemma insert_scheduled r p w (q : queue) : scheduled (insert less r p w q) ≡ₚ (if decide (work q !! p = None) then p :: scheduled q else scheduled q).
  Proof. unfold insert. destruct (work q !! p); cbn; [rewrite decide_False by done; done|]. rewrite decide_True by done. apply swap_first_perm. Qed.
  Lemma insert_work r p w (q : queue) p' : work (insert less r p w q) !! p' = if decide (p' = p) then Some (put less w (default [] (work q !! p))) else work q !! p'.
  Proof.
    unfold insert. destruct (work q !! p) as [l|] eqn:E; cbn; (destruct (decide (p' = p)) as [->|N]; [by rewrite lookup_insert|by rewrite lookup_insert_ne]).
  Qed.
  Lemma insert_qinv G r p w (q : queue) : ¬ G p -> qinv G q -> settled q -> qinv G (insert less r p w q) ∧ settled (insert less r p w q).
  Proof.
    intros NG [N E Gn Sc] St. pose proof (insert_scheduled r p w q) as Pm. pose proof (insert_work r p w q) as Wk. split; [constructor|].
    - rewrite Pm. destruct (decide (work q !! p = None)) as [X|X]; [|done]. constructor; [|done]. intros I. destruct (Sc p I) as [[? Y]|Y]; [congruence|done].
    - intros p' I. rewrite Wk. destruct (decide (p' = p)) as [->|Np]; [intros [= X]; by apply put_nonempty in X|]. apply E.
      rewrite Pm in I. destruct (decide (work q !! p = None)); [|done]. by apply elem_of_cons in I as [->|I].
    - intros p' Gp. rewrite Wk. rewrite decide_False by (intros ->; done). by apply Gn.
    - intros p' I. rewrite Wk. destruct (decide (p' = p)) as [->|Np]; [left; by eexists|]. apply Sc.
      rewrite Pm in I. destruct (decide (work q !! p = None)); [|done]. by apply elem_of_cons in I as [->|I].
    - intros X. exfalso. rewrite X in Pm. destruct (decide (work q !! p = None)) as [Y|Y]; [by apply Permutation_nil in Pm|].
      apply Permutation_nil in Pm. apply Y. rewrite (St Pm). apply lookup_empty.
  Qed.

  Lemma advance_nonempty r (q : queue) : scheduled q ≠ [] -> advance_round r q = q.
  Proof. unfold advance_round. by destruct (scheduled q). Qed.
  Lemma advance_empty r (q : queue) : shuffles r -> scheduled q = [] ->
    (∀ p, p ∈ scheduled (advance_round r q) <-> ∃ l, work q !! p = Some l ∧ l ≠ []) ∧ (∀ p l, work (advance_round r q) !! p = Some l <-> work q !! p = Some l ∧ l ≠ []) ∧
    NoDup (scheduled (advance_round r q)).
  Proof.
    intros Sh E. unfold advance_round. rewrite E. cbn. assert (∀ p l, filter (fun x : P * list W => x.2 ≠ []) (work q) !! p = Some l <-> work q !! p = Some l ∧ l ≠ []) as F by (intros; apply map_filter_lookup_Some).
    split; [|split; [done|]].
    - intros p. rewrite (Sh _), elem_of_list_fmap. split.
      + intros ([p' l] & -> & I). apply elem_of_map_to_list in I. exists l. by apply F.
      + intros (l & L & Nl). exists (p, l). split; [done|]. apply elem_of_map_to_list, F. done.
    - rewrite (Sh _). apply NoDup_fst_map_to_list.
  Qed.
  Lemma advance_has r (q : queue) p w : shuffles r -> has (advance_round r q) p w <-> has q p w.
  Proof.
    intros Sh. destruct (decide (scheduled q = [])) as [E|E]; [|by rewrite advance_nonempty]. destruct (advance_empty r q Sh E) as (_ & F & _).
    unfold has. setoid_rewrite F. split; [intros (l & [L _] & I); by exists l|]. intros (l & L & I). exists l. split; [|done]. split; [done|]. intros ->. by apply elem_of_nil in I.
  Qed.
  Lemma advance_qinv G r (q : queue) : shuffles r -> qinv G q -> qinv G (advance_round r q) ∧ settled (advance_round r q).
  Proof.
    intros Sh Q. destruct (decide (scheduled q = [])) as [E|E]; [|rewrite advance_nonempty by done; split; [done|intros X; done]].
    destruct (advance_empty r q Sh E) as (Is & F & ND). split; [constructor; [done| | |]|].
    - intros p _ L. apply F in L. by destruct L.
    - intros p Gp. destruct (work (advance_round r q) !! p) as [l|] eqn:L; [|done]. apply F in L as [L _]. by rewrite (q_gone _ _ Q p Gp) in L.
    - intros p I. apply Is in I as (l & L & Nl). left. exists l. by apply F.
    - intros X. apply map_empty. intros p. destruct (work (advance_round r q) !! p) as [l|] eqn:L; [|done]. apply F in L as [L Nl].
      assert (p ∈ scheduled (advance_round r q)) as I by (apply Is; by exists l). rewrite X in I. by apply elem_of_nil in I.
  Qed.
  Lemma pop_qinv G (q : queue) p ls m : qinv G q -> scheduled q = p :: ls -> (∀ p', p' ≠ p -> m !! p' = work q !! p') -> (G p -> m !! p = None) -> qinv G (Queue m ls).
  Proof.
    intros [N E Gn Sc] S M1 M2. rewrite S in N. apply NoDup_cons in N as [Ni N]. constructor; cbn; [done| | |].
    - intros p' I. rewrite M1 by (intros ->; done). apply E. rewrite S. by constructor.
    - intros p' Gp. destruct (decide (p' = p)) as [->|Np]; [by apply M2|]. rewrite M1 by done. by apply Gn.
    - intros p' I. rewrite M1 by (intros ->; done). apply Sc. rewrite S. by constructor.
  Qed.

  (** The number of items *)
  Definition count (m : gmap P (list W)) : nat := length (flat_map snd (map_to_list m)).
  Definition items (q : queue) : nat := count (work q).
  Lemma count_fresh (m : gmap P (list W)) p l : m !! p = None -> count (<[p := l]> m) = (length l + count m)%nat.
  Proof. intros E. unfold count. rewrite (Permutation_flat_map snd (map_to_list_insert m p l E)). cbn. by rewrite app_length. Qed.
  Lemma count_insert (m : gmap P (list W)) p l l' : m !! p = Some l -> (count (<[p := l']> m) + length l = count m + length l')%nat.
  Proof.
    intros E. rewrite <- insert_delete_insert, count_fresh by apply lookup_delete. rewrite <- (insert_delete m p l E) at 2. rewrite count_fresh by apply lookup_delete. lia.
  Qed.
  Lemma count_filter (m : gmap P (list W)) : count (filter (fun x : P * list W => x.2 ≠ []) m) = count m.
  Proof.
    induction m as [|p l m E IH] using map_ind; [by rewrite map_filter_empty|]. rewrite count_fresh by done. destruct (decide (l = [])) as [->|N].
    - rewrite map_filter_insert_False by (intros X; by apply X). rewrite delete_notin by done. by rewrite IH.
    - rewrite map_filter_insert_True by done. rewrite count_fresh; [by rewrite IH|]. apply map_filter_lookup_None. by left.
  Qed.
  Lemma advance_items r (q : queue) : items (advance_round r q) = items q.
  Proof. unfold advance_round, items. destruct (scheduled q); [|done]. cbn. apply count_filter. Qed.

  (** How often a peer may still be served before the other *)
  Definition may (G : P -> Prop) (q : queue) (p : P) : Prop := ¬ G p ∧ (p ∈ scheduled q ∨ work q !! p = None).
  Definition bound (G : P -> Prop) (q : queue) (o p : P) (k : nat) : Prop :=
    (o ∈ scheduled q ∧ (may G q p -> 1 <= k)%nat) ∨ (o ∉ scheduled q ∧ (1 <= k)%nat ∧ (may G q p -> 2 <= k)%nat).
  Lemma bound_two G (q : queue) o p : bound G q o p 2.
  Proof. destruct (decide (o ∈ scheduled q)); [left|right]; (split; [done|]); repeat split; intros; lia. Qed.

  (** Up to the peer that is served *)
  Lemma pick_cases {S R} G r (handler : P -> W -> S -> total (S * option R)) : shuffles r -> ∀ fuel (q : queue) s, qinv G q -> settled q ->
    (Datatypes.S (Datatypes.S (length (scheduled q))) <= fuel ∨ (1 <= fuel ∧ ∀ p, p ∈ scheduled q -> is_Some (work q !! p)))%nat ->
    ((∀ p w, ¬ has q p w) ∧ ∃ q', pick r handler fuel q s = Ok (s, q', None) ∧ qinv G q' ∧ settled q' ∧ scheduled q' = [] ∧ (∀ p w, ¬ has q' p w)) ∨
    (∃ p l q1 ls, qinv G q1 ∧ scheduled q1 = p :: ls ∧ (∀ p w, has q1 p w <-> has q p w) ∧ work q1 !! p = Some l ∧ l ≠ [] ∧
       pick r handler fuel q s = (let? (s, l, x) := pick_of (handler p) l s in Ok (s, advance_round r (Queue (<[p := l]> (work q1)) ls), Some (p, x))) ∧
       items q1 = items q ∧ ∀ o p' k, (∃ w, has q o w) -> bound G q o p' k -> bound G q1 o p' k).
  Proof.
    intros Sh fuel. induction fuel as [|fuel IH]; intros q s Q St F; [exfalso; destruct F as [F|[F _]]; lia|].
    cbn [pick]. destruct (scheduled q) as [|p ls] eqn:E.
    - left. specialize (St E). assert (∀ p w, ¬ has q p w) as X by (intros p w (l & L & _); by rewrite St, lookup_empty in L).
      split; [done|]. exists q. split; [done|]. split; [done|]. split; [intros _; done|]. done.
    - assert (p ∈ scheduled q) as Ip by (rewrite E; constructor). destruct (work q !! p) as [[|w ws]|] eqn:L.
      + by destruct (q_nonempty _ _ Q p Ip).
      + right. exists p, (w :: ws), q, ls. split; [done|]. split; [done|]. split; [done|]. split; [done|]. split; [done|]. split; [done|]. split; [done|]. done.
      + destruct F as [F|[_ F]]; [|destruct (F p ltac:(constructor)) as [? X]; congruence].
        assert (G p) as Gp by (destruct (q_sched _ _ Q p Ip) as [[? X]|X]; [congruence|done]).
        assert (qinv G (Queue (work q) ls)) as Q1 by (apply (pop_qinv G q p ls (work q) Q E); done).
        destruct (advance_qinv G r _ Sh Q1) as [Q2 St2].
        assert (∀ p' w', has (advance_round r (Queue (work q) ls)) p' w' <-> has q p' w') as Hs by (intros; by rewrite advance_has).
        specialize (IH (advance_round r (Queue (work q) ls)) s Q2 St2).
        assert (Datatypes.S (Datatypes.S (length (scheduled (advance_round r (Queue (work q) ls))))) <= fuel ∨ (1 <= fuel ∧ ∀ p0, p0 ∈ scheduled (advance_round r (Queue (work q) ls)) -> is_Some (work (advance_round r (Queue (work q) ls)) !! p0)))%nat as F2.
        { destruct ls as [|p1 ls]; [right|left; cbn in *; lia]. cbn in F. split; [lia|]. intros p0 I. destruct (advance_empty r (Queue (work q) []) Sh eq_refl) as (Is & Fl & _).
          apply Is in I as (l & I & Nl). exists l. by apply Fl. }
        destruct (IH F2) as [[Nh (q' & Eq & X)]|(p1 & l1 & q1 & ls1 & A1 & A2 & A3 & A4 & A5 & A6 & A8 & A7)].
        * left. split; [intros p' w'; by rewrite <- Hs|]. by exists q'.
        * right. exists p1, l1, q1, ls1. split; [done|]. split; [done|]. split; [intros; by rewrite A3|]. split; [done|]. split; [done|]. split; [done|].
          split; [by rewrite A8, advance_items|].
          intros o p' k [w Ho] Bo. apply A7; [exists w; by apply Hs|].
          assert (o ≠ p) as Nop by (intros ->; destruct Ho as (l & Ho & _); congruence).
          destruct ls as [|p2 ls].
          { destruct (advance_empty r (Queue (work q) []) Sh eq_refl) as (Is & _ & _). left. split.
            - apply Is. destruct Ho as (l & Ho & I). exists l. split; [done|]. intros ->. by apply elem_of_nil in I.
            - intros _. destruct Bo as [[Bo _]|(_ & Bo & _)]; [|done]. rewrite E in Bo. apply elem_of_list_singleton in Bo. done. }
          rewrite advance_nonempty by done. assert (may G (Queue (work q) (p2 :: ls)) p' -> may G q p') as My.
          { intros [Ng [I|I]]; (split; [done|]); [left; rewrite E; by constructor|by right]. }
          destruct Bo as [[I Bo]|(I & B1 & Bo)].
          -- left. cbn. rewrite E in I. apply elem_of_cons in I as [I|I]; [done|]. split; [done|]. intros M. by apply Bo, My.
          -- right. cbn. split; [intros J; apply I; rewrite E; by constructor|]. split; [done|]. intros M. by apply Bo, My.
  Qed.
  (** The peer that is served *)
  Lemma serve_has r (q : queue) p l' ls p' w : shuffles r -> scheduled q = p :: ls -> has (advance_round r (Queue (<[p := l']> (work q)) ls)) p' w <-> (p' = p ∧ w ∈ l') ∨ (p' ≠ p ∧ has q p' w).
  Proof.
    intros Sh E. rewrite advance_has by done. unfold has. cbn. setoid_rewrite lookup_insert_Some. split.
    - intros (l & [[<- <-]|[N L]] & I); [by left|right; split; [done|by exists l]].
    - intros [[-> I]|(N & l & L & I)]; [exists l'; split; [by left|done]|exists l; split; [by right|done]].
  Qed.
  Lemma serve_qinv G r (q : queue) p l l' ls : shuffles r -> qinv G q -> scheduled q = p :: ls -> work q !! p = Some l ->
    qinv G (advance_round r (Queue (<[p := l']> (work q)) ls)) ∧ settled (advance_round r (Queue (<[p := l']> (work q)) ls)).
  Proof.
    intros Sh Q E L. apply advance_qinv; [done|]. apply (pop_qinv G q p ls _ Q E).
    - intros p' N. by rewrite lookup_insert_ne.
    - intros Gp. by rewrite (q_gone _ _ Q p Gp) in L.
  Qed.
  Lemma serve_bound G r (q : queue) p l l' ls o p' k : shuffles r -> qinv G q -> scheduled q = p :: ls -> work q !! p = Some l -> o ≠ p -> (∃ w, has q o w) -> bound G q o p' k ->
    if decide (p' = p) then (1 <= k)%nat ∧ bound G (advance_round r (Queue (<[p := l']> (work q)) ls)) o p' (k - 1)
    else bound G (advance_round r (Queue (<[p := l']> (work q)) ls)) o p' k.
  Proof.
    intros Sh Q E L No [w Ho] Bo. assert (¬ G p) as NG by (intros Gp; by rewrite (q_gone _ _ Q p Gp) in L).
    pose proof (q_nodup _ _ Q) as ND. rewrite E in ND. apply NoDup_cons in ND as [Np _].
    assert (o ∈ scheduled q <-> o ∈ ls) as Io by (rewrite E, elem_of_cons; naive_solver).
    assert (may G q p) as Mp by (split; [done|left; rewrite E; constructor]).
    destruct ls as [|p2 ls].
    - assert (o ∉ scheduled q) as Io' by (rewrite Io; by intros ?%elem_of_nil). destruct Bo as [[? _]|(_ & B1 & B2)]; [done|].
      set (q2 := Queue (<[p := l']> (work q)) []). destruct (advance_empty r q2 Sh eq_refl) as (Is & _ & _).
      assert (o ∈ scheduled (advance_round r q2)) as Io2.
      { apply Is. destruct Ho as (lo & Ho & I). exists lo. cbn. rewrite lookup_insert_ne by done. split; [done|]. intros ->. by apply elem_of_nil in I. }
      destruct (decide (p' = p)) as [->|N].
      + specialize (B2 Mp). split; [lia|]. left. split; [done|]. intros _. lia.
      + left. split; [done|]. intros _. done.
    - rewrite advance_nonempty by done. destruct (decide (p' = p)) as [->|N].
      + assert (¬ may G (Queue (<[p := l']> (work q)) (p2 :: ls)) p) as Nm by (intros [_ [I|I]]; [done|cbn in I; by rewrite lookup_insert in I]).
        destruct Bo as [[I Bo]|(I & B1 & B2)].
        * split; [by apply Bo|]. left. split; [by apply Io|]. intros M. by destruct Nm.
        * specialize (B2 Mp). split; [done|]. right. split; [by rewrite <- Io|]. split; [lia|]. intros M. by destruct Nm.
      + assert (may G (Queue (<[p := l']> (work q)) (p2 :: ls)) p' -> may G q p') as My.
        { intros [Ng [I|I]]; (split; [done|]); [left; rewrite E; by constructor|right; cbn in I; by rewrite lookup_insert_ne in I]. }
        destruct Bo as [[I Bo]|(I & B1 & B2)].
        * left. split; [by apply Io|]. intros M. by apply Bo, My.
        * right. split; [by rewrite <- Io|]. split; [done|]. intros M. by apply B2, My.
  Qed.
  Lemma insert_bound G r p w (q : queue) o p' k : ¬ G p -> (∃ w, has q o w) -> bound G q o p' k -> bound G (insert less r p w q) o p' k.
  Proof.
    intros NG [wo (lo & Ho & _)] Bo. pose proof (insert_scheduled r p w q) as Pm. pose proof (insert_work r p w q) as Wk.
    assert (o ∈ scheduled (insert less r p w q) <-> o ∈ scheduled q) as Io.
    { rewrite Pm. destruct (decide (work q !! p = None)) as [X|X]; [|done]. rewrite elem_of_cons. split; [|by right]. intros [->|?]; [congruence|done]. }
    assert (may G (insert less r p w q) p' -> may G q p') as My.
    { intros [Ng [I|I]]; (split; [done|]).
      - rewrite Pm in I. destruct (decide (work q !! p = None)) as [X|X]; [|by left]. apply elem_of_cons in I as [->|I]; [by right|by left].
      - rewrite Wk in I. destruct (decide (p' = p)); [done|]. by right. }
    destruct Bo as [[I Bo]|(I & B1 & B2)].
    - left. rewrite Io. split; [done|]. intros M. by apply Bo, My.
    - right. rewrite Io. split; [done|]. split; [done|]. intros M. by apply B2, My.
  Qed.

  (** A peer that leaves *)
  Lemma remove_peer_spec (G : P -> Prop) o (q : queue) : qinv G q -> settled q -> qinv (fun p => G p ∨ p = o) (remove_peer o q) ∧ settled (remove_peer o q) ∧ ∀ p w, has (remove_peer o q) p w <-> p ≠ o ∧ has q p w.
  Proof.
    intros [N E Gn Sc] St. split; [constructor; cbn|split].
    - done.
    - intros p I. rewrite lookup_delete_Some. intros [_ X]. by apply (E p I).
    - intros p [Gp| ->]; [|apply lookup_delete]. apply lookup_delete_None. right. by apply Gn.
    - intros p I. destruct (decide (p = o)) as [->|Np]; [right; by right|]. destruct (Sc p I) as [X|X]; [left; by rewrite lookup_delete_ne|right; by left].
    - intros X. cbn in *. rewrite (St X). apply delete_empty.
    - intros p w. unfold has. cbn. setoid_rewrite lookup_delete_Some. split; [intros (l & [Np L] & I); split; [done|by exists l]|intros (Np & l & L & I); by exists l].
  Qed.
  Lemma remove_peer_bound G o (q : queue) o' p k : bound G q o' p k -> bound (fun p => G p ∨ p = o) (remove_peer o q) o' p k.
  Proof.
    intros Bo. assert (may (fun p => G p ∨ p = o) (remove_peer o q) p -> may G q p) as My.
    { intros [Ng X]. split; [intros ?; apply Ng; by left|]. destruct X as [X|X]; [by left|]. right. cbn in X. rewrite lookup_delete_ne in X; [done|]. intros ->. apply Ng. by right. }
    destruct Bo as [[I Bo]|(I & B1 & B2)]; [left|right]; (split; [done|]); [intros M; by apply Bo, My|]. split; [done|]. intros M. by apply B2, My.
  Qed.
  Lemma qinv_ext (G G' : P -> Prop) (q : queue) : (∀ p, G p <-> G' p) -> qinv G q -> qinv G' q.
  Proof. intros X [N E Gn Sc]. constructor; [done|done| |]; intros p; rewrite <- X; [apply Gn|apply Sc]. Qed.
  Lemma bound_ext (G G' : P -> Prop) (q : queue) o p k : (∀ p, G p <-> G' p) -> bound G q o p k -> bound G' q o p k.
  Proof. intros X. unfold bound, may. by rewrite X. Qed.
  Lemma no_work_qinv G : qinv G no_work ∧ settled (no_work : queue).
  Proof. split; [|done]. constructor; cbn; [constructor| |intros; apply lookup_empty|]; intros p I; by apply elem_of_nil in I. Qed.

End Queue.

(** * The mempool *)
Section Mempool.
  Context {T P D : Type} `{Countable T} `{Countable P} `{Countable D} (less : T -> T -> bool).
  Notation entry := (entry T D).
  Notation mempool := (mempool T P D).
  Notation event := (event T P D).
  Notation answer := (answer T P D).

  Record pinv (G : P -> Prop) (p : pool T P D) : Prop := Pinv {
    p_books : books p;
    p_len : N.of_nat (len p) <= CAPACITY;
    p_all : ∀ e, e ∈ txs p -> size e <= MAX_SIZE ∧ ¬ G (origin e) }.
  Record minv (G : P -> Prop) (s : mempool) : Prop := Minv { m_pool : pinv G (orphans s); m_queue : qinv G (todo s); m_settled : settled (todo s) }.
  Lemma pinv_sub G p p' : pinv G p -> books p' -> (∀ e, e ∈ txs p' -> e ∈ txs p) -> (len p' <= len p)%nat -> pinv G p'.
  Proof. intros [B L A] B' Sb Le. constructor; [done|lia|]. intros e I. by apply A, Sb. Qed.

  (** ** What a peer's items lead to *)
  Lemma pick_of_consider o : ∀ l (p : pool T P D), books p -> ∃ p' l' x, pick_of (consider o) l p = Ok (p', l', x) ∧ books p' ∧
    match x with
    | None => p' = p ∧ l' = [] ∧ ∀ id, id ∈ l -> contains id p = false
    | Some c => ∃ pre w, l = pre ++ w :: l' ∧ (∀ id, id ∈ pre -> contains id p = false) ∧
        match c with
        | NotReady id => id = w ∧ p' = p ∧ ∃ e, e ∈ txs p ∧ eid e = w ∧ is_ready e p = false
        | Again e => eid e = w ∧ e ∈ txs p ∧ is_ready e p = true ∧ txs p ≡ₚ e :: txs p'
        end
    end.
  Proof.
    intros l. induction l as [|w l IH]; intros p B; cbn [pick_of].
    - exists p, [], None. split; [done|]. split; [done|]. split; [done|]. split; [done|]. intros id I. by apply elem_of_nil in I.
    - unfold consider at 1. destruct (by_id p !! w) as [i|] eqn:Ei.
      + destruct (by_id_entry p w i B Ei) as (e & Ee & Q). unfold get_at. rewrite Ee. cbn [expect rbind]. destruct (is_ready e p) eqn:Rd.
        * destruct (remove_at_spec i e p B Ee) as (p' & -> & B' & Pm). cbn [rbind]. exists p', l, (Some (Again e)). split; [done|]. split; [done|].
          exists [], w. split; [done|]. split; [intros id I; by apply elem_of_nil in I|]. split; [done|]. split; [by apply elem_of_list_lookup_2 in Ee|]. done.
        * cbn [rbind]. exists p, l, (Some (NotReady w)). split; [done|]. split; [done|]. exists [], w. split; [done|]. split; [intros id I; by apply elem_of_nil in I|].
          split; [done|]. split; [done|]. exists e. split; [by apply elem_of_list_lookup_2 in Ee|]. done.
      + cbn [rbind]. assert (contains w p = false) as Cw by (unfold contains; apply bool_decide_eq_false; rewrite Ei; by intros []).
        destruct (IH p B) as (p' & l' & x & -> & B' & X). exists p', l', x. split; [done|]. split; [done|]. destruct x as [c|].
        * destruct X as (pre & w' & -> & Np & X). exists (w :: pre), w'. split; [done|]. split; [|done]. intros id I. apply elem_of_cons in I as [->|I]; [done|by apply Np].
        * destruct X as (-> & -> & X). split; [done|]. split; [done|]. intros id I. apply elem_of_cons in I as [->|I]; [done|by apply X].
  Qed.

  (** ** The children of an accepted transaction *)
  Lemma enqueue_fold G r (q : queue P T) : ∀ l : list (entry P), (∀ c, c ∈ l -> ¬ G (origin c)) -> qinv G q -> settled q ->
    let q' := foldl (fun q c => insert less r (origin c) (eid c) q) q l in qinv G q' ∧ settled q' ∧
    (∀ o id, has q' o id <-> has q o id ∨ ∃ c, c ∈ l ∧ origin c = o ∧ eid c = id) ∧
    (∀ o p k, (∃ w, has q o w) -> bound G q o p k -> bound G q' o p k).
  Proof.
    intros l. revert q. induction l as [|c l IH]; intros q NG Q St; cbn.
    - split; [done|]. split; [done|]. split; [|done]. intros o id. split; [by left|]. intros [X|(c & I & _)]; [done|by apply elem_of_nil in I].
    - destruct (insert_qinv less G r (origin c) (eid c) q) as [Q1 St1]; [apply NG; constructor|done|done|].
      destruct (IH (insert less r (origin c) (eid c) q)) as (Q2 & St2 & Hs & Bd); [intros c' I; apply NG; by constructor|done|done|].
      split; [done|]. split; [done|]. split.
      + intros o id. rewrite Hs, insert_has. split.
        * intros [[[-> ->]|X]|(c' & I & X)]; [right; exists c; split; [constructor|done]|by left|right; exists c'; split; [by constructor|done]].
        * intros [X|(c' & I & <- & <-)]; [left; by right|]. apply elem_of_cons in I as [->|I]; [left; by left|]. right. by exists c'.
      + intros o p k [w Ho] Bo. apply Bd; [exists w; apply insert_has; by right|]. apply insert_bound; [apply NG; constructor|by exists w|done].
  Qed.
  Lemma enqueue_spec {O} G r (e : entry O) s : minv G s -> ∃ s', enqueue_children less r e s = Ok s' ∧ orphans s' = orphans s ∧ minv G s' ∧
    (∀ o id, has (todo s') o id <-> has (todo s) o id ∨ ∃ c, c ∈ txs (orphans s) ∧ child_of e c ∧ origin c = o ∧ eid c = id) ∧
    (∀ o p k, (∃ w, has (todo s) o w) -> bound G (todo s) o p k -> bound G (todo s') o p k).
  Proof.
    intros [Pi Q St]. unfold enqueue_children. destruct (children_of_spec e (orphans s) (p_books _ _ Pi)) as (l & -> & Cl). cbn [rbind]. eexists. split; [done|]. split; [done|].
    destruct (enqueue_fold G r (todo s) l) as (Q' & St' & Hs & Bd); [intros c I; apply Cl in I as [I _]; by apply (p_all _ _ Pi c)|done|done|].
    split; [by constructor|]. split; [|done]. intros o id. cbn. rewrite Hs. split.
    - intros [X|(c & I & X)]; [by left|]. right. exists c. apply Cl in I as [I C]. done.
    - intros [X|(c & I & C & X)]; [by left|]. right. exists c. split; [by apply Cl|done].
  Qed.
  Lemma orphan_policy_spec (e : entry (option P)) ot rp : (∃ o, orphan_policy e ot rp = Ok (set_origin o e) ∧ origin e = Some o ∧ size e <= MAX_SIZE ∧ (∀ g, ot = AccountNonceGap g -> g <= MAX_GAP) ∧ rp = true) ∨
    (∃ x, orphan_policy e ot rp = Err x ∧ x ≠ Full).
  Proof.
    unfold orphan_policy. destruct (origin e) as [o|]; [|right; by eexists]. unfold ensure. destruct (size e <=? MAX_SIZE) eqn:S1; cbn; [|right; by eexists].
    destruct (match ot with AccountNonceGap gap => gap <=? MAX_GAP | MissingUtxo => true end) eqn:S2; cbn; [|right; by eexists].
    destruct rp; cbn; [|right; by eexists]. left. exists o. split; [done|]. split; [done|]. split; [by apply N.leb_le|]. split; [|done]. intros g ->. by apply N.leb_le.
  Qed.
  Lemma finalize_spec G r now (e : entry (option P)) out s : minv G s -> (∀ o, origin e = Some o -> ¬ G o) -> ∃ s' a, finalize less r now e out s = Ok (s', a) ∧ minv G s' ∧
    (∀ o w, has (todo s) o w -> has (todo s') o w) ∧ (∀ o p k, (∃ w, has (todo s) o w) -> bound G (todo s) o p k -> bound G (todo s') o p k) ∧
    (orphans s' = orphans s ∨ (todo s' = todo s ∧ (len (orphans s') <= S (len (orphans s)))%nat)).
  Proof.
    intros M NG. unfold finalize. destruct out as [| |[ot|] rp].
    - destruct (enqueue_spec G r e s M) as (s' & -> & Eo & M' & Hs & Bd). cbn [rbind]. eexists s', _. split; [done|]. split; [done|]. split; [intros; apply Hs; by left|]. split; [done|]. by left.
    - eexists s, _. split; [done|]. split; [done|]. split; [done|]. split; [done|]. by left.
    - destruct (orphan_policy_spec e ot rp) as [(o & -> & Eo & Sz & _)|(x & -> & _)].
      + destruct M as [Pi Q St]. destruct (insert_and_enforce_spec r (set_origin o e) now (orphans s) (p_books _ _ Pi) (p_len _ _ Pi)) as (p' & rm1 & rm2 & -> & B' & Pm & L' & X1 & X2 & X3).
        cbn [rbind]. eexists _, _. split; [done|]. split.
        * constructor; cbn; [|done|done]. constructor; [done|done|]. intros e' I. assert (e' ∈ rm1 ++ rm2 ++ txs p') as J by (apply elem_of_app; right; apply elem_of_app; by right).
          rewrite <- Pm in J. destruct (contains _ _); [by apply (p_all _ _ Pi)|]. apply elem_of_app in J as [J|J]; [by apply (p_all _ _ Pi)|].
          apply elem_of_list_singleton in J as ->. cbn. split; [done|]. by apply NG.
        * cbn. split; [done|]. split; [done|]. right. split; [done|]. apply Permutation_length in Pm. rewrite !app_length in Pm. unfold len.
          destruct (contains _ _); [lia|]. rewrite app_length in Pm. cbn in Pm. lia.
      + eexists s, _. split; [done|]. split; [done|]. split; [done|]. split; [done|]. by left.
    - eexists s, _. split; [done|]. split; [done|]. split; [done|]. split; [done|]. by left.
  Qed.

  (** ** A unit of work *)
  Lemma work_spec G r now valid s : minv G s -> shuffles r -> ∃ s' x, perform_work_unit less r now valid s = Ok (s', x) ∧ minv G s' ∧
    match x with
    | None => orphans s' = orphans s ∧ (∀ o w, ¬ has (todo s) o w) ∧ (∀ o w, ¬ has (todo s') o w) ∧ is_empty (todo s') = true
    | Some (p, y) => ∃ q1 p1 l l', (∀ w, has (todo s) p w <-> w ∈ l) ∧ l ≠ [] ∧ pick_of (consider p) l (orphans s) = Ok (p1, l', y) ∧
        (∀ o w, has q1 o w <-> (o = p ∧ w ∈ l') ∨ (o ≠ p ∧ has (todo s) o w)) ∧ minv G (Mempool p1 q1) ∧
        (items q1 + length l = items (todo s) + length l')%nat ∧
        (∀ o p' k, o ≠ p -> (∃ w, has (todo s) o w) -> bound G (todo s) o p' k -> if decide (p' = p) then (1 <= k)%nat ∧ bound G q1 o p' (k - 1) else bound G q1 o p' k) ∧
        match y with
        | Some (Again e) => ∃ a, finalize less r now (set_origin (Some (origin e)) e) (valid e) (Mempool p1 q1) = Ok (s', a)
        | _ => s' = Mempool p1 q1
        end
    end.
  Proof.
    intros [Pi Q St] Sh. unfold perform_work_unit.
    destruct (pick_cases G r consider Sh (pick_fuel (todo s)) (todo s) (orphans s) Q St) as [[Nh (q' & -> & Q' & St' & Em & Nh')]|(p & l & q1 & ls & Q1 & E1 & Hs & L & Nl & -> & It & Bd)]; [by left| |].
    { cbn [rbind]. exists (Mempool (orphans s) q'), None. split; [done|]. split; [by constructor|]. unfold is_empty. cbn. by rewrite Em. }
    destruct (pick_of_consider p l (orphans s) (p_books _ _ Pi)) as (p1 & l' & y & Ep & B1 & X). rewrite Ep. cbn [rbind].
    set (q2 := advance_round r (Queue (<[p := l']> (work q1)) ls)). destruct (serve_qinv G r q1 p l l' ls Sh Q1 E1 L) as [Q2 St2]. fold q2 in Q2, St2.
    assert (pinv G p1) as Pi1.
    { apply (pinv_sub G (orphans s)); [done|done| |].
      - destruct y as [[e|id]|]; [|by destruct X as (? & ? & _ & _ & _ & -> & _)|by destruct X as (-> & _)].
        destruct X as (pre & w & _ & _ & _ & _ & _ & Pm). intros e' I. rewrite Pm. by constructor.
      - destruct y as [[e|id]|]; [|by destruct X as (? & ? & _ & _ & _ & -> & _)|by destruct X as (-> & _)].
        destruct X as (pre & w & _ & _ & _ & _ & _ & Pm). unfold len. rewrite Pm. cbn. lia. }
    assert (minv G (Mempool p1 q2)) as M2 by by constructor.
    assert (∀ w, has (todo s) p w <-> w ∈ l) as Hp.
    { intros w. rewrite <- Hs. unfold has. split; [intros (l0 & L0 & I); congruence|]. intros I. by exists l. }
    assert (∀ o w, has q2 o w <-> (o = p ∧ w ∈ l') ∨ (o ≠ p ∧ has (todo s) o w)) as H2.
    { intros o w. unfold q2. rewrite (serve_has r q1 p l' ls o w Sh E1). by rewrite Hs. }
    assert (items q2 + length l = items (todo s) + length l')%nat as I2.
    { unfold q2. rewrite advance_items, <- It. unfold items. cbn. by apply count_insert. }
    assert (∀ o p' k, o ≠ p -> (∃ w, has (todo s) o w) -> bound G (todo s) o p' k -> if decide (p' = p) then (1 <= k)%nat ∧ bound G q2 o p' (k - 1) else bound G q2 o p' k) as Bd2.
    { intros o p' k No [w Ho] Bo. apply (serve_bound less G r q1 p l l' ls o p' k Sh Q1 E1 L No); [exists w; by apply Hs|]. apply Bd; [by exists w|done]. }
    assert (∀ s', minv G s' -> match y with Some (Again e) => ∃ a, finalize less r now (set_origin (Some (origin e)) e) (valid e) (Mempool p1 q2) = Ok (s', a) | _ => s' = Mempool p1 q2 end ->
      ∃ q1 p1 l l', (∀ w, has (todo s) p w <-> w ∈ l) ∧ l ≠ [] ∧ pick_of (consider p) l (orphans s) = Ok (p1, l', y) ∧
        (∀ o w, has q1 o w <-> (o = p ∧ w ∈ l') ∨ (o ≠ p ∧ has (todo s) o w)) ∧ minv G (Mempool p1 q1) ∧ (items q1 + length l = items (todo s) + length l')%nat ∧
        (∀ o p' k, o ≠ p -> (∃ w, has (todo s) o w) -> bound G (todo s) o p' k -> if decide (p' = p) then (1 <= k)%nat ∧ bound G q1 o p' (k - 1) else bound G q1 o p' k) ∧
        match y with Some (Again e) => ∃ a, finalize less r now (set_origin (Some (origin e)) e) (valid e) (Mempool p1 q1) = Ok (s', a) | _ => s' = Mempool p1 q1 end) as All.
    { intros s' M' X'. exists q2, p1, l, l'. done. }
    destruct y as [[e|id]|].
    - assert (¬ G (origin e)) as NG by (destruct X as (pre & w & _ & _ & _ & I & _); by apply (p_all _ _ Pi e)).
      destruct (finalize_spec G r now (set_origin (Some (origin e)) e) (valid e) (Mempool p1 q2) M2) as (s' & a & Ef & M' & _); [intros o [= <-]; done|].
      rewrite Ef. cbn [rbind]. exists s', (Some (p, Some (Again e))). split; [done|]. split; [done|]. apply All; [done|]. by exists a.
    - eexists _, _. split; [done|]. split; [done|]. by apply All.
    - eexists _, _. split; [done|]. split; [done|]. by apply All.
  Qed.
  Lemma disconnect_spec G o s : minv G s -> ∃ s', on_peer_disconnected o s = Ok s' ∧ minv (fun p => G p ∨ p = o) s' ∧ txs (orphans s') ≡ₚ filter (fun e => origin e ≠ o) (txs (orphans s)) ∧
    (∀ p w, has (todo s') p w <-> p ≠ o ∧ has (todo s) p w) ∧ todo s' = remove_peer o (todo s).
  Proof.
    intros [Pi Q St]. unfold on_peer_disconnected. destruct (remove_by_origin_spec o (len (orphans s)) (orphans s) (p_books _ _ Pi) ltac:(lia)) as (p' & -> & B' & Pm). cbn [rbind].
    destruct (remove_peer_spec G o (todo s) Q St) as (Q' & St' & Hs). eexists. split; [done|]. cbn. split; [|done]. constructor; cbn; [|done|done].
    constructor; [done| |].
    - unfold len. rewrite Pm. pose proof (p_len _ _ Pi) as L. unfold len in L. pose proof (filter_length (fun e : entry P => origin e ≠ o) (txs (orphans s))). lia.
    - intros e I. rewrite Pm in I. apply elem_of_list_filter in I as [No I]. destruct (p_all _ _ Pi e I) as [Sz NG]. split; [done|]. by intros [?|?].
  Qed.

  (** ** What happens *)
  Lemma gone_app (tr : list (event * answer)) ev a o : gone (tr ++ [(ev, a)]) o <-> gone tr o ∨ ev = Disconnect o.
  Proof.
    unfold gone. setoid_rewrite elem_of_app. setoid_rewrite elem_of_list_singleton. split.
    - intros (a' & [I|[= <- <-]]); [left; by exists a'|by right].
    - intros [[a' I]| ->]; [exists a'; by left|exists a; by right].
  Qed.
  Lemma minv_ext (G G' : P -> Prop) s : (∀ p, G p <-> G' p) -> minv G s -> minv G' s.
  Proof. intros X [[B L A] Q St]. constructor; [|by apply (qinv_ext G)|done]. constructor; [done|done|]. intros e I. rewrite <- X. by apply A. Qed.
  Lemma step_inv tr ev s : minv (gone tr) s -> proper tr ev -> ∃ s' a, step less ev s = Ok (s', a) ∧ minv (gone (tr ++ [(ev, a)])) s'.
  Proof.
    intros M Pr. destruct ev as [r now e out|r now valid|o]; cbn in Pr |- *.
    - destruct Pr as [Sh NG]. destruct (finalize_spec (gone tr) r now e out s M NG) as (s' & a & -> & M' & _). cbn [rbind]. eexists _, _. split; [done|].
      eapply minv_ext; [|exact M']. intros p. rewrite gone_app. naive_solver.
    - destruct (work_spec (gone tr) r now valid s M Pr) as (s' & x & -> & M' & _). cbn [rbind]. eexists _, _. split; [done|].
      eapply minv_ext; [|exact M']. intros p. rewrite gone_app. naive_solver.
    - destruct (disconnect_spec (gone tr) o s M) as (s' & -> & M' & _). cbn [rbind]. eexists _, _. split; [done|].
      eapply minv_ext; [|exact M']. intros p. rewrite gone_app. naive_solver.
  Qed.
  Lemma start_inv G : minv G start.
  Proof. destruct (no_work_qinv (W := T) G) as [Q St]. constructor; [|done|done]. constructor; [apply books_empty|cbn; unfold CAPACITY; lia|]. intros e I. by apply elem_of_nil in I. Qed.
  Lemma run_inv s0 tr0 tr s : run less s0 tr0 tr s -> minv (gone tr0) s0 -> minv (gone (tr0 ++ tr)) s.
  Proof.
    intros R M. induction R as [|tr s ev s' a R IH Pr St]; [by rewrite app_nil_r|]. destruct (step_inv (tr0 ++ tr) ev s IH Pr) as (s1 & a1 & E & M1).
    rewrite St in E. injection E as <- <-. by rewrite app_assoc.
  Qed.
  Lemma history_inv tr s : history less tr s -> minv (gone tr) s.
  Proof. intros R. apply (run_inv _ _ _ _ R). apply start_inv. Qed.

  (** ** Fairness *)
  Lemma times_app o (tr : list (event * answer)) x : times_served o (tr ++ [x]) = (times_served o tr + (if serves o x then 1 else 0))%nat.
  Proof. unfold times_served. rewrite filter_app, app_length. f_equal. destruct (serves o x) eqn:E; [by rewrite filter_cons_True|]. by rewrite filter_cons_False by by rewrite E. Qed.
  Lemma fair_inv s0 tr0 tr s o : run less s0 tr0 tr s -> minv (gone tr0) s0 -> (∃ w, has (todo s0) o w) -> ¬ gone tr o -> times_served o tr = 0%nat ->
    (∃ w, has (todo s) o w) ∧ ∀ p, p ≠ o -> (times_served p tr <= 2)%nat ∧ bound (gone (tr0 ++ tr)) (todo s) o p (2 - times_served p tr).
  Proof.
    intros R M0 W0. induction R as [|tr s ev s' a R IH Pr St]; intros Ng Ts.
    - split; [done|]. intros p _. cbn. split; [lia|]. apply bound_two.
    - rewrite times_app in Ts. rewrite gone_app in Ng. destruct IH as [[w Ho] Bd]; [intros X; apply Ng; by left|lia|]. pose proof (run_inv _ _ _ _ R M0) as M.
      assert (serves o (ev, a) = false) as So by (destruct (serves o (ev, a)); [lia|done]). clear Ts.
      destruct ev as [r now e out|r now valid|o']; cbn in Pr, St.
      + destruct Pr as [Sh NG]. destruct (finalize_spec _ r now e out s M NG) as (s1 & a1 & E & _ & Hs & Bf & _). rewrite E in St. injection St as <- <-.
        split; [exists w; by apply Hs|]. intros p Np. rewrite times_app. cbn. rewrite Nat.add_0_r. destruct (Bd p Np) as [Le B]. split; [done|]. rewrite app_assoc.
        eapply bound_ext; [|apply Bf; [by exists w|exact B]]. intros p'. rewrite gone_app. naive_solver.
      + destruct (work_spec _ r now valid s M Pr) as (s1 & x & E & M1 & X). rewrite E in St. injection St as <- <-.
        destruct x as [[p y]|]; [|destruct X as (_ & X & _); by destruct (X o w)]. destruct X as (q1 & p1 & l & l' & _ & _ & Ep & Hq & M2 & _ & Bq & Fin).
        cbn in So. apply bool_decide_eq_false in So. assert (has q1 o w) as Hq1 by (apply Hq; by right).
        assert (∀ w, has q1 o w -> has (todo s1) o w) as Hs1.
        { destruct y as [[e|id]|]; [|by rewrite Fin|by rewrite Fin]. destruct Fin as [a Fin].
          destruct (finalize_spec (gone (tr0 ++ tr)) r now (set_origin (Some (origin e)) e) (valid e) (Mempool p1 q1) M2) as (s2 & a2 & E2 & _ & Hs & _).
          - intros o' [= <-]. destruct (pick_of_consider p l (orphans s) (p_books _ _ (m_pool _ _ M))) as (pa & la & ya & Ea & _ & Xa). rewrite Ea in Ep. injection Ep as -> -> ->.
            destruct Xa as (pre & wa & _ & _ & _ & Ie & _). by apply (p_all _ _ (m_pool _ _ M) e).
          - rewrite E2 in Fin. injection Fin as -> _. intros w'. apply Hs. }
        assert (∀ p' k, bound (gone (tr0 ++ tr)) q1 o p' k -> bound (gone (tr0 ++ tr)) (todo s1) o p' k) as Bs1.
        { destruct y as [[e|id]|]; [|by rewrite Fin|by rewrite Fin]. destruct Fin as [a Fin].
          destruct (finalize_spec (gone (tr0 ++ tr)) r now (set_origin (Some (origin e)) e) (valid e) (Mempool p1 q1) M2) as (s2 & a2 & E2 & _ & _ & Bf & _).
          - intros o' [= <-]. destruct (pick_of_consider p l (orphans s) (p_books _ _ (m_pool _ _ M))) as (pa & la & ya & Ea & _ & Xa). rewrite Ea in Ep. injection Ep as -> -> ->.
            destruct Xa as (pre & wa & _ & _ & _ & Ie & _). by apply (p_all _ _ (m_pool _ _ M) e).
          - rewrite E2 in Fin. injection Fin as -> _. intros p' k B. apply Bf; [by exists w|done]. }
        split; [exists w; by apply Hs1|]. intros p' Np. rewrite times_app. cbn. destruct (Bd p' Np) as [Le B]. rewrite app_assoc.
        specialize (Bq o p' _ ltac:(congruence) (ex_intro _ w Ho) B).
        assert (∀ k, bound (gone (tr0 ++ tr)) q1 o p' k -> bound (gone ((tr0 ++ tr) ++ [(Work r now valid, Served (Some (p, y)))])) (todo s1) o p' k) as Fn.
        { intros k Bk. eapply bound_ext; [|apply Bs1; exact Bk]. intros p2. rewrite gone_app. naive_solver. }
        destruct (decide (p' = p)) as [->|Npp].
        * rewrite bool_decide_true by done. destruct Bq as [Ge Bq]. split; [lia|]. apply Fn. by replace (2 - (times_served p tr + 1))%nat with (2 - times_served p tr - 1)%nat by lia.
        * rewrite bool_decide_false by done. rewrite Nat.add_0_r. split; [done|]. by apply Fn.
      + destruct (disconnect_spec _ o' s M) as (s1 & E & _ & _ & Hs & Et). rewrite E in St. injection St as <- <-.
        assert (o ≠ o') as No by (intros ->; apply Ng; by right). split; [exists w; by apply Hs|]. intros p Np. rewrite times_app. cbn. rewrite Nat.add_0_r.
        destruct (Bd p Np) as [Le B]. split; [done|]. rewrite app_assoc, Et. eapply bound_ext; [|by apply remove_peer_bound]. intros p'. rewrite gone_app. cbn. naive_solver.
  Qed.

  (** ** Nothing is forgotten *)
  Definition concerns (c : considered) (w : T) : Prop := c = NotReady w ∨ ∃ e : entry P, c = Again e ∧ eid e = w.
  Lemma not_forgotten G ev tr s s' a o w : minv G s -> proper tr ev -> (∀ p, G p <-> gone tr p) -> step less ev s = Ok (s', a) -> has (todo s) o w ->
    has (todo s') o w ∨ (∃ c, a = Served (Some (o, Some c)) ∧ concerns c w) ∨ ((∃ y, a = Served (Some (o, y))) ∧ ∀ e, e ∈ txs (orphans s) -> eid e ≠ w) ∨ ev = Disconnect o.
  Proof.
    intros M Pr GG St Ho. destruct ev as [r now e out|r now valid|o']; cbn in Pr, St.
    - destruct Pr as [Sh NG]. destruct (finalize_spec G r now e out s M) as (s1 & a1 & E & _ & Hs & _); [intros p X; rewrite GG; by apply NG|].
      rewrite E in St. injection St as <- <-. left. by apply Hs.
    - destruct (work_spec G r now valid s M Pr) as (s1 & x & E & M1 & X). rewrite E in St. injection St as <- <-.
      destruct x as [[p y]|]; [|destruct X as (_ & X & _); by destruct (X o w)]. destruct X as (q1 & p1 & l & l' & Hl & _ & Ep & Hq & M2 & _ & _ & Fin).
      destruct (pick_of_consider p l (orphans s) (p_books _ _ (m_pool _ _ M))) as (pa & la & ya & Ea & _ & Xa). rewrite Ea in Ep. injection Ep as -> -> ->.
      assert (∀ o w, has q1 o w -> has (todo s1) o w) as Hs1.
      { destruct y as [[e|id]|]; [|by rewrite Fin|by rewrite Fin]. destruct Fin as [a Fin].
        destruct (finalize_spec G r now (set_origin (Some (origin e)) e) (valid e) (Mempool p1 q1) M2) as (s2 & a2 & E2 & _ & Hs & _).
        - intros o' [= <-]. destruct Xa as (pre & wa & _ & _ & _ & Ie & _). by apply (p_all _ _ (m_pool _ _ M) e).
        - rewrite E2 in Fin. injection Fin as -> _. intros o' w'. apply Hs. }
      destruct (decide (o = p)) as [->|Np]; [|left; apply Hs1, Hq; by right]. apply Hl in Ho.
      assert (contains w (orphans s) = false -> ∀ e, e ∈ txs (orphans s) -> eid e ≠ w) as Nc.
      { intros C e I Q. assert (contains w (orphans s) = true); [|congruence]. apply contains_spec; [apply (p_books _ _ (m_pool _ _ M))|]. by exists e. }
      destruct y as [c|].
      + destruct Xa as (pre & wa & -> & Np & Xa). apply elem_of_app in Ho as [Ho|Ho]; [right; right; left; split; [by eexists|by apply Nc, Np]|].
        apply elem_of_cons in Ho as [->|Ho]; [|left; apply Hs1, Hq; by left]. right. left. exists c. split; [done|].
        destruct c as [e|id]; [right; exists e; split; [done|]; by destruct Xa|left; by destruct Xa as [-> _]].
      + destruct Xa as (_ & _ & Xa). right. right. left. split; [by eexists|]. by apply Nc, Xa.
    - destruct (disconnect_spec G o' s M) as (s1 & E & _ & _ & Hs & _). rewrite E in St. injection St as <- <-.
      destruct (decide (o = o')) as [->|No]; [by do 3 right|]. left. by apply Hs.
  Qed.

  (** ** The work ends *)
  Lemma run_cons (s0 : mempool) tr0 (ev : event) a s1 tr s : proper tr0 ev -> step less ev s0 = Ok (s1, a) -> run less s1 (tr0 ++ [(ev, a)]) tr s -> run less s0 tr0 ((ev, a) :: tr) s.
  Proof.
    intros Pr St R. induction R as [|tr s ev' s' a' R IH Pr' St'].
    - apply (run_step less s0 tr0 [] s0 ev s1 a); [constructor|by rewrite app_nil_r|done].
    - apply (run_step less s0 tr0 ((ev, a) :: tr) s ev' s' a'); [done| |done]. by rewrite <- app_assoc in Pr'.
  Qed.
  Lemma ends : ∀ n m (s : mempool) tr0, minv (gone tr0) s -> (len (orphans s) <= n)%nat -> (items (todo s) <= m)%nat -> ∀ f : nat -> event, (∀ i, ∃ r now v, f i = Work r now v ∧ shuffles r) ->
    ∃ tr s', run less s tr0 tr s' ∧ (∀ i x, tr !! i = Some x -> x.1 = f i) ∧ is_empty (todo s') = true.
  Proof.
    intros n. induction n as [n IHn] using lt_wf_ind. intros m. induction m as [m IHm] using lt_wf_ind. intros s tr0 M Ln Lm f F.
    destruct (F 0%nat) as (r & now & v & F0 & Sh). destruct (work_spec _ r now v s M Sh) as (s1 & x & E & M1 & X).
    set (x0 := (Work r now v, Served x) : event * answer). assert (step less (Work r now v) s = Ok (s1, Served x)) as St by (cbn; by rewrite E).
    assert (minv (gone (tr0 ++ [x0])) s1) as M1' by (eapply minv_ext; [|exact M1]; intros p; unfold x0; rewrite gone_app; naive_solver).
    assert ((∃ tr s', run less s1 (tr0 ++ [x0]) tr s' ∧ (∀ i y, tr !! i = Some y -> y.1 = f (S i)) ∧ is_empty (todo s') = true) ->
      ∃ tr s', run less s tr0 tr s' ∧ (∀ i x, tr !! i = Some x -> x.1 = f i) ∧ is_empty (todo s') = true) as Go.
    { intros (tr & s' & R & A & Em). exists (x0 :: tr), s'. split; [by apply (run_cons _ _ _ _ s1)|]. split; [|done]. intros [|i] y Ey; [|by apply A]. cbn in Ey. injection Ey as <-. by rewrite F0. }
    apply Go. clear Go. destruct x as [[p y]|].
    - destruct X as (q1 & p1 & l & l' & Hl & Nl & Ep & Hq & M2 & It & _ & Fin).
      destruct (pick_of_consider p l (orphans s) (p_books _ _ (m_pool _ _ M))) as (pa & la & ya & Ea & _ & Xa). rewrite Ea in Ep. injection Ep as -> -> ->.
      assert (length l' < length l)%nat as Ll.
      { destruct y as [c|]; [destruct Xa as (pre & wa & -> & _); rewrite app_length; cbn; lia|]. destruct Xa as (_ & -> & _). destruct l; [done|cbn; lia]. }
      assert (∀ i, ∃ r now v, f (S i) = Work r now v ∧ shuffles r) as F' by (intros i; apply F).
      destruct y as [[e|id]|].
      + destruct Xa as (pre & wa & -> & _ & _ & Ie & _ & Pm). pose proof (remove_at_len _ _ _ Pm) as L1. destruct Fin as [a Fin].
        destruct (finalize_spec _ r now (set_origin (Some (origin e)) e) (v e) (Mempool p1 q1) M2) as (s2 & a2 & E2 & _ & _ & _ & Le); [intros o' [= <-]; by apply (p_all _ _ (m_pool _ _ M) e)|].
        rewrite E2 in Fin. injection Fin as -> _. cbn in Le. destruct Le as [Le|[Et Le]].
        * apply (IHn (len (orphans s1)) ltac:(rewrite Le; lia) (items (todo s1)) s1 (tr0 ++ [x0]) M1' ltac:(lia) ltac:(lia) (fun i => f (S i)) F').
        * apply (IHm (items (todo s1)) ltac:(rewrite Et; lia) s1 (tr0 ++ [x0]) M1' ltac:(lia) ltac:(lia) (fun i => f (S i)) F').
      + destruct Xa as (pre & wa & -> & _ & _ & -> & _). subst s1.
        apply (IHm (items q1) ltac:(lia) _ (tr0 ++ [x0]) M1' ltac:(cbn; lia) ltac:(cbn; lia) (fun i => f (S i)) F').
      + destruct Xa as (-> & -> & _). subst s1. apply (IHm (items q1) ltac:(lia) _ (tr0 ++ [x0]) M1' ltac:(cbn; lia) ltac:(cbn; lia) (fun i => f (S i)) F').
    - exists [], s1. split; [constructor|]. split; [intros i y Ey; by rewrite lookup_nil in Ey|]. by destruct X as (_ & _ & _ & X).
  Qed.
End Mempool.
