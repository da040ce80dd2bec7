From Verif Require Import Base ConstraintsProofs KeyChainModel KeyChainSpec.
Local Open Scope N_scope.

Lemma foldl_insert {A} {T} `{Countable T} {V} (f : A -> T) (g : A -> V) (l : list A) (m : gmap T V) k v :
  (∀ x y, x ∈ l -> y ∈ l -> f x = f y -> g x = g y) ->
  (∀ x w, x ∈ l -> m !! f x = Some w -> w = g x) ->
  foldl (fun m x => <[f x := g x]> m) m l !! k = Some v <-> m !! k = Some v ∨ ∃ x, x ∈ l ∧ f x = k ∧ g x = v.
Proof.
  revert m. induction l as [|x l IH]; intros m D M.
  - cbn. split; [by left|]. intros [?|(x & I & _)]; [done|]. by apply elem_of_nil in I.
  - cbn. rewrite IH.
    + rewrite lookup_insert_Some. split.
      * intros [[(E & F)|(E & F)]|(y & I & E)].
        -- right. exists x. split; [constructor|done].
        -- by left.
        -- right. exists y. split; [by constructor|done].
      * intros [F|(y & I & E & G)].
        -- destruct (decide (f x = k)) as [E|E]; [|by left; right].
           left. left. split; [done|]. symmetry. apply (M x v); [constructor|by rewrite E].
        -- apply elem_of_cons in I as [->|I]; [by left; left|]. right. eauto.
    + intros y z I J. apply D; by constructor.
    + intros y w I F. apply lookup_insert_Some in F as [(E & <-)|(E & F)].
      * apply D; [constructor|by constructor|done].
      * apply (M y w); [by constructor|done].
Qed.

Definition limit (L : N) (u : option N) : N := match u with None => L | Some u => u + L + 1 end.
Definition cap (n : N) : N := N.min n (2 ^ 31).

Definition ole (a b : option N) : Prop := match a, b with Some a, Some b => a <= b | Some _, None => False | None, _ => True end.
Definition omax (a : option N) (i : N) : option N := Some (match a with Some a => N.max a i | None => i end).

Lemma cap_le a b : a <= b -> cap a <= cap b.
Proof. unfold cap. lia. Qed.

Lemma ole_trans a b c : ole a b -> ole b c -> ole a c.
Proof. destruct a, b, c; cbn; try done. lia. Qed.
Lemma ole_refl a : ole a a.
Proof. destruct a; cbn; [lia|done]. Qed.
Lemma ole_omax a i : ole a (omax a i).
Proof. destruct a; cbn; [lia|done]. Qed.

Section Proofs.
  Context {K H : Type} `{Countable K, Countable H} (key : purpose -> N -> K) (hash : K -> H).
  Notation leaf' := (leaf (K := K) (H := H)).
  Notation stored' := (stored_leaf (K := K)).
  Notation s' := (leaf' * stored')%type.
  Notation dest' := (dest (K := K) (H := H)).
  Notation distinct := (distinct_addresses key hash).

  Lemma top_val : U31_TOP = 2 ^ 31 - 1.
  Proof. reflexivity. Qed.
  Lemma top32_val : U32_TOP = 2 ^ 32 - 1.
  Proof. reflexivity. Qed.

  (** The indices below [n] are derived, stored and found *)
  Record range (p : purpose) (n : N) (s : s') : Prop := Range {
    r_small : n <= 2 ^ 31;
    r_derived : ∀ i k, derived (fst s) !! i = Some k <-> i < n ∧ key p i = k;
    r_key : ∀ k i, by_key (fst s) !! k = Some i <-> i < n ∧ key p i = k;
    r_hash : ∀ h i, by_hash (fst s) !! h = Some i <-> i < n ∧ hash (key p i) = h;
    r_stored : d_keys (snd s) = derived (fst s);
    r_use : d_use (snd s) = use (fst s) }.

  Lemma distinct_hash (D : distinct) p i q j : i < 2 ^ 31 -> j < 2 ^ 31 -> hash (key p i) = hash (key q j) -> p = q ∧ i = j.
  Proof. apply D. Qed.
  Lemma distinct_key (D : distinct) p i q j : i < 2 ^ 31 -> j < 2 ^ 31 -> key p i = key q j -> p = q ∧ i = j.
  Proof. intros I J E. apply D; [done|done|by rewrite E]. Qed.

  Lemma range_use p n s u : range p n s -> range p n (set_use u s).
  Proof. intros [R0 R1 R2 R3 R4 R5]. by constructor. Qed.

  Lemma derive_in p n s i : range p n s -> i < n -> derive_and_add key hash p i s = (key p i, s).
  Proof.
    intros R L. unfold derive_and_add. destruct s as [l d].
    pose proof (proj2 (r_derived _ _ _ R i (key p i)) (conj L eq_refl)) as E. cbn in E. by rewrite E.
  Qed.
  Lemma derive_next (D : distinct) p n s : range p n s -> n < 2 ^ 31 ->
    ∃ s1, derive_and_add key hash p n s = (key p n, s1) ∧ range p (n + 1) s1 ∧ use (fst s1) = use (fst s).
  Proof.
    intros R T. unfold derive_and_add. destruct s as [l d]. destruct R as [R0 R1 R2 R3 R4 R5]. cbn [fst snd] in *.
    destruct (derived l !! n) as [k|] eqn:E.
    { apply R1 in E as [E _]. lia. }
    eexists. split; [reflexivity|]. split; [|reflexivity]. constructor; cbn [fst snd derived by_key by_hash use d_keys d_use].
    - lia.
    - intros i k. rewrite lookup_insert_Some, R1. split.
      + intros [[<- <-]|[N [L ?]]]; [split; [lia|done]|split; [lia|done]].
      + intros [L <-]. destruct (decide (n = i)) as [<-|N]; [by left|]. right. split; [done|]. split; [lia|done].
    - intros k i. rewrite lookup_insert_Some, R2. split.
      + intros [[<- <-]|[N [L ?]]]; [split; [lia|done]|split; [lia|done]].
      + intros [L <-]. destruct (decide (key p n = key p i)) as [Q|Q].
        * left. split; [done|]. apply (distinct_key D) in Q as [_ ->]; [done|lia|lia].
        * right. split; [done|]. split; [|done]. destruct (decide (i = n)) as [->|]; [done|lia].
    - intros h i. rewrite lookup_insert_Some, R3. split.
      + intros [[<- <-]|[N [L ?]]]; [split; [lia|done]|split; [lia|done]].
      + intros [L <-]. destruct (decide (hash (key p n) = hash (key p i))) as [Q|Q].
        * left. split; [done|]. apply (distinct_hash D) in Q as [_ ->]; [done|lia|lia].
        * right. split; [done|]. split; [|done]. destruct (decide (i = n)) as [->|]; [done|lia].
    - by rewrite R4.
    - done.
  Qed.

  Lemma derive_range_spec (D : distinct) p c : ∀ i s, range p (cap i) s ->
    range p (cap (i + N.of_nat c)) (derive_range key hash p c i s) ∧ use (fst (derive_range key hash p c i s)) = use (fst s).
  Proof.
    induction c as [|c IH]; intros i s R.
    - cbn [derive_range]. replace (i + N.of_nat 0) with i by lia. done.
    - cbn [derive_range]. replace (i + N.of_nat (S c)) with (i + 1 + N.of_nat c) by lia. rewrite top_val.
      destruct (i <=? 2 ^ 31 - 1) eqn:E.
      + apply N.leb_le in E. destruct (derive_next D p (cap i) s R) as (s1 & E1 & R1 & U1); [unfold cap; lia|].
        replace (cap i) with i in E1 by (unfold cap; lia). rewrite E1. cbn [snd].
        replace (cap i + 1) with (cap (i + 1)) in R1 by (unfold cap; lia).
        destruct (IH _ _ R1) as [R2 U2]. split; [done|]. by rewrite U2.
      + apply N.leb_gt in E. apply IH. by replace (cap (i + 1)) with (cap i) by (unfold cap; lia).
  Qed.

  Lemma last_derived_spec p n s : range p n s -> last_derived (fst s) = if n =? 0 then None else Some (n - 1).
  Proof.
    intros R. unfold last_derived.
    assert (∀ (m : gmap N K), match map_fold (fun i (_ : K) acc => Some (match acc with Some m => N.max i m | None => i end)) None m with
      | None => m = ∅ | Some x => (∃ k, m !! x = Some k) ∧ ∀ j k, m !! j = Some k -> j <= x end) as G.
    { intros m. apply (map_fold_ind (fun (r : option N) (m : gmap N K) => match r with
        | None => m = ∅ | Some x => (∃ k, m !! x = Some k) ∧ ∀ j k, m !! j = Some k -> j <= x end)); [done|].
      intros i x m1 r F I. destruct r as [y|].
      - destruct I as [[k Y] B]. split.
        + destruct (N.max_spec i y) as [[_ ->]|[_ ->]].
          * exists k. rewrite lookup_insert_ne; [done|]. intros ->. by rewrite F in Y.
          * exists x. by rewrite lookup_insert.
        + intros j k' J. apply lookup_insert_Some in J as [[<- _]|[_ J]]; [lia|]. pose proof (B _ _ J). lia.
      - subst m1. split; [exists x; by rewrite lookup_insert|]. intros j k' J.
        apply lookup_insert_Some in J as [[<- _]|[_ J]]; [lia|]. by rewrite lookup_empty in J. }
    specialize (G (derived (fst s))). destruct (map_fold _ _ _) as [x|].
    - destruct G as [[k Y] B]. apply (r_derived _ _ _ R) in Y as [Y _].
      destruct (n =? 0) eqn:E; [apply N.eqb_eq in E; lia|]. apply N.eqb_neq in E. f_equal.
      pose proof (B (n - 1) (key p (n - 1))) as M. rewrite (r_derived _ _ _ R) in M. assert (n - 1 < n) as Q by lia. specialize (M (conj Q eq_refl)). lia.
    - destruct (n =? 0) eqn:E; [done|]. apply N.eqb_neq in E.
      assert (0 < n) as Q by lia. pose proof (proj2 (r_derived _ _ _ R 0 (key p 0)) (conj Q eq_refl)) as F. rewrite G, lookup_empty in F. done.
  Qed.

  Lemma u32_add_ok a b : a + b < 2 ^ 32 -> u32_add a b = Ok (a + b).
  Proof. intros L. unfold u32_add, checked_add. rewrite top32_val. by rewrite (proj2 (N.leb_le _ _)) by lia. Qed.

  Context (L : N).

  Lemma top_up_spec (D : distinct) (LB : L < 2 ^ 31) p n s : range p n s -> n <= cap (limit L (last_used (use (fst s)))) ->
    (∀ u, last_used (use (fst s)) = Some u -> u < 2 ^ 31) ->
    ∃ s1, top_up key hash p L s = Ok s1 ∧ range p (cap (limit L (last_used (use (fst s))))) s1 ∧ use (fst s1) = use (fst s).
  Proof.
    intros R Le B. unfold top_up. rewrite (last_derived_spec _ _ _ R).
    assert ((match (if n =? 0 then None else Some (n - 1)) with None => Ok 0 | Some i => u32_add i 1 end) = Ok (E := key_err) n) as ->.
    { pose proof (r_small _ _ _ R). destruct (n =? 0) eqn:E.
      - apply N.eqb_eq in E. by rewrite E.
      - apply N.eqb_neq in E. rewrite u32_add_ok by lia. f_equal. lia. }
    cbn [rbind].
    assert ((match last_used (use (fst s)) with None => Ok L | Some u => let? x := u32_add u L in u32_add x 1 end) = Ok (E := key_err) (limit L (last_used (use (fst s))))) as ->.
    { destruct (last_used (use (fst s))) as [u|] eqn:E; [|done]. specialize (B _ eq_refl).
      rewrite u32_add_ok by lia. cbn [rbind]. rewrite u32_add_ok by lia. done. }
    cbn [rbind]. set (t := limit L (last_used (use (fst s)))) in *. pose proof (r_small _ _ _ R) as Sm.
    replace n with (cap n) in R by (unfold cap; lia).
    destruct (derive_range_spec D p (N.to_nat (t - n)) n s R) as [R1 U1].
    eexists. split; [reflexivity|]. split; [|done].
    replace (cap t) with (cap (n + N.of_nat (N.to_nat (t - n)))); [done|]. rewrite N2Nat.id. unfold cap in *. lia.
  Qed.

  (** The state of one chain *)
  Record good (p : purpose) (u iss : option N) (s : s') : Prop := Good {
    g_use : use (fst s) = Usage u iss;
    g_range : range p (cap (limit L u)) s;
    g_ole : ole u iss;
    g_used : ∀ i, u = Some i -> i < 2 ^ 31;
    g_iss : ∀ i, iss = Some i -> i < cap (limit L u) }.

  Lemma load_good (D : distinct) p u iss s l : good p u iss s -> l = load_leaf hash (snd s) -> good p u iss (l, snd s) ∧ (l, snd s) = s.
  Proof.
    intros [U R O B I] E. cut (l = fst s).
    { intros F. assert ((l, snd s) = s) as Q by (rewrite F; by destruct s). split; [|done]. rewrite Q. by constructor. }
    subst l. destruct R as [R0 R1 R2 R3 R4 R5]. destruct s as [l d]. cbn [fst snd] in *. unfold load_leaf.
    assert (∀ k i, foldl (λ (m : gmap K N) (p0 : N * K), <[p0.2:=p0.1]> m) ∅ (map_to_list (d_keys d)) !! k = Some i <-> i < cap (limit L u) ∧ key p i = k) as BK.
    { intros k i. rewrite (foldl_insert (fun p0 : N * K => p0.2) (fun p0 : N * K => p0.1)).
      - split.
        + intros [F|([j k1] & J & E1 & E2)]; [by rewrite lookup_empty in F|]. cbn in E1, E2. subst. apply elem_of_map_to_list in J. rewrite R4 in J. by apply R1 in J.
        + intros J. right. exists (i, k). split; [|done]. apply elem_of_map_to_list. rewrite R4. by apply R1.
      - intros [j1 k1] [j2 k2] J1 J2 E. cbn in E |- *. subst k2. apply elem_of_map_to_list in J1, J2. rewrite R4 in J1, J2.
        apply R1 in J1 as [L1 E1], J2 as [L2 E2]. rewrite <- E2 in E1. apply (distinct_key D) in E1 as [_ ->]; [done|lia|lia].
      - intros x w _ F. by rewrite lookup_empty in F. }
    assert (foldl (λ (m : gmap K N) (p0 : N * K), <[p0.2:=p0.1]> m) ∅ (map_to_list (d_keys d)) = by_key l) as EK.
    { apply map_eq. intros k. apply option_eq. intros i. by rewrite BK, R2. }
    rewrite EK.
    assert (foldl (λ (m : gmap H N) (p0 : K * N), <[hash p0.1:=p0.2]> m) ∅ (map_to_list (by_key l)) = by_hash l) as ->.
    { apply map_eq. intros h. apply option_eq. intros i. rewrite R3.
      rewrite (foldl_insert (fun p0 : K * N => hash p0.1) (fun p0 : K * N => p0.2)).
      - split.
        + intros [F|([k1 j] & J & E1 & E2)]; [by rewrite lookup_empty in F|]. cbn in E1, E2. subst. apply elem_of_map_to_list, R2 in J as [J <-]. done.
        + intros [J Q]. right. exists (key p i, i). split; [|done]. apply elem_of_map_to_list. by apply R2.
      - intros [k1 j1] [k2 j2] J1 J2 E. cbn in E |- *. apply elem_of_map_to_list, R2 in J1 as [L1 <-]. apply elem_of_map_to_list, R2 in J2 as [L2 <-].
        apply (distinct_hash D) in E as [_ ->]; [done|lia|lia].
      - intros x w _ F. by rewrite lookup_empty in F. }
    rewrite R4, R5. by destruct l.
  Qed.

  Lemma used_up_to_spec u iss i : ole u iss -> used_up_to i (Usage u iss) = Usage (omax u i) (omax iss i).
  Proof.
    intros O. unfold used_up_to, issued_up_to. cbn [last_used last_issued]. destruct u as [u|]; cbn [omax].
    - destruct iss as [x|]; [|done]. cbn in O. destruct (u <? i) eqn:E.
      + apply N.ltb_lt in E. destruct (x <? i) eqn:F.
        * apply N.ltb_lt in F. unfold omax. do 2 f_equal; lia.
        * apply N.ltb_ge in F. unfold omax. do 2 f_equal; lia.
      + apply N.ltb_ge in E. unfold omax. do 2 f_equal; lia.
    - destruct iss as [x|]; [|done]. destruct (x <? i) eqn:F.
      + apply N.ltb_lt in F. unfold omax. do 2 f_equal; lia.
      + apply N.ltb_ge in F. unfold omax. do 2 f_equal; lia.
  Qed.

  (** What the chain knows is its range *)
  Lemma child_spec (D : distinct) p n s d i : range p n s -> child_of (fst s) d = Some i <-> i < n ∧ pays key hash d p i.
  Proof.
    intros R. unfold child_of, pays. destruct d; split; try done.
    - intros [_ [?|?]]; done.
    - intros E. apply (r_hash _ _ _ R) in E as [? <-]. split; [done|by left].
    - intros [Lt [[= ->]|[=]]]. by apply (r_hash _ _ _ R).
    - intros E. apply (r_key _ _ _ R) in E as [? <-]. split; [done|by right].
    - intros [Lt [[=]|[= ->]]]. by apply (r_key _ _ _ R).
    - intros [_ [?|?]]; done.
  Qed.

  Lemma mark_used_spec (D : distinct) (LB : L < 2 ^ 31) p u iss s d : good p u iss s ->
    (∃ i s1, child_of (fst s) d = Some i ∧ mark_used key hash p L d s = Ok (true, s1) ∧ good p (omax u i) (omax iss i) s1) ∨
    (child_of (fst s) d = None ∧ mark_used key hash p L d s = Ok (false, s)).
  Proof.
    intros G. unfold mark_used. destruct (child_of (fst s) d) as [i|] eqn:C; [|by right]. left. exists i.
    pose proof C as C1. apply (child_spec D p _ _ _ _ (g_range _ _ _ _ G)) in C1 as [Lt _].
    destruct G as [U R O B I]. rewrite U, used_up_to_spec by done.
    destruct (top_up_spec D LB p _ _ (range_use _ _ _ (Usage (omax u i) (omax iss i)) R)) as (s1 & E & R1 & U1).
    - cbn. apply cap_le. destruct u; cbn; lia.
    - cbn. intros x [= <-]. assert (i < 2 ^ 31) by (unfold cap in Lt; lia). destruct u as [u|]; [specialize (B _ eq_refl); lia|done].
    - exists s1. rewrite E. split; [done|]. split; [reflexivity|]. constructor.
      + done.
      + done.
      + destruct u as [u|]; cbn in O |- *; [destruct iss; [lia|done]|destruct iss; lia].
      + intros x [= <-]. assert (i < 2 ^ 31) by (unfold cap in Lt; lia). destruct u as [u|]; [specialize (B _ eq_refl); lia|done].
      + intros x [= <-]. assert (cap (limit L u) <= cap (limit L (omax u i))) by (apply cap_le; destruct u; cbn; lia).
        destruct iss as [y|]; [specialize (I _ eq_refl); lia|lia].
  Qed.

  Definition next (u : option N) : N := match u with None => 0 | Some u => u + 1 end.

  Lemma next_spec u : (match u with None => Ok 0 | Some l => plus_one l end) = if next u <? 2 ^ 31 then Ok (E := key_err) (next u) else Err InvalidChildNumber.
  Proof.
    destruct u as [u|]; [|done]. unfold plus_one, next. rewrite top_val. destruct (u + 1 <? 2 ^ 31) eqn:E.
    - apply N.ltb_lt in E. by rewrite (proj2 (N.leb_le _ _)) by lia.
    - apply N.ltb_ge in E. by rewrite (proj2 (N.leb_gt _ _)) by lia.
  Qed.

  Lemma issued_max u iss i : issued_up_to i (Usage u iss) = Usage u (omax iss i).
  Proof.
    unfold issued_up_to. cbn. destruct iss as [x|]; [|done]. unfold omax. destruct (x <? i) eqn:F.
    - apply N.ltb_lt in F. do 2 f_equal; lia.
    - apply N.ltb_ge in F. do 2 f_equal; lia.
  Qed.

  Lemma issue_spec (LB : L < 2 ^ 31) p u iss s : good p u iss s ->
    (next iss < cap (limit L u) ∧ ∃ s1, issue_new key hash p L s = Ok (next iss, key p (next iss), s1) ∧ good p u (Some (next iss)) s1) ∨
    (¬ next iss < cap (limit L u) ∧ ∃ e, issue_new key hash p L s = Err e).
  Proof.
    intros [U R O B I]. unfold issue_new, new_index. rewrite U. cbn [last_issued last_used]. rewrite next_spec.
    destruct (next iss <? 2 ^ 31) eqn:E; cbn [rbind].
    2: { apply N.ltb_ge in E. right. split; [unfold cap; lia|]. eauto. }
    apply N.ltb_lt in E.
    assert ((match u with None => Ok (L <=? next iss) | Some l => let? m := u32_add l L in Ok (m <? next iss) end) = Ok (E := key_err) (limit L u <=? next iss)) as ->.
    { destruct u as [u|]; [|done]. specialize (B _ eq_refl). rewrite u32_add_ok by lia. cbn [rbind limit]. f_equal.
      destruct (u + L <? next iss) eqn:F; symmetry.
      - apply N.ltb_lt in F. apply N.leb_le. lia.
      - apply N.ltb_ge in F. apply N.leb_gt. lia. }
    cbn [rbind]. destruct (limit L u <=? next iss) eqn:F.
    - apply N.leb_le in F. right. split; [unfold cap; lia|]. cbn. eauto.
    - apply N.leb_gt in F. left. assert (next iss < cap (limit L u)) as Lt by (unfold cap; lia). split; [done|]. cbn [negb ensure rbind].
      rewrite (derive_in _ _ _ _ R Lt). eexists. split; [reflexivity|]. rewrite U, issued_max.
      assert (omax iss (next iss) = Some (next iss)) as -> by (destruct iss as [x|]; unfold omax, next; [f_equal; lia|done]).
      constructor; [done|by apply range_use| |done|].
      + destruct u as [u|]; [|done]. destruct iss as [x|]; [|done]. cbn in *. lia.
      + by intros x [= <-].
  Qed.

  Lemma next_unused_spec (L1 : 1 <= L) p u iss s : good p u iss s ->
    (next u < 2 ^ 31 ∧ ∃ s1, next_unused key hash p s = Ok (next u, key p (next u), s1) ∧ good p u (omax iss (next u)) s1) ∨
    (¬ next u < 2 ^ 31 ∧ ∃ e, next_unused key hash p s = Err e).
  Proof.
    intros [U R O B I]. unfold next_unused. rewrite U. cbn [last_used]. rewrite next_spec.
    destruct (next u <? 2 ^ 31) eqn:E; cbn [rbind].
    2: { apply N.ltb_ge in E. right. split; [lia|]. eauto. }
    apply N.ltb_lt in E. left. split; [done|]. assert (next u < cap (limit L u)) as Lt.
    { unfold cap, limit, next in *. destruct u; lia. }
    rewrite (derive_in _ _ _ _ R Lt). rewrite U. cbn [last_used last_issued]. eexists. split; [reflexivity|].
    destruct (decide (u = iss)) as [Q|Q].
    - rewrite issued_max. constructor; [done|by apply range_use| |done|].
      + subst iss. destruct u as [u|]; [|done]. cbn. lia.
      + subst iss. intros x [= <-]. destruct u as [u|]; unfold next in *; lia.
    - assert (omax iss (next u) = iss) as ->.
      { destruct u as [u|], iss as [x|]; cbn in *; try done; unfold omax; f_equal; [|lia].
        assert (u ≠ x) by congruence. lia. }
      by constructor.
  Qed.

  (** * The account *)
  Notation account' := (account (K := K) (H := H)).
  Definition goods (u iss : purpose -> option N) (a : account') : Prop := ∀ p, good p (u p) (iss p) (chain p a).
  Definition upd (p : purpose) (x : option N) (f : purpose -> option N) : purpose -> option N := fun q => if decide (q = p) then x else f q.

  Lemma upd_same p x f : upd p x f p = x.
  Proof. unfold upd. by rewrite decide_True. Qed.
  Lemma upd_other p q x f : q ≠ p -> upd p x f q = f q.
  Proof. intros N. unfold upd. by rewrite decide_False. Qed.

  Lemma chain_set_same p s (a : account') : chain p (set_chain p s a) = s.
  Proof. by destruct p. Qed.
  Lemma chain_set_other p q s (a : account') : q ≠ p -> chain q (set_chain p s a) = chain q a.
  Proof. by destruct p, q. Qed.

  Lemma goods_set u iss a p s x y : goods u iss a -> good p x y s -> goods (upd p x u) (upd p y iss) (set_chain p s a).
  Proof.
    intros G S q. destruct (decide (q = p)) as [->|N].
    - by rewrite !upd_same, chain_set_same.
    - rewrite !upd_other, chain_set_other by done. apply G.
  Qed.
  Lemma goods_ext u iss u' iss' a : (∀ p, u p = u' p) -> (∀ p, iss p = iss' p) -> goods u iss a -> goods u' iss' a.
  Proof. intros E F G p. rewrite <- E, <- F. apply G. Qed.

  (** The account knows the keys up to the limit of each chain *)
  Definition known (u : purpose -> option N) (d : dest') (p : purpose) (i : N) : Prop := i < cap (limit L (u p)) ∧ pays key hash d p i.

  Lemma pays_unique (D : distinct) d p i q j : i < 2 ^ 31 -> j < 2 ^ 31 -> pays key hash d p i -> pays key hash d q j -> p = q ∧ i = j.
  Proof.
    intros I J [ -> | -> ] [E|E]; try done.
    - injection E as E. by apply D.
    - injection E as E. by apply (distinct_key D).
  Qed.
  Lemma known_unique (D : distinct) u u' d p i q j : known u d p i -> known u' d q j -> p = q ∧ i = j.
  Proof. intros [A B] [A' B']. apply (pays_unique D d); unfold cap in *; try lia; done. Qed.

  Lemma is_mine_spec (D : distinct) u iss a d : goods u iss a -> is_mine a d = true <-> ∃ p i, known u d p i.
  Proof.
    intros G. unfold is_mine, leaf_is_mine. rewrite orb_true_iff. split.
    - intros [E|E].
      + destruct (child_of (receive a).1 d) as [i|] eqn:C; [|done]. exists ReceiveFunds, i. by apply (child_spec D _ _ _ _ _ (g_range _ _ _ _ (G ReceiveFunds))).
      + destruct (child_of (change a).1 d) as [i|] eqn:C; [|done]. exists Change, i. by apply (child_spec D _ _ _ _ _ (g_range _ _ _ _ (G Change))).
    - intros ([|] & i & Kn); apply (child_spec D _ _ _ _ _ (g_range _ _ _ _ (G _))) in Kn; cbn [chain] in Kn; rewrite Kn; [by left|by right].
  Qed.

  Lemma mark_dest_spec (D : distinct) (LB : L < 2 ^ 31) u iss a d : goods u iss a ->
    (∃ p i a1, known u d p i ∧ mark_dest key hash L d a = Ok (true, a1) ∧ goods (upd p (omax (u p) i) u) (upd p (omax (iss p) i) iss) a1) ∨
    ((∀ p i, ¬ known u d p i) ∧ mark_dest key hash L d a = Ok (false, a)).
  Proof.
    intros G. unfold mark_dest.
    destruct (mark_used_spec D LB _ _ _ _ d (G ReceiveFunds)) as [(i & s1 & C & E & G1)|[C E]]; cbn [chain] in C, E; rewrite E; cbn [rbind].
    - left. exists ReceiveFunds, i. eexists. split; [by apply (child_spec D _ _ _ _ _ (g_range _ _ _ _ (G ReceiveFunds)))|].
      split; [reflexivity|]. apply (goods_set _ _ a ReceiveFunds s1 _ _ G G1).
    - destruct (mark_used_spec D LB _ _ _ _ d (G Change)) as [(i & s1 & C2 & E2 & G1)|[C2 E2]]; cbn [chain] in C2, E2; rewrite E2; cbn [rbind].
      + left. exists Change, i. eexists. split; [by apply (child_spec D _ _ _ _ _ (g_range _ _ _ _ (G Change)))|].
        split; [reflexivity|]. apply (goods_set _ _ a Change s1 _ _ G G1).
      + right. split; [|by destruct a]. intros [|] i Kn; apply (child_spec D _ _ _ _ _ (g_range _ _ _ _ (G _))) in Kn; cbn [chain] in Kn; congruence.
  Qed.

  (** The key an output marks *)
  Inductive marks (u : purpose -> option N) : list dest' -> option (purpose * N) -> Prop :=
  | marks_nil : marks u [] None
  | marks_any l : marks u (AnyoneCanSpend :: l) None
  | marks_here d l p i : known u d p i -> marks u (d :: l) (Some (p, i))
  | marks_later d l r : d ≠ AnyoneCanSpend -> (∀ p i, ¬ known u d p i) -> marks u l r -> marks u (d :: l) r.

  Lemma mark_seen_spec (D : distinct) (LB : L < 2 ^ 31) u iss l a : goods u iss a ->
    (∃ p i a1, marks u l (Some (p, i)) ∧ mark_seen key hash L l a = Ok (true, a1) ∧ goods (upd p (omax (u p) i) u) (upd p (omax (iss p) i) iss) a1) ∨
    (marks u l None ∧ mark_seen key hash L l a = Ok (false, a)).
  Proof.
    intros G. induction l as [|d l IH]; [right; split; [constructor|done]|].
    assert ((d ≠ AnyoneCanSpend ∧ mark_seen key hash L (d :: l) a = (let? (f, a) := mark_dest key hash L d a in if f then Ok (true, a) else mark_seen key hash L l a)) ∨
            (d = OtherDest ∧ mark_seen key hash L (d :: l) a = mark_seen key hash L l a) ∨ (d = AnyoneCanSpend ∧ mark_seen key hash L (d :: l) a = Ok (false, a))) as [[ND E]|[[-> E]|[-> E]]].
    { destruct d; [right; right|left|left|right; left]; done. }
    - rewrite E.
      destruct (mark_dest_spec D LB u iss a d G) as [(p & i & a1 & Kn & E1 & G1)|[NK E1]]; rewrite E1; cbn [rbind].
      + left. exists p, i, a1. split; [by constructor|]. done.
      + destruct IH as [(p & i & a1 & M & E2 & G1)|[M E2]].
        * left. exists p, i, a1. split; [by constructor|]. done.
        * right. split; [by constructor|done].
    - assert (∀ p i, ¬ known u OtherDest p i) as NK by (intros p i [_ [?|?]]; done).
      rewrite E. destruct IH as [(p & i & a1 & M & E2 & G1)|[M E2]].
      + left. exists p, i, a1. split; [by constructor|]. done.
      + right. split; [by constructor|done].
    - right. split; [constructor|done].
  Qed.

  (** * Histories *)
  Notation event' := (event (K := K) (H := H)).
  Notation answer' := (answer (K := K)).
  Inductive vstep (u iss : purpose -> option N) : event' -> answer' -> (purpose -> option N) -> (purpose -> option N) -> Prop :=
  | v_issue p : next (iss p) < cap (limit L (u p)) -> vstep u iss (Issue p) (Address p (next (iss p)) (key p (next (iss p)))) u (upd p (Some (next (iss p))) iss)
  | v_no_issue p e : vstep u iss (Issue p) (Refused e) u iss
  | v_unused p : next (u p) < 2 ^ 31 -> vstep u iss (NextUnused p) (Address p (next (u p)) (key p (next (u p)))) u (upd p (omax (iss p) (next (u p))) iss)
  | v_no_unused p e : vstep u iss (NextUnused p) (Refused e) u iss
  | v_seen l p i : marks u l (Some (p, i)) -> vstep u iss (Seen l) (Found true) (upd p (omax (u p) i) u) (upd p (omax (iss p) i) iss)
  | v_not_seen l : marks u l None -> vstep u iss (Seen l) (Found false) u iss.

  Lemma upd_id p f x : upd p (f p) f x = f x.
  Proof. unfold upd. by destruct (decide (x = p)) as [->|]. Qed.

  Lemma handle_spec (D : distinct) (LB : L < 2 ^ 31) (L1 : 1 <= L) u iss e a : goods u iss a ->
    ∃ a1 r u1 iss1, handle key hash L e a = Ok (a1, r) ∧ vstep u iss e r u1 iss1 ∧ goods u1 iss1 a1.
  Proof.
    intros G. destruct e as [p|p|l]; cbn [handle].
    - destruct (issue_spec LB p _ _ _ (G p)) as [(Lt & s1 & E & G1)|(_ & e & E)]; rewrite E; cbn [rbind answered fst snd].
      + eexists _, _, _, _. split; [reflexivity|]. split; [by constructor|].
        eapply goods_ext; [| |apply (goods_set _ _ _ _ _ _ _ G G1)]; [apply upd_id|done].
      + eexists _, _, _, _. split; [reflexivity|]. split; [by constructor|done].
    - destruct (next_unused_spec L1 p _ _ _ (G p)) as [(Lt & s1 & E & G1)|(_ & e & E)]; rewrite E; cbn [rbind answered fst snd].
      + eexists _, _, _, _. split; [reflexivity|]. split; [by constructor|].
        eapply goods_ext; [| |apply (goods_set _ _ _ _ _ _ _ G G1)]; [apply upd_id|done].
      + eexists _, _, _, _. split; [reflexivity|]. split; [by constructor|done].
    - destruct (mark_seen_spec D LB u iss l a G) as [(p & i & a1 & M & E & G1)|[M E]]; rewrite E; cbn [rbind].
      + eexists _, _, _, _. split; [reflexivity|]. split; [by constructor|done].
      + eexists _, _, _, _. split; [reflexivity|]. split; [by constructor|done].
  Qed.

  Inductive vrun : (purpose -> option N) -> (purpose -> option N) -> list (event' * answer') -> (purpose -> option N) -> (purpose -> option N) -> Prop :=
  | vr_nil u iss : vrun u iss [] u iss
  | vr_cons u iss e r u1 iss1 tr u2 iss2 : vstep u iss e r u1 iss1 -> vrun u1 iss1 tr u2 iss2 -> vrun u iss ((e, r) :: tr) u2 iss2.

  Lemma vrun_app u iss tr1 u1 iss1 tr2 u2 iss2 : vrun u iss tr1 u1 iss1 -> vrun u1 iss1 tr2 u2 iss2 -> vrun u iss (tr1 ++ tr2) u2 iss2.
  Proof. induction 1; [done|]. intros R. cbn. econstructor; eauto. Qed.
  Lemma vrun_split u iss tr1 tr2 u2 iss2 : vrun u iss (tr1 ++ tr2) u2 iss2 -> ∃ u1 iss1, vrun u iss tr1 u1 iss1 ∧ vrun u1 iss1 tr2 u2 iss2.
  Proof.
    revert u iss. induction tr1 as [|x tr1 IH]; intros u iss R; [exists u, iss; split; [constructor|done]|].
    cbn in R. inversion R as [|? ? e r u1 iss1 ? ? ? S R1]; subst. destruct (IH _ _ R1) as (u3 & iss3 & A & B). exists u3, iss3. split; [|done]. econstructor; eauto.
  Qed.

  Lemma handle_all_spec (D : distinct) (LB : L < 2 ^ 31) (L1 : 1 <= L) es : ∀ u iss a, goods u iss a ->
    ∃ a1 rs u1 iss1, handle_all key hash L es a = Ok (a1, rs) ∧ vrun u iss rs u1 iss1 ∧ goods u1 iss1 a1.
  Proof.
    induction es as [|e es IH]; intros u iss a G.
    - eexists _, _, _, _. split; [reflexivity|]. split; [constructor|done].
    - cbn [handle_all]. destruct (handle_spec D LB L1 u iss e a G) as (a1 & r & u1 & iss1 & E & V & G1). rewrite E. cbn [rbind].
      destruct (IH _ _ _ G1) as (a2 & rs & u2 & iss2 & E2 & V2 & G2). rewrite E2. cbn [rbind].
      eexists _, _, _, _. split; [reflexivity|]. split; [|done]. econstructor; eauto.
  Qed.

  Lemma reload_spec (D : distinct) u iss a x y : goods u iss a -> reload hash (Account (x, snd (receive a)) (y, snd (change a))) = a.
  Proof.
    intros G. unfold reload. cbn [receive change snd].
    pose proof (proj2 (load_good D _ _ _ _ _ (G ReceiveFunds) eq_refl)) as A. pose proof (proj2 (load_good D _ _ _ _ _ (G Change) eq_refl)) as B.
    cbn [chain] in A, B. rewrite A, B. by destruct a.
  Qed.
  Lemma reload_same (D : distinct) u iss a : goods u iss a -> reload hash a = a.
  Proof. intros G. rewrite <- (reload_spec D u iss a (fst (receive a)) (fst (change a)) G) at 2. by destruct a as [[] []]. Qed.

  Lemma run_spec (D : distinct) (LB : L < 2 ^ 31) (L1 : 1 <= L) xs : ∀ u iss a, goods u iss a ->
    ∃ a1 rs u1 iss1, run key hash L xs a = Ok (a1, rs) ∧ vrun u iss rs u1 iss1 ∧ goods u1 iss1 a1.
  Proof.
    induction xs as [|x xs IH]; intros u iss a G.
    - eexists _, _, _, _. split; [reflexivity|]. split; [constructor|done].
    - cbn [run].
      assert (∃ a1 rs u1 iss1, step key hash L x a = Ok (a1, rs) ∧ vrun u iss rs u1 iss1 ∧ goods u1 iss1 a1) as (a1 & r & u1 & iss1 & E & V & G1).
      { destruct x as [es|es|]; cbn [step].
        - apply (handle_all_spec D LB L1 es u iss a G).
        - destruct (handle_all_spec D LB L1 es u iss a G) as (a1 & r & u1 & iss1 & E & V & G1). rewrite E. cbn [rbind].
          rewrite (reload_spec D _ _ _ _ _ G). eexists _, _, _, _. split; [reflexivity|]. split; [constructor|done].
        - rewrite (reload_same D _ _ _ G). eexists _, _, _, _. split; [reflexivity|]. split; [constructor|done]. }
      rewrite E. cbn [rbind]. destruct (IH _ _ _ G1) as (a2 & rs & u2 & iss2 & E2 & V2 & G2). rewrite E2. cbn [rbind].
      eexists _, _, _, _. split; [reflexivity|]. split; [|done]. by eapply vrun_app.
  Qed.

  Lemma new_range p : range p 0 new_leaf.
  Proof.
    constructor; cbn; [lia| | | |done|done].
    all: intros; rewrite lookup_empty; split; [done|]; intros [? _]; lia.
  Qed.
  Lemma new_good (D : distinct) (LB : L < 2 ^ 31) p : ∃ s, top_up key hash p L new_leaf = Ok s ∧ good p None None s.
  Proof.
    destruct (top_up_spec D LB p 0 new_leaf (new_range p)) as (s & E & R & U); [cbn; unfold cap; lia|done|].
    exists s. split; [done|]. by constructor.
  Qed.
  Definition fresh : purpose -> option N := fun _ => None.
  Lemma new_account_spec (D : distinct) (LB : L < 2 ^ 31) : ∃ a, new_account key hash L = Ok a ∧ goods fresh fresh a.
  Proof.
    destruct (new_good D LB ReceiveFunds) as (r & E1 & G1). destruct (new_good D LB Change) as (c & E2 & G2).
    unfold new_account. rewrite E1. cbn [rbind]. rewrite E2. eexists. split; [reflexivity|]. by intros [|].
  Qed.
  Lemma reset_spec : reset key hash L = new_account key hash L.
  Proof. unfold reset, new_account, new_leaf, load_leaf. cbn [d_keys d_use]. by rewrite !map_to_list_empty. Qed.

  (** * What histories do *)
  Lemma upd_ole p x f q : ole (f p) x -> ole (f q) (upd p x f q).
  Proof. intros O. unfold upd. destruct (decide (q = p)) as [->|]; [done|apply ole_refl]. Qed.

  Lemma vstep_mono u iss e r u1 iss1 : vstep u iss e r u1 iss1 -> ∀ p, ole (u p) (u1 p) ∧ ole (iss p) (iss1 p).
  Proof.
    destruct 1; intros q; split; try apply ole_refl; try apply upd_ole; try apply ole_omax.
    destruct (iss p); cbn; [lia|done].
  Qed.
  Lemma vrun_mono u iss tr u1 iss1 : vrun u iss tr u1 iss1 -> ∀ p, ole (u p) (u1 p) ∧ ole (iss p) (iss1 p).
  Proof.
    induction 1 as [|u iss e r u1 iss1 tr u2 iss2 S R IH]; intros p; [split; apply ole_refl|].
    destruct (IH p), (vstep_mono _ _ _ _ _ _ S p). split; eapply ole_trans; eauto.
  Qed.
  Lemma limit_mono u v : ole u v -> cap (limit L u) <= cap (limit L v).
  Proof. intros O. apply cap_le. destruct u, v; cbn in *; lia. Qed.
  Lemma known_mono u v d p i : (∀ p, ole (u p) (v p)) -> known u d p i -> known v d p i.
  Proof. intros O [A B]. split; [|done]. pose proof (limit_mono _ _ (O p)). lia. Qed.

  Lemma marks_known u l p i : marks u l (Some (p, i)) -> ∃ d, d ∈ l ∧ known u d p i.
  Proof.
    intros M. remember (Some (p, i)) as r eqn:E. induction M as [|l|d l q j Kn|d l r N NK M IH]; try done.
    - injection E as -> ->. exists d. split; [constructor|done].
    - destruct (IH E) as (d' & I & Kn). exists d'. split; [by constructor|done].
  Qed.
  Lemma marks_none u l : marks u l None -> AnyoneCanSpend ∉ l -> ∀ d p i, d ∈ l -> ¬ known u d p i.
  Proof.
    intros M. remember None as r eqn:E. induction M as [|l|d l q j Kn|d l r N NK M IH]; try done.
    - intros _ d p i I. by apply elem_of_nil in I.
    - intros A. destruct A. constructor.
    - intros A d' p i I. apply elem_of_cons in I as [->|I]; [apply NK|]. apply IH; [done| |done]. intros B. apply A. by constructor.
  Qed.
  Lemma marks_fun (D : distinct) u l r : marks u l r -> ∀ r', marks u l r' -> r = r'.
  Proof.
    induction 1 as [|l|d l p i Kn|d l r N NK M IH]; intros r' M'; inversion M' as [|? |? ? q j Kn'|? ? ? N' NK' M1]; subst; try done.
    - by destruct Kn' as [_ [?|?]].
    - by destruct Kn as [_ [?|?]].
    - by destruct (known_unique D _ _ _ _ _ _ _ Kn Kn') as [-> ->].
    - by destruct (NK' p i).
    - by destruct (NK q j).
    - by apply IH.
  Qed.
  Lemma marks_ext u v l r : (∀ p, u p = v p) -> marks u l r -> marks v l r.
  Proof.
    intros E. assert (∀ d p i, known u d p i <-> known v d p i) as Q by (intros; unfold known; by rewrite E).
    induction 1 as [|l|d l p i Kn|d l r N NK M IH]; constructor; try done; [by apply Q|]. intros p i Kn. by apply Q, (NK p i) in Kn.
  Qed.

  (** An address handed out is known afterwards, and is not above the last issued *)
  Lemma vstep_address (L1 : 1 <= L) u iss e r u1 iss1 p i k : vstep u iss e r u1 iss1 -> r = Address p i k ->
    k = key p i ∧ i < cap (limit L (u1 p)) ∧ ole (Some i) (iss1 p).
  Proof.
    destruct 1; intros [=]; subst; rewrite upd_same; (split; [done|]).
    - split; [done|]. cbn. lia.
    - split; [unfold cap, limit, next in *; destruct (u p); lia|]. cbn. destruct (iss p); lia.
  Qed.
  Lemma handed_spec (L1 : 1 <= L) u iss tr u1 iss1 p i k : vrun u iss tr u1 iss1 -> handed_out tr p i k ->
    k = key p i ∧ i < cap (limit L (u1 p)) ∧ ole (Some i) (iss1 p).
  Proof.
    intros R [e I]. apply elem_of_list_split in I as (tr1 & tr2 & ->). apply vrun_split in R as (u2 & iss2 & _ & R).
    inversion R as [|? ? ? ? u3 iss3 ? ? ? S R2]; subst. destruct (vstep_address L1 _ _ _ _ _ _ _ _ _ S eq_refl) as (E & Lt & O).
    destruct (vrun_mono _ _ _ _ _ R2 p) as [M1 M2]. split; [done|]. split; [|by eapply ole_trans].
    pose proof (limit_mono _ _ M1). lia.
  Qed.
  Lemma noted_spec u iss tr u1 iss1 p i : vrun u iss tr u1 iss1 -> noted key hash tr p i -> i < 2 ^ 31 ∧ ole (Some i) (u1 p) ∧ ole (Some i) (iss1 p).
  Proof.
    intros R (l & I & P). apply elem_of_list_split in I as (tr1 & tr2 & ->). apply vrun_split in R as (u2 & iss2 & _ & R).
    inversion R as [|? ? ? ? u3 iss3 ? ? ? S R2]; subst. inversion S as [| | | |? q j M|]; subst.
    destruct (marks_known _ _ _ _ M) as (d & I & Lt & Py). assert (j < 2 ^ 31) as J by (unfold cap in Lt; lia).
    destruct (P d q j I J Py) as [-> ->].
    destruct (vrun_mono _ _ _ _ _ R2 p) as [M1 M2]. rewrite upd_same in M1, M2. split; [done|].
    split; (eapply ole_trans; [|eassumption]); unfold omax; cbn; [destruct (u2 p); lia|destruct (iss2 p); lia].
  Qed.

  Lemma vrun_shown (D : distinct) u iss tr u1 iss1 : vrun u iss tr u1 iss1 -> ∀ v viss tr' v1 viss1,
    (∀ p, u p = v p) -> vrun v viss tr' v1 viss1 -> shown tr = shown tr' -> (∀ e r, (e, r) ∈ tr' -> ∃ l, e = Seen l) ->
    (∀ p, u1 p = v1 p) ∧ said tr = said tr'.
  Proof.
    induction 1 as [u iss|u iss e r u1 iss1 tr u2 iss2 S R IH]; intros v viss tr' v1 viss1 E V Sh Al.
    - destruct V as [|? ? e r ? ? tr' ? ?]; [done|]. destruct (Al e r) as [l ->]; [constructor|]. done.
    - assert ((∃ l, e = Seen l) ∨ (shown ((e, r) :: tr) = shown tr ∧ said ((e, r) :: tr) = said tr ∧ u1 = u)) as [[l ->]|(Q & Q2 & ->)].
      { destruct S; [right|right|right|right|left|left]; eauto. }
      2: { rewrite Q2. rewrite Q in Sh. exact (IH v viss tr' v1 viss1 E V Sh Al). }
      destruct V as [|v viss e r' v2 viss2 tr' v3 viss3 S' V]; [done|]. destruct (Al e r') as [l' ->]; [constructor|].
      cbn in Sh. injection Sh as <- Sh. cbn [said].
      assert ((∀ p, u1 p = v2 p) ∧ r = r') as [E2 <-].
      { inversion S as [| | | |? q j M|? M]; inversion S' as [| | | |? q' j' M'|? M']; subst; pose proof (marks_fun D _ _ _ (marks_ext _ _ _ _ E M) _ M') as F; try done.
        injection F as -> ->. split; [|done]. intros x. unfold upd. by rewrite !E. }
      destruct (IH v2 viss2 tr' v3 viss3 E2 V Sh) as [F1 F2].
      { intros e r' I. apply (Al e r'). by constructor. }
      split; [done|]. unfold said in *. cbn. by rewrite F2.
  Qed.
End Proofs.

Section Bigger.
  Context {K H : Type} `{Countable K, Countable H} (key : purpose -> N -> K) (hash : K -> H) (L L' : N).
  Notation distinct := (distinct_addresses key hash).

  Lemma limit_bigger u v : L <= L' -> ole u v -> cap (limit L u) <= cap (limit L' v).
  Proof. intros B O. apply cap_le. destruct u, v; cbn in *; lia. Qed.
  Lemma known_bigger u v d p i : L <= L' -> (∀ p, ole (u p) (v p)) -> known key hash L u d p i -> known key hash L' v d p i.
  Proof. intros B O [A P]. split; [|done]. pose proof (limit_bigger _ _ B (O p)). lia. Qed.

  Lemma vrun_bigger (D : distinct) u iss tr u1 iss1 : L <= L' -> vrun key hash L u iss tr u1 iss1 -> ∀ v viss tr' v1 viss1,
    (∀ p, ole (u p) (v p)) -> vrun key hash L' v viss tr' v1 viss1 -> shown tr = shown tr' -> (∀ e r, (e, r) ∈ tr' -> ∃ l, e = Seen l) ->
    (∀ l, l ∈ shown tr -> (length l <= 1)%nat) ->
    ∀ p, ole (u1 p) (v1 p).
  Proof.
    intros B. induction 1 as [u iss|u iss e r u1 iss1 tr u2 iss2 S R IH]; intros v viss tr' v1 viss1 O V Sh Al One.
    - destruct V as [|? ? e r ? ? tr' ? ?]; [done|]. destruct (Al e r) as [l ->]; [constructor|]. done.
    - assert ((∃ l, e = Seen l) ∨ (shown ((e, r) :: tr) = shown tr ∧ u1 = u)) as [[l ->]|(Q & ->)].
      { destruct S; [right|right|right|right|left|left]; eauto. }
      2: { rewrite Q in Sh, One. exact (IH v viss tr' v1 viss1 O V Sh Al One). }
      destruct V as [|v viss e r' v2 viss2 tr' v3 viss3 S' V]; [done|]. destruct (Al e r') as [l' ->]; [constructor|].
      cbn in Sh. injection Sh as <- Sh.
      apply (IH v2 viss2 tr' v3 viss3); try done.
      + intros q. inversion S as [| | | |? p i M|? M]; subst.
        * assert (marks key hash L' v l (Some (p, i))) as M2.
          { destruct l as [|d [|d2 l]]; [by inversion M| |specialize (One (d :: d2 :: l) ltac:(constructor)); cbn in One; lia].
            constructor. inversion M as [| |? ? ? ? Kn|? ? ? ? ? M3]; subst; [|by inversion M3]. exact (known_bigger _ _ _ _ _ B O Kn). }
          inversion S' as [| | | |? p' i' M'|? M']; subst; pose proof (marks_fun key hash L' D _ _ _ M2 _ M') as F; [|done].
          injection F as <- <-. unfold upd. destruct (decide (q = p)); [|apply O]. pose proof (O p) as Op. destruct (u p), (v p); cbn in *; lia || done.
        * eapply ole_trans; [apply O|]. apply (vstep_mono _ _ _ _ _ _ _ _ _ S' q).
      + intros e r'' I. apply (Al e r''). by constructor.
      + intros l'' I. apply One. cbn. by constructor.
  Qed.
End Bigger.
