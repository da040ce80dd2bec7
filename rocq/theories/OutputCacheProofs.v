From Verif Require Import Base OutputCacheModel OutputCacheSpec.
Local Open Scope N_scope.

Lemma unconfirmed_iff s : unconfirmed s = true <-> ¬ is_confirmed s.
Proof. destruct s; cbn; (split; [intros ?; try done; by intros ?|intros F; try done; by destruct (F I)]). Qed.
Lemma live_kind s : live_kinds (kind_of s) = true <-> live s.
Proof. by destruct s. Qed.
Lemma confirmed_live s : is_confirmed s -> live s.
Proof. by destruct s. Qed.
Lemma which_live which s : live_only which -> which (kind_of s) = true -> live s.
Proof. intros [A B]. destruct s; cbn; [done|done| |done|]; congruence. Qed.

Section Proofs.
  Context {T Out : Type} `{Countable T} (body : T -> tx T Out).
  Notation cache := (cache T Out).
  Notation event := (event T Out).
  Notation outpoint := (T * N)%type.

  Definition link (d : gmap T (gset T)) (a b : T) : Prop := ∃ s, d !! a = Some s ∧ b ∈ s.

  (** * Walking over the descendants *)
  Lemma links_delete (d : gmap T (gset T)) x s : d !! x = Some s -> (links d = size s + links (delete x d))%nat.
  Proof.
    intros E. unfold links. rewrite <- (insert_delete d x s E) at 1. rewrite map_fold_insert_L; [done| |by apply lookup_delete].
    intros. lia.
  Qed.
  Lemma walk_spec root (d0 : gmap T (gset T)) : ∀ fuel q all d,
    NoDup all -> (∀ x, d !! x = if decide (x ∈ all) then None else d0 !! x) -> (∀ x, x ∈ all ∨ x ∈ q -> rtc (link d0) root x) ->
    (∀ a b, a ∈ all -> link d0 a b -> b ∈ all ∨ b ∈ q) -> root ∈ all ∨ root ∈ q -> (length q + links d <= fuel)%nat ->
    ∃ all' d', walk fuel q all d = (all', d') ∧ NoDup all' ∧ (∀ x, x ∈ all' <-> rtc (link d0) root x) ∧
      (∀ x, d' !! x = if decide (x ∈ all') then None else d0 !! x).
  Proof.
    intros fuel. induction fuel as [|fuel IH]; intros q all d ND D R C Ro F.
    - destruct q as [|x q]; [|cbn in F; lia]. exists all, d. split; [done|]. split; [done|]. split; [|done].
      intros x. split; [intros I; apply R; by left|]. intros P. assert (root ∈ all) as Ro' by (destruct Ro as [?|Q]; [done|by apply elem_of_nil in Q]).
      clear - P Ro' C. induction P as [x|x y z L P IHP]; [done|]. apply IHP. destruct (C x y Ro' L) as [?|Q]; [done|by apply elem_of_nil in Q].
    - destruct q as [|x q].
      { exists all, d. split; [done|]. split; [done|]. split; [|done].
        intros x. split; [intros I; apply R; by left|]. intros P. assert (root ∈ all) as Ro' by (destruct Ro as [?|Q]; [done|by apply elem_of_nil in Q]).
        clear - P Ro' C. induction P as [x|x y z L P IHP]; [done|]. apply IHP. destruct (C x y Ro' L) as [?|Q]; [done|by apply elem_of_nil in Q]. }
      cbn [walk]. set (all1 := if decide (x ∈ all) then all else all ++ [x]).
      assert (∀ y, y ∈ all1 <-> y ∈ all ∨ y = x) as A1.
      { intros y. unfold all1. destruct (decide (x ∈ all)) as [I|I]; [split; [by left|]; by intros [?| ->]|]. rewrite elem_of_app, elem_of_list_singleton. done. }
      assert (NoDup all1) as ND1.
      { unfold all1. destruct (decide (x ∈ all)) as [I|I]; [done|]. apply NoDup_app. split; [done|]. split; [|by apply NoDup_singleton].
        intros y Y Z. apply elem_of_list_singleton in Z as ->. done. }
      destruct (d !! x) as [s|] eqn:E.
      + assert (x ∉ all) as NI by (intros I; rewrite D, decide_True in E by done; done).
        assert (d0 !! x = Some s) as E0 by (rewrite D, decide_False in E by done; done).
        apply IH; [done| | | | |].
        * intros y. destruct (decide (y = x)) as [->|N].
          -- rewrite lookup_delete, decide_True; [done|]. apply A1. by right.
          -- rewrite lookup_delete_ne, D by done. destruct (decide (y ∈ all)) as [I|I].
             ++ rewrite decide_True; [done|]. apply A1. by left.
             ++ rewrite decide_False; [done|]. intros J. apply A1 in J as [?|?]; done.
        * intros y [Y|Y]; [apply A1 in Y as [Y| ->]; apply R; [by left|right; constructor]|].
          apply elem_of_app in Y as [Y|Y]; [apply R; right; by constructor|]. apply elem_of_elements in Y.
          eapply rtc_r; [apply R; right; constructor|]. by exists s.
        * intros a b Ia Lk. apply A1 in Ia as [Ia| ->].
          -- destruct (C a b Ia Lk) as [?|Q]; [left; apply A1; by left|]. apply elem_of_cons in Q as [->|Q]; [left; apply A1; by right|].
             right. apply elem_of_app. by left.
          -- right. apply elem_of_app. right. apply elem_of_elements. destruct Lk as (s' & Es & I). rewrite E0 in Es. by injection Es as <-.
        * destruct Ro as [Ro|Ro]; [left; apply A1; by left|]. apply elem_of_cons in Ro as [->|Ro]; [left; apply A1; by right|]. right. apply elem_of_app. by left.
        * rewrite (links_delete d x s E) in F. rewrite app_length. cbn in F. change (length (elements s)) with (size s). lia.
      + apply IH; [done| | | | |].
        * intros y. rewrite D. destruct (decide (y ∈ all)) as [I|I].
          -- rewrite decide_True; [done|]. apply A1. by left.
          -- destruct (decide (y = x)) as [->|N].
             ++ rewrite (decide_True (P := x ∈ all1)) by (apply A1; by right). rewrite D, decide_False in E by done. done.
             ++ rewrite decide_False; [done|]. intros J. apply A1 in J as [?|?]; done.
        * intros y [Y|Y]; [apply A1 in Y as [Y| ->]; apply R; [by left|right; constructor]|]. apply R. right. by constructor.
        * intros a b Ia Lk. apply A1 in Ia as [Ia| ->].
          -- destruct (C a b Ia Lk) as [?|Q]; [left; apply A1; by left|]. apply elem_of_cons in Q as [->|Q]; [left; apply A1; by right|]. by right.
          -- destruct (decide (x ∈ all)) as [Ix|Ix].
             ++ destruct (C x b Ix Lk) as [?|Q]; [left; apply A1; by left|]. apply elem_of_cons in Q as [->|Q]; [left; apply A1; by right|]. by right.
             ++ destruct Lk as (s' & Es & _). rewrite D, decide_False in E by done. rewrite E in Es. done.
        * destruct Ro as [Ro|Ro]; [left; apply A1; by left|]. apply elem_of_cons in Ro as [->|Ro]; [left; apply A1; by right|]. by right.
        * cbn in F. lia.
  Qed.
  Lemma remove_descendants_spec id (c : cache) : ∃ all d,
    remove_descendants id c = (all, set_desc d c) ∧ NoDup all ∧ (∀ x, x ∈ all <-> rtc (link (desc c)) id x) ∧
    (∀ x, d !! x = if decide (x ∈ all) then None else desc c !! x).
  Proof.
    destruct (walk_spec id (desc c) (S (links (desc c))) [id] [] (desc c)) as (all & d & E & R).
    - constructor.
    - intros x. rewrite decide_False; [done|]. by intros I%elem_of_nil.
    - intros x [I|I]; [by apply elem_of_nil in I|]. apply elem_of_list_singleton in I as ->. constructor.
    - intros a b I. by apply elem_of_nil in I.
    - right. constructor.
    - cbn. lia.
    - exists all, d. split; [|done]. unfold remove_descendants. by rewrite E.
  Qed.

  (** * The invariant *)
  Record inv (c : cache) : Prop := Inv {
    i_body : ∀ id t s, known c id t s -> t = body id;
    i_cons : ∀ id t s o, known c id t s -> live s -> o ∈ ins t -> consumed c !! o = Some s;
    i_spender : ∀ o s, consumed c !! o = Some s -> live s -> ∃ id t, known c id t s ∧ o ∈ ins t;
    i_apart : ∀ id t s id' t' s' o, known c id t s -> known c id' t' s' -> live s -> live s' -> id' ≠ id -> o ∈ ins t -> o ∉ ins t';
    i_desc : ∀ id, is_Some (desc c !! id) -> ∃ t s, known c id t s ∧ ¬ is_confirmed s;
    i_key : ∀ id t s, known c id t s -> live s -> ¬ is_confirmed s -> is_Some (desc c !! id);
    i_link : ∀ a b, link (desc c) a b -> spends (body b) a;
    i_child : ∀ a b, link (desc c) a b -> ∃ t s, known c b t s ∧ ¬ is_confirmed s }.
  (** All links between live transactions are there *)
  Definition linked (c : cache) : Prop :=
    ∀ a ta sa b tb sb, known c a ta sa -> live sa -> ¬ is_confirmed sa -> known c b tb sb -> live sb -> spends tb a -> link (desc c) a b.

  Lemma inv_empty : inv empty.
  Proof.
    constructor; unfold known; cbn.
    - intros id t s K. by rewrite lookup_empty in K.
    - intros id t s o K. by rewrite lookup_empty in K.
    - intros o s K. by rewrite lookup_empty in K.
    - intros id t s id' t' s' o K. by rewrite lookup_empty in K.
    - intros id [d K]. by rewrite lookup_empty in K.
    - intros id t s K. by rewrite lookup_empty in K.
    - intros a b (s & K & _). by rewrite lookup_empty in K.
    - intros a b (s & K & _). by rewrite lookup_empty in K.
  Qed.
  Lemma linked_empty : linked empty.
  Proof. intros a ta sa b tb sb K. unfold known in K. cbn in K. by rewrite lookup_empty in K. Qed.

  (** * Adding *)
  Lemma update_inputs_spec id st l : ∀ (c c' : cache), update_inputs id st l c = (c', Ok tt) ->
    txs c' = txs c ∧ (∀ o, consumed c' !! o = if decide (o ∈ l) then Some st else consumed c !! o) ∧
    (∀ a, is_Some (desc c' !! a) <-> is_Some (desc c !! a)) ∧
    (∀ a b, link (desc c') a b <-> link (desc c) a b ∨ (b = id ∧ is_Some (desc c !! a) ∧ ∃ o, o ∈ l ∧ fst o = a)) ∧
    (is_confirmed st -> ∀ o, o ∈ l -> desc c !! fst o = None).
  Proof.
    induction l as [|o l IH]; intros c c' E.
    - cbn in E. injection E as <-. split; [done|]. split; [intros o; by rewrite decide_False by by intros ?%elem_of_nil|]. split; [done|].
      split; [|intros _ o I; by apply elem_of_nil in I]. intros a b. split; [by left|]. intros [?|(_ & _ & o & I & _)]; [done|by apply elem_of_nil in I].
    - cbn [update_inputs] in E. cbn [set_consumed desc] in E. destruct (desc c !! fst o) as [d|] eqn:Ed.
      + destruct (unconfirmed st) eqn:U; [|discriminate]. apply IH in E as (E1 & E2 & E3 & E4 & E5). cbn [set_consumed set_desc desc txs consumed] in *.
        assert (∀ a, is_Some (<[fst o:={[id]} ∪ d]> (desc c) !! a) <-> is_Some (desc c !! a)) as Dm.
        { intros a. destruct (decide (fst o = a)) as [<-|N]; [rewrite lookup_insert, Ed; split; intros _; eauto|by rewrite lookup_insert_ne by done]. }
        split; [done|]. split; [|split; [|split]].
        * intros x. rewrite E2. destruct (decide (x ∈ l)) as [I|I]; [rewrite decide_True; [done|by constructor]|].
          destruct (decide (x = o)) as [->|N]; [rewrite lookup_insert, decide_True; [done|constructor]|].
          rewrite lookup_insert_ne by done. rewrite decide_False; [done|]. by intros [?|?]%elem_of_cons.
        * intros a. by rewrite E3, Dm.
        * intros a b. rewrite E4, Dm. split.
          -- intros [(s & Es & I)|(-> & A & x & I & Fx)].
             ++ apply lookup_insert_Some in Es as [[<- <-]|[N Es]]; [|left; by exists s].
                apply elem_of_union in I as [I|I]; [|left; by exists d]. apply elem_of_singleton in I as ->. right. split; [done|]. split; [eauto|].
                exists o. split; [constructor|done].
             ++ right. split; [done|]. split; [done|]. exists x. split; [by constructor|done].
          -- intros [(s & Es & I)|(-> & A & x & I & Fx)].
             ++ left. destruct (decide (fst o = a)) as [Q|N].
                ** exists ({[id]} ∪ d). rewrite Q, lookup_insert. split; [done|]. subst a. rewrite Ed in Es. injection Es as <-. apply elem_of_union. by right.
                ** exists s. by rewrite lookup_insert_ne by done.
             ++ apply elem_of_cons in I as [->|I].
                ** left. exists ({[id]} ∪ d). subst a. rewrite lookup_insert. split; [done|]. apply elem_of_union. left. by apply elem_of_singleton.
                ** right. split; [done|]. split; [done|]. by exists x.
        * intros Cf. apply unconfirmed_iff in U. done.
      + apply IH in E as (E1 & E2 & E3 & E4 & E5). cbn [set_consumed set_desc desc txs consumed] in *.
        split; [done|]. split; [|split; [done|split]].
        * intros x. rewrite E2. destruct (decide (x ∈ l)) as [I|I]; [rewrite decide_True; [done|by constructor]|].
          destruct (decide (x = o)) as [->|N]; [rewrite lookup_insert, decide_True; [done|constructor]|].
          rewrite lookup_insert_ne by done. rewrite decide_False; [done|]. by intros [?|?]%elem_of_cons.
        * intros a b. rewrite E4. split; (intros [?|(-> & A & x & I & Fx)]; [by left|right; split; [done|]; split; [done|]]).
          -- exists x. split; [by constructor|done].
          -- apply elem_of_cons in I as [->|I]; [|by exists x]. subst a. rewrite Ed in A. by destruct A.
        * intros Cf x I. apply elem_of_cons in I as [->|I]; [done|by apply E5].
  Qed.
  Lemma update_inputs_ok id st l : ∀ (c : cache), (¬ is_confirmed st ∨ ∀ o, o ∈ l -> desc c !! fst o = None) -> ∃ c', update_inputs id st l c = (c', Ok tt).
  Proof.
    induction l as [|o l IH]; intros c O; [by eexists|]. cbn [update_inputs set_consumed desc].
    destruct O as [U|O].
    - apply unconfirmed_iff in U. rewrite U. destruct (desc c !! fst o); apply IH; left; by apply unconfirmed_iff.
    - rewrite (O o) by constructor. apply IH. right. intros x I. apply O. by constructor.
  Qed.

  (** The two ways of adding *)
  Lemma add_tx_spec id t st (c c' : cache) b : add_tx id t st c = (c', Ok b) ->
    (b = false ∧ c' = c ∧ ∃ t' s', known c id t' s' ∧ confirmed_or_same s' st = true) ∨
    (b = true ∧ (∀ t' s', known c id t' s' -> confirmed_or_same s' st = false) ∧ txs c' = <[id := (t, st)]> (txs c) ∧
     (∀ o, consumed c' !! o = if decide (o ∈ ins t) then Some st else consumed c !! o) ∧
     (∀ a, is_Some (desc c' !! a) <-> if decide (a = id) then ¬ is_confirmed st else is_Some (desc c !! a)) ∧
     (∀ x y, link (desc c') x y <-> (link (desc c) x y ∧ (x = id -> ¬ is_confirmed st)) ∨ (y = id ∧ is_Some (desc c' !! x) ∧ spends t x)) ∧
     (is_confirmed st -> ∀ o, o ∈ ins t -> desc c' !! fst o = None)).
  Proof.
    unfold add_tx. destruct (match txs c !! id with Some (_, old) => confirmed_or_same old st | None => false end) eqn:Q.
    { intros [= <- <-]. left. split; [done|]. split; [done|]. destruct (txs c !! id) as [[t' s']|] eqn:K; [|done]. by exists t', s'. }
    set (d1 := if unconfirmed st then <[id := default ∅ (desc c !! id)]> (desc c) else delete id (desc c)).
    destruct (update_inputs id st (ins t) (set_desc d1 c)) as [c1 [[]|e|]] eqn:E; [|discriminate|discriminate].
    intros [= <- <-]. right. apply update_inputs_spec in E as (E1 & E2 & E3 & E4 & E5). cbn [set_txs txs consumed desc set_desc] in *.
    assert (∀ a, is_Some (d1 !! a) <-> if decide (a = id) then ¬ is_confirmed st else is_Some (desc c !! a)) as Dm.
    { intros a. unfold d1. destruct (unconfirmed st) eqn:U.
      - apply unconfirmed_iff in U. destruct (decide (a = id)) as [->|N]; [rewrite lookup_insert; split; [done|eauto]|by rewrite lookup_insert_ne by done].
      - assert (¬ ¬ is_confirmed st) as U' by (intros F; apply unconfirmed_iff in F; congruence).
        destruct (decide (a = id)) as [->|N]; [rewrite lookup_delete; split; [by intros []|done]|by rewrite lookup_delete_ne by done]. }
    split; [done|]. split; [|split; [by rewrite E1|split; [done|split; [|split]]]].
    - intros t' s' K. unfold known in K. by rewrite K in Q.
    - intros a. rewrite E3. apply Dm.
    - intros x y. rewrite E4, E3. assert (link d1 x y <-> link (desc c) x y ∧ (x = id -> ¬ is_confirmed st)) as ->; [|done].
      unfold d1, link. destruct (unconfirmed st) eqn:U.
      + apply unconfirmed_iff in U. destruct (decide (id = x)) as [<-|N].
        * rewrite lookup_insert. split.
          -- intros (s & [= <-] & I). destruct (desc c !! id) as [s|] eqn:Es; [by split; [exists s|]|]. cbn in I. by apply elem_of_empty in I.
          -- intros [(s & Es & I) _]. exists s. by rewrite Es.
        * rewrite lookup_insert_ne by done. split; [intros L; split; [done|]; intros ->; done|by intros [? _]].
      + assert (¬ ¬ is_confirmed st) as U' by (intros F; apply unconfirmed_iff in F; congruence). destruct (decide (id = x)) as [<-|N].
        * rewrite lookup_delete. split; [by intros (s & ? & _)|]. intros [_ F]. destruct U'. by apply F.
        * rewrite lookup_delete_ne by done. split; [intros L; split; [done|]; intros ->; done|by intros [? _]].
    - intros Cf o I. pose proof (E5 Cf o I) as F. destruct (desc c1 !! fst o) eqn:F1; [|done]. assert (is_Some (d1 !! fst o)) as [? G] by (apply E3; eauto). congruence.
  Qed.
  Lemma add_tx_ok id t st (c : cache) :
    (¬ is_confirmed st ∨ ∀ o, o ∈ ins t -> fst o ≠ id -> desc c !! fst o = None) -> ∃ c' b, add_tx id t st c = (c', Ok b).
  Proof.
    intros O. unfold add_tx. destruct (match txs c !! id with Some (_, old) => confirmed_or_same old st | None => false end); [by eexists _, _|].
    edestruct (update_inputs_ok id st (ins t)) as [c' E]; [|rewrite E; by eexists _, _].
    destruct O as [U|O]; [by left|]. destruct (unconfirmed st) eqn:U; [left; by apply unconfirmed_iff|].
    right. intros o I. cbn [set_desc desc]. destruct (decide (fst o = id)) as [Q|N]; [rewrite Q; apply lookup_delete|]. rewrite lookup_delete_ne by done. by apply O.
  Qed.

  Definition apart_from (c : cache) (id : T) (t : tx T Out) : Prop :=
    ∀ id' t' s' o, known c id' t' s' -> live s' -> id' ≠ id -> o ∈ ins t -> o ∉ ins t'.

  Lemma inv_add id st (c c' : cache) b : inv c -> apart_from c id (body id) -> add_tx id (body id) st c = (c', Ok b) -> inv c'.
  Proof.
    intros V A E. apply add_tx_spec in E as [(_ & -> & _)|(_ & Q & E1 & E2 & E3 & E4 & E5)]; [done|]. destruct V as [V1 V2 V3 V4 V5 V6 V7 V8].
    assert (∀ x t s, known c' x t s <-> (x = id ∧ t = body id ∧ s = st) ∨ (x ≠ id ∧ known c x t s)) as K.
    { intros x t s. unfold known. rewrite E1, lookup_insert_Some. split; [intros [[<- [= <- <-]]|[N ?]]; [by left|right; split; [congruence|done]]|].
      intros [(-> & -> & ->)|[N ?]]; [by left|right; split; [congruence|done]]. }
    constructor.
    - intros x t s Kx. apply K in Kx as [(-> & -> & ->)|[_ Kx]]; [done|by apply (V1 x t s)].
    - intros x t s o Kx Lx I. rewrite E2. apply K in Kx as [(-> & -> & ->)|[N Kx]]; [by rewrite decide_True|].
      rewrite decide_False; [by apply (V2 x t s o)|]. intros J. by apply (A x t s o Kx Lx N J).
    - intros o s Co Ls. rewrite E2 in Co. destruct (decide (o ∈ ins (body id))) as [I|I].
      + injection Co as <-. exists id, (body id). split; [|done]. apply K. by left.
      + destruct (V3 o s Co Ls) as (x & t & Kx & J). exists x, t. split; [|done]. apply K. right. split; [|done]. intros ->. rewrite (V1 _ _ _ Kx) in J. done.
    - intros x t s y t' s' o Kx Ky Lx Ly N I. apply K in Kx as [(-> & -> & ->)|[Nx Kx]], Ky as [(-> & -> & ->)|[Ny Ky]].
      + done.
      + by apply (A y t' s').
      + intros J. by apply (A x t s o Kx Lx Nx J).
      + by apply (V4 x t s y t' s').
    - intros x D. apply E3 in D. destruct (decide (x = id)) as [->|N].
      + exists (body id), st. split; [apply K; by left|done].
      + destruct (V5 x D) as (t & s & Kx & Cf). exists t, s. split; [apply K; by right|done].
    - intros x t s Kx Lx Cf. apply E3. apply K in Kx as [(-> & -> & ->)|[N Kx]]; [by rewrite decide_True|]. rewrite decide_False by done. by apply (V6 x t s).
    - intros x y L. apply E4 in L as [[L _]|(-> & _ & L)]; [by apply V7|done].
    - intros x y L. pose proof L as Lc. destruct (decide (y = id)) as [->|Ny].
      + exists (body id), st. split; [apply K; by left|]. intros Cf.
        assert (spends (body id) x) as (o & I & <-) by (apply E4 in L as [[L _]|(_ & _ & L)]; [by apply V7|done]).
        destruct Lc as (s & Es & _). rewrite (E5 Cf o I) in Es. done.
      + apply E4 in L as [[L _]|(-> & _ & _)]; [|done]. destruct (V8 x y L) as (t & s & Ky & Cf). exists t, s. split; [apply K; by right|done].
  Qed.

  Lemma linked_add id st (c c' : cache) b : inv c -> linked c -> ((∀ t s, known c id t s -> ¬ live s) -> ∀ id' t' s', known c id' t' s' -> live s' -> ¬ spends t' id) ->
    add_tx id (body id) st c = (c', Ok b) -> linked c'.
  Proof.
    intros V Lk O E. apply add_tx_spec in E as [(_ & -> & _)|(_ & Q & E1 & E2 & E3 & E4 & E5)]; [done|].
    assert (∀ x t s, known c' x t s -> (x = id ∧ t = body id ∧ s = st) ∨ (x ≠ id ∧ known c x t s)) as K.
    { intros x t s. unfold known. rewrite E1, lookup_insert_Some. intros [[<- [= <- <-]]|[N ?]]; [by left|right; split; [congruence|done]]. }
    intros x tx0 sx y ty sy Kx Lx Cf Ky Ly Sp. apply E4.
    assert (is_Some (desc c' !! x)) as Dx.
    { apply E3. apply K in Kx as [(-> & -> & ->)|[N Kx]]; [by rewrite decide_True|]. rewrite decide_False by done. by apply (i_key _ V x tx0 sx). }
    destruct (K _ _ _ Ky) as [(-> & -> & ->)|[Ny Ky']]; [by right|]. left.
    destruct (K _ _ _ Kx) as [(-> & -> & ->)|[Nx Kx']].
    - split; [|done]. destruct (txs c !! id) as [[t' s']|] eqn:Kid.
      + destruct (decide (live_kinds (kind_of s') = true)) as [Lv|Lv].
        * apply live_kind in Lv. assert (¬ is_confirmed s') as Cf'.
          { intros F. pose proof (Q _ _ Kid) as W. by destruct s'. }
          by apply (Lk id t' s' y ty sy).
        * destruct (O ltac:(intros t'' s'' K'' L''; unfold known in K''; rewrite Kid in K''; injection K'' as <- <-; apply live_kind in L''; done) y ty sy Ky' Ly Sp).
      + destruct (O ltac:(intros t'' s'' K''; unfold known in K''; rewrite Kid in K''; done) y ty sy Ky' Ly Sp).
    - split; [by apply (Lk x tx0 sx y ty sy)|done].
  Qed.

  (** * Removing *)
  Lemma rollback_consumed t (c : cache) o : consumed (rollback t c) !! o = if decide (o ∈ ins t) then None else consumed c !! o.
  Proof.
    unfold rollback. cbn. induction (ins t) as [|x l IH]; cbn; [by rewrite decide_False by by intros ?%elem_of_nil|].
    destruct (decide (x = o)) as [->|N].
    - rewrite lookup_delete, decide_True; [done|constructor].
    - rewrite lookup_delete_ne, IH by done. destruct (decide (o ∈ l)); [by rewrite decide_True by by constructor|].
      rewrite decide_False; [done|]. by intros [?|?]%elem_of_cons.
  Qed.
  Lemma remove_spec id (c c' : cache) : remove_confirmed_tx id c = (c', Ok tt) ->
    (txs c !! id = None ∧ c' = c) ∨ (∃ t s, known c id t s ∧ is_confirmed s ∧ c' = rollback t (set_txs (delete id (txs c)) c)).
  Proof.
    unfold remove_confirmed_tx. destruct (txs c !! id) as [[t s]|] eqn:K.
    - destruct (unconfirmed s) eqn:U; [discriminate|]. intros E. right. exists t, s. split; [done|]. split; [by destruct s|]. congruence.
    - intros E. left. split; [done|]. congruence.
  Qed.
  Lemma remove_ok id (c : cache) : inv c -> (∀ t s, known c id t s -> is_confirmed s) -> ∃ c', remove_confirmed_tx id c = (c', Ok tt).
  Proof.
    intros V Cf. assert (desc c !! id = None) as D.
    { destruct (desc c !! id) eqn:E; [|done]. destruct (i_desc _ V id) as (t & s & K & N); [eauto|]. by destruct (N (Cf t s K)). }
    unfold remove_confirmed_tx. destruct (txs c !! id) as [[t s]|] eqn:K.
    - specialize (Cf t s K). destruct (unconfirmed s) eqn:U; [by apply unconfirmed_iff in U|]. cbn [rollback set_consumed set_txs desc]. rewrite D. by eexists.
    - rewrite D. by eexists.
  Qed.
  Lemma remove_known id (c c' : cache) : remove_confirmed_tx id c = (c', Ok tt) -> desc c' = desc c ∧ ∀ x t s, known c' x t s <-> x ≠ id ∧ known c x t s.
  Proof.
    intros E. apply remove_spec in E as [[K ->]|(t & s & K & Cf & ->)].
    - split; [done|]. intros x t s. split; [|by intros [_ ?]]. intros Kx. split; [|done]. intros ->. unfold known in Kx. congruence.
    - split; [done|]. intros x t' s'. unfold known. cbn. rewrite lookup_delete_Some. split; intros [? ?]; done.
  Qed.
  Lemma inv_remove id (c c' : cache) : inv c -> remove_confirmed_tx id c = (c', Ok tt) -> inv c'.
  Proof.
    intros V E. destruct (remove_known _ _ _ E) as [D K]. apply remove_spec in E as [[_ ->]|(t & s & Kid & Cf & ->)]; [done|].
    destruct V as [V1 V2 V3 V4 V5 V6 V7 V8]. constructor.
    - intros x t' s' Kx. apply K in Kx as [_ Kx]. by apply (V1 x t' s').
    - intros x t' s' o Kx Lx I. apply K in Kx as [N Kx]. rewrite rollback_consumed. cbn. rewrite decide_False; [by apply (V2 x t' s' o)|].
      apply (V4 x t' s' id t s); try done; by apply confirmed_live || congruence.
    - intros o s' Co Ls. rewrite rollback_consumed in Co. cbn in Co. destruct (decide (o ∈ ins t)) as [I|I]; [done|].
      destruct (V3 o s' Co Ls) as (x & t' & Kx & J). exists x, t'. split; [|done]. apply K. split; [|done]. intros ->. unfold known in *. congruence.
    - intros x t1 s1 y t2 s2 o Kx Ky. apply K in Kx as [_ Kx], Ky as [_ Ky]. by apply (V4 x t1 s1 y t2 s2).
    - intros x Dx. rewrite D in Dx. destruct (V5 x Dx) as (t' & s' & Kx & N). exists t', s'. split; [|done]. apply K. split; [|done]. intros ->. unfold known in *. congruence.
    - intros x t' s' Kx. apply K in Kx as [_ Kx]. rewrite D. by apply (V6 x t' s').
    - rewrite D. apply V7.
    - rewrite D. intros x y L. destruct (V8 x y L) as (t' & s' & Ky & N). exists t', s'. split; [|done]. apply K. split; [|done]. intros ->. unfold known in *. congruence.
  Qed.
  Lemma linked_remove id (c c' : cache) : linked c -> remove_confirmed_tx id c = (c', Ok tt) -> linked c'.
  Proof.
    intros Lk E. destruct (remove_known _ _ _ E) as [D K]. intros x tx0 sx y ty sy Kx Lx Cf Ky. apply K in Kx as [_ Kx], Ky as [_ Ky]. rewrite D. by apply (Lk x tx0 sx y ty sy).
  Qed.

  (** * Forgetting the mempool *)
  Lemma to_inactive_live s : live (to_inactive s) <-> live s.
  Proof. by destruct s. Qed.
  Lemma to_inactive_confirmed s : is_confirmed (to_inactive s) <-> is_confirmed s.
  Proof. by destruct s. Qed.
  Lemma reset_known (c : cache) x t s : known (reset_inmempool c) x t s <-> ∃ s', known c x t s' ∧ s = to_inactive s'.
  Proof.
    unfold known. cbn. rewrite lookup_fmap. split.
    - intros E. apply fmap_Some in E as ([t' s'] & K & E). cbn in E. injection E as -> ->. by exists s'.
    - intros (s' & K & ->). by rewrite K.
  Qed.
  Lemma inv_reset c : inv c -> inv (reset_inmempool c).
  Proof.
    intros [V1 V2 V3 V4 V5 V6 V7 V8]. constructor.
    - intros x t s Kx. apply reset_known in Kx as (s' & Kx & ->). by apply (V1 x t s').
    - intros x t s o Kx Lx I. apply reset_known in Kx as (s' & Kx & ->). apply (proj1 (to_inactive_live s')) in Lx. cbn. rewrite lookup_fmap, (V2 x t s' o) by done. done.
    - intros o s Co Ls. cbn in Co. rewrite lookup_fmap in Co. apply fmap_Some in Co as (s' & Co & ->). apply (proj1 (to_inactive_live s')) in Ls.
      destruct (V3 o s' Co Ls) as (x & t & Kx & I). exists x, t. split; [|done]. apply reset_known. eauto.
    - intros x t s y t' s' o Kx Ky Lx Ly. apply reset_known in Kx as (s1 & Kx & ->), Ky as (s2 & Ky & ->). apply (proj1 (to_inactive_live s1)) in Lx. apply (proj1 (to_inactive_live s2)) in Ly.
      by apply (V4 x t s1 y t' s2).
    - intros x D. destruct (V5 x D) as (t & s & Kx & N). exists t, (to_inactive s). split; [apply reset_known; eauto|]. by rewrite to_inactive_confirmed.
    - intros x t s Kx Lx N. apply reset_known in Kx as (s' & Kx & ->). apply (proj1 (to_inactive_live s')) in Lx. rewrite to_inactive_confirmed in N. by apply (V6 x t s').
    - apply V7.
    - intros x y L. destruct (V8 x y L) as (t & s & Ky & N). exists t, (to_inactive s). split; [apply reset_known; eauto|]. by rewrite to_inactive_confirmed.
  Qed.
  Lemma linked_reset c : linked c -> linked (reset_inmempool c).
  Proof.
    intros Lk x tx0 sx y ty sy Kx Lx N Ky Ly Sp. apply reset_known in Kx as (s1 & Kx & ->), Ky as (s2 & Ky & ->). apply (proj1 (to_inactive_live s1)) in Lx. apply (proj1 (to_inactive_live s2)) in Ly.
    rewrite to_inactive_confirmed in N. by apply (Lk x tx0 s1 y ty s2).
  Qed.

  (** * Giving transactions up *)
  Lemma mark_spec allowed bad unknown new l : ∀ (c c' : cache) ts, NoDup l -> mark allowed bad unknown new l c = (c', Ok ts) ->
    desc c' = desc c ∧ consumed c' = consumed c ∧
    (∀ x, x ∈ l -> ∃ t s f, known c x t s ∧ allowed s = Some f ∧ known c' x t new) ∧
    (∀ x, x ∉ l -> txs c' !! x = txs c !! x) ∧
    (∀ t, t ∈ ts <-> ∃ x s, x ∈ l ∧ known c x t s ∧ allowed s = Some true).
  Proof.
    induction l as [|x l IH]; intros c c' ts ND E.
    - cbn in E. injection E as <- <-. split; [done|]. split; [done|]. split; [intros x I; by apply elem_of_nil in I|]. split; [done|].
      intros t. split; [intros I; by apply elem_of_nil in I|]. intros (x & s & I & _). by apply elem_of_nil in I.
    - cbn [mark] in E. destruct (txs c !! x) as [[t s]|] eqn:K; [|discriminate]. destruct (allowed s) as [f|] eqn:Al; [|discriminate].
      apply NoDup_cons in ND as [NI ND].
      destruct (mark allowed bad unknown new l (set_txs (<[x := (t, new)]> (txs c)) c)) as [c1 [ts1|e|]] eqn:M; [|discriminate|discriminate].
      injection E as <- <-. apply IH in M as (M1 & M2 & M3 & M4 & M5); [|done]. cbn [set_txs txs desc consumed] in *.
      split; [done|]. split; [done|]. split; [|split].
      + intros y I. apply elem_of_cons in I as [->|I].
        * exists t, s, f. split; [done|]. split; [done|]. unfold known. rewrite M4 by done. apply lookup_insert.
        * destruct (M3 y I) as (t' & s' & f' & Ky & A & Ky'). exists t', s', f'. split; [|done]. unfold known in *. cbn in Ky. rewrite lookup_insert_ne in Ky; [done|]. intros ->. done.
      + intros y I. apply not_elem_of_cons in I as [N I]. rewrite M4 by done. by apply lookup_insert_ne.
      + intros t'. assert (t' ∈ ts1 <-> ∃ y s', y ∈ l ∧ known c y t' s' ∧ allowed s' = Some true) as M5'.
        { rewrite M5. split; intros (y & s' & I & Ky & A); exists y, s'; (split; [done|]); (split; [|done]); unfold known in *; cbn in *.
          - rewrite lookup_insert_ne in Ky; [done|]. intros ->. done.
          - rewrite lookup_insert_ne; [done|]. intros ->. done. }
        destruct f.
        * rewrite elem_of_cons, M5'. split.
          -- intros [->|(y & s' & I & R)]; [exists x, s; split; [constructor|done]|]. exists y, s'. split; [by constructor|done].
          -- intros (y & s' & I & Ky & A). apply elem_of_cons in I as [->|I]; [|right; by exists y, s']. left. unfold known in Ky. rewrite K in Ky. by injection Ky.
        * rewrite M5'. split.
          -- intros (y & s' & I & R). exists y, s'. split; [by constructor|done].
          -- intros (y & s' & I & Ky & A). apply elem_of_cons in I as [->|I]; [|by exists y, s']. unfold known in Ky. rewrite K in Ky. injection Ky as <- <-. congruence.
  Qed.

  Lemma rollbacks ts (c : cache) : let c' := foldr rollback c ts in txs c' = txs c ∧ desc c' = desc c ∧
    ∀ o, consumed c' !! o = if decide (Exists (fun t => o ∈ ins t) ts) then None else consumed c !! o.
  Proof.
    cbn. induction ts as [|t ts IH]; [split; [done|]; split; [done|]; intros o; by rewrite decide_False by by intros ?%Exists_nil|].
    destruct IH as (I1 & I2 & I3). cbn [foldr]. split; [done|]. split; [done|]. intros o. rewrite rollback_consumed, I3.
    destruct (decide (o ∈ ins t)) as [I|I].
    - rewrite decide_True; [done|]. by left.
    - destruct (decide (Exists (fun t => o ∈ ins t) ts)) as [J|J]; [rewrite decide_True; [done|by right]|].
      rewrite decide_False; [done|]. by intros [?|?]%Exists_cons.
  Qed.

  (** A step that takes some live transactions out of the running *)
  Record retired (gone : T -> Prop) (new : txstate) (c c' : cache) : Prop := Retired {
    rt_new : ¬ live new;
    rt_gone : ∀ x, gone x -> ∃ t s, known c x t s ∧ ¬ is_confirmed s ∧ known c' x t new;
    rt_kept : ∀ x, ¬ gone x -> txs c' !! x = txs c !! x;
    rt_dec : ∀ x, gone x ∨ ¬ gone x;
    rt_free : ∀ o, consumed c' !! o = consumed c !! o ∨ ∃ x t s, gone x ∧ known c x t s ∧ live s ∧ o ∈ ins t;
    rt_freed : ∀ o x t s, gone x -> known c x t s -> live s -> o ∈ ins t -> consumed c' !! o = None;
    rt_desc : ∀ x, desc c' !! x = desc c !! x ∨ (desc c' !! x = None ∧ ∀ t s, known c' x t s -> ¬ live s) }.

  Lemma retired_known gone new c c' x t s : retired gone new c c' -> known c' x t s -> live s -> ¬ gone x ∧ known c x t s.
  Proof.
    intros R K L. destruct (rt_dec _ _ _ _ R x) as [G|G].
    - destruct (rt_gone _ _ _ _ R x G) as (t' & s' & _ & _ & K'). unfold known in *. rewrite K' in K. injection K as -> <-. by destruct (rt_new _ _ _ _ R).
    - split; [done|]. unfold known in *. by rewrite (rt_kept _ _ _ _ R x G) in K.
  Qed.
  Lemma inv_retired gone new c c' : inv c -> retired gone new c c' -> inv c'.
  Proof.
    intros [V1 V2 V3 V4 V5 V6 V7 V8] R. pose proof (retired_known gone new c c') as RK. destruct R as [R1 R2 R3 R4 R5 R6 R7] eqn:ER. pose proof R as R0. clear ER. constructor.
    - intros x t s K. destruct (R4 x) as [G|G].
      + destruct (R2 x G) as (t' & s' & Kx & _ & K'). unfold known in *. rewrite K' in K. injection K as <- _. by apply (V1 x t' s').
      + unfold known in *. rewrite (R3 x G) in K. by apply (V1 x t s).
    - intros x t s o K L I. destruct (RK x t s R K L) as [G Kx]. destruct (R5 o) as [->|(y & t' & s' & Gy & Ky & Ly & J)]; [by apply (V2 x t s o)|].
      exfalso. apply (V4 x t s y t' s' o); try done. intros ->. done.
    - intros o s Co Ls. destruct (R5 o) as [Eq|(y & t' & s' & Gy & Ky & Ly & J)].
      + rewrite Eq in Co. destruct (V3 o s Co Ls) as (x & t & Kx & I). exists x, t. split; [|done]. destruct (R4 x) as [G|G].
        * rewrite (V2 x t s o) in Eq by done. rewrite (R6 o x t s G Kx Ls I) in Eq. done.
        * unfold known. by rewrite (R3 x G).
      + rewrite (R6 o y t' s' Gy Ky Ly J) in Co. done.
    - intros x t s y t' s' o Kx Ky Lx Ly. destruct (RK x t s R Kx Lx) as [_ Kx']. destruct (RK y t' s' R Ky Ly) as [_ Ky']. by apply (V4 x t s y t' s').
    - intros x D. destruct (R7 x) as [Eq|[Eq _]]; [|rewrite Eq in D; by destruct D]. rewrite Eq in D. destruct (V5 x D) as (t & s & K & N). destruct (R4 x) as [G|G].
      + destruct (R2 x G) as (t' & s' & _ & _ & K'). exists t', new. split; [done|]. intros F. by apply R1, confirmed_live.
      + exists t, s. unfold known. by rewrite (R3 x G).
    - intros x t s K L N. destruct (RK x t s R K L) as [G Kx]. destruct (R7 x) as [->|[_ Nl]]; [by apply (V6 x t s)|]. by destruct (Nl t s K).
    - intros x y (s & Es & I). apply V7. exists s. split; [|done]. destruct (R7 x) as [<-|[Eq _]]; [done|congruence].
    - intros x y (s & Es & I). assert (link (desc c) x y) as L by (exists s; split; [|done]; destruct (R7 x) as [<-|[Eq _]]; [done|congruence]).
      destruct (V8 x y L) as (t & s' & K & N). destruct (R4 y) as [G|G].
      + destruct (R2 y G) as (t1 & s1 & _ & _ & K'). exists t1, new. split; [done|]. intros F. by apply R1, confirmed_live.
      + exists t, s'. unfold known. by rewrite (R3 y G).
  Qed.
  Lemma linked_retired gone new c c' : linked c -> retired gone new c c' -> linked c'.
  Proof.
    intros Lk R x tx0 sx y ty sy Kx Lx N Ky Ly Sp. destruct (retired_known _ _ _ _ _ _ _ R Kx Lx) as [G Kx']. destruct (retired_known _ _ _ _ _ _ _ R Ky Ly) as [_ Ky'].
    destruct (Lk x tx0 sx y ty sy Kx' Lx N Ky' Ly Sp) as (s & Es & I). exists s. split; [|done]. destruct (rt_desc _ _ _ _ R x) as [->|[_ Nl]]; [done|]. by destruct (Nl tx0 sx Kx).
  Qed.

  Lemma abandon_spec id (c c' : cache) : inv c -> abandon id c = (c', Ok tt) ->
    retired (fun x => rtc (link (desc c)) id x) Abandoned c c'.
  Proof.
    intros V E. unfold abandon in E. destruct (match txs c !! id with Some _ => _ | None => _ end); [discriminate|].
    destruct (remove_descendants_spec id c) as (all & d & Ed & ND & Al & D). rewrite Ed in E.
    destruct (mark may_abandon _ _ _ all (set_desc d c)) as [c1 [ts|e|]] eqn:M; [|discriminate|discriminate]. injection E as <-.
    apply mark_spec in M as (M1 & M2 & M3 & M4 & M5); [|done]. destruct (rollbacks ts c1) as (F1 & F2 & F3). cbn [set_desc desc txs consumed] in *.
    constructor.
    - by intros [].
    - intros x G. apply Al in G. destruct (M3 x G) as (t & s & f & K & A & K'). exists t, s. split; [done|]. split; [intros Cf; by destruct s|]. unfold known. by rewrite F1.
    - intros x G. rewrite F1. apply M4. by rewrite Al.
    - intros x. rewrite <- Al. destruct (decide (x ∈ all)); [by left|by right].
    - intros o. rewrite F3, M2. destruct (decide (Exists (fun t => o ∈ ins t) ts)) as [X|X]; [right|by left].
      apply Exists_exists in X as (t & I & J). apply M5 in I as (x & s & I & K & A). exists x, t, s. rewrite <- Al. split; [done|]. split; [done|]. split; [by destruct s|done].
    - intros o x t s G K L I. rewrite F3, decide_True; [done|]. apply Exists_exists. exists t. split; [|done]. apply M5. apply Al in G. exists x, s. split; [done|]. split; [done|].
      destruct (M3 x G) as (t' & s' & f & K1 & A & _). unfold known in *. cbn in K1. rewrite K in K1. injection K1 as <- <-. by destruct s.
    - intros x. rewrite F2, M1, D. destruct (decide (x ∈ all)) as [I|I]; [right|by left]. split; [done|].
      intros t s K. destruct (M3 x I) as (t' & s' & f & _ & _ & K'). unfold known in *. rewrite F1, K' in K. injection K as <- <-. by intros [].
  Qed.

  Lemma mark_only allowed bad unknown new l : ∀ (c c' : cache) r, mark allowed bad unknown new l c = (c', r) ->
    ∀ x t s, known c x t s -> txs c' !! x = txs c !! x ∨ (is_Some (allowed s) ∧ known c' x t new).
  Proof.
    induction l as [|y l IH]; intros c c' r E x t s K; cbn [mark] in E; [injection E as <- <-; by left|].
    destruct (txs c !! y) as [[t' s']|] eqn:Ky; [|injection E as <- <-; by left].
    destruct (allowed s') as [f|] eqn:Al; [|injection E as <- <-; by left].
    destruct (mark allowed bad unknown new l (set_txs (<[y := (t', new)]> (txs c)) c)) as [c1 r1] eqn:M.
    assert (c' = c1) as -> by (destruct r1; by injection E as <- <-). destruct (decide (y = x)) as [->|N].
    - unfold known in K. rewrite K in Ky. injection Ky as <- <-. right. split; [by eexists|].
      destruct (IH _ _ _ M x t new) as [Eq|[_ ?]]; [unfold known; cbn; by rewrite lookup_insert| |done]. unfold known. rewrite Eq. cbn. by rewrite lookup_insert.
    - destruct (IH _ _ _ M x t s) as [Eq|?]; [unfold known; cbn; by rewrite lookup_insert_ne| |by right]. left. rewrite Eq. cbn. by rewrite lookup_insert_ne.
  Qed.
  Lemma abandon_only id (c c' : cache) r : abandon id c = (c', r) ->
    ∀ x t s, known c x t s -> txs c' !! x = txs c !! x ∨ (is_Some (may_abandon s) ∧ known c' x t Abandoned).
  Proof.
    intros E x t s K. unfold abandon in E. destruct (match txs c !! id with Some _ => _ | None => _ end); [injection E as <- <-; by left|].
    destruct (remove_descendants_spec id c) as (all & d & Ed & ND & Al & D). rewrite Ed in E.
    destruct (mark may_abandon _ _ _ all (set_desc d c)) as [c1 r1] eqn:M.
    assert (txs c' = txs c1) as Et by (destruct r1 as [ts|e|]; injection E as <- <-; [by destruct (rollbacks ts c1)|done|done]).
    destruct (mark_only _ _ _ _ _ _ _ _ M x t s K) as [Eq|?]; [left; by rewrite Et, Eq|right]. unfold known in *. by rewrite Et.
  Qed.

  Lemma rollbacks_l ts (c : cache) : let c' := foldl (fun c t => rollback t c) c ts in txs c' = txs c ∧ desc c' = desc c ∧
    ∀ o, consumed c' !! o = if decide (Exists (fun t => o ∈ ins t) ts) then None else consumed c !! o.
  Proof.
    cbn. revert c. induction ts as [|t ts IH]; intros c; [split; [done|]; split; [done|]; intros o; by rewrite decide_False by by intros ?%Exists_nil|].
    cbn [foldl]. destruct (IH (rollback t c)) as (I1 & I2 & I3). split; [done|]. split; [done|]. intros o. rewrite I3, rollback_consumed.
    destruct (decide (Exists (fun t => o ∈ ins t) ts)) as [J|J]; [rewrite decide_True; [done|by right]|].
    destruct (decide (o ∈ ins t)) as [I|I]; [rewrite decide_True; [done|by left]|]. rewrite decide_False; [done|]. by intros [?|?]%Exists_cons.
  Qed.

  Lemma conflict_step b all d (processed : list T) (c c1 : cache) ts : NoDup all -> (∀ x, d !! x = if decide (x ∈ all) then None else desc c !! x) ->
    (∀ x, x ∈ processed -> ∀ t s, known c x t s -> ¬ live s) -> let todo := filter (λ x, x ∉ processed) (rev all) in
    mark may_conflict CannotMarkTxAsConflictedIfInState CannotFindDescendantTransactionWithId (Conflicted b) todo (set_desc d c) = (c1, Ok ts) ->
    let c2 := foldl (fun c t => rollback t c) c1 ts in
    retired (fun x => x ∈ todo) (Conflicted b) c c2 ∧ (∀ x, x ∈ todo ++ processed -> ∀ t s, known c2 x t s -> ¬ live s).
  Proof.
    intros ND D Pr todo M c2.
    assert (NoDup todo) as ND2.
    { apply NoDup_filter. apply NoDup_ListNoDup, NoDup_rev. by apply NoDup_ListNoDup. }
    apply mark_spec in M as (M1 & M2 & M3 & M4 & M5); [|done]. destruct (rollbacks_l ts c1) as (F1 & F2 & F3). fold c2 in F1, F2, F3. cbn [set_desc desc txs consumed] in *.
    assert (∀ x, x ∈ todo -> x ∈ all) as TA by (intros x I; unfold todo in I; apply elem_of_list_filter in I as [_ I]; by apply elem_of_list_In, in_rev, elem_of_list_In in I).
    assert (∀ x t s, x ∈ processed -> known c1 x t s -> ¬ live s) as Pr1.
    { intros x t s I K. destruct (decide (x ∈ todo)) as [J|J].
      - destruct (M3 x J) as (t' & s' & f & _ & _ & K'). unfold known in *. rewrite K' in K. injection K as <- <-. by intros [].
      - unfold known in K. rewrite M4 in K by done. by apply (Pr x I t s). }
    split.
    - constructor.
      + by intros [].
      + intros x G. destruct (M3 x G) as (t & s & f & K & A & K'). exists t, s. split; [done|]. split; [intros Cf; by destruct s|]. unfold known. by rewrite F1.
      + intros x G. rewrite F1. by apply M4.
      + intros x. destruct (decide (x ∈ todo)); [by left|by right].
      + intros o. rewrite F3, M2. destruct (decide (Exists (fun t => o ∈ ins t) ts)) as [X|X]; [right|by left].
        apply Exists_exists in X as (t & I & J). apply M5 in I as (x & s & I & K & A). exists x, t, s. split; [done|]. split; [done|]. split; [by destruct s|done].
      + intros o x t s G K L I. rewrite F3, decide_True; [done|]. apply Exists_exists. exists t. split; [|done]. apply M5. exists x, s. split; [done|]. split; [done|].
        destruct (M3 x G) as (t' & s' & f & K1 & A & _). unfold known in *. cbn in K1. rewrite K in K1. injection K1 as <- <-. by destruct s.
      + intros x. rewrite F2, M1, D. destruct (decide (x ∈ all)) as [I|I]; [right|by left]. split; [done|].
        intros t s K. unfold known in K. rewrite F1 in K. destruct (decide (x ∈ processed)) as [Ip|Ip]; [by apply (Pr1 x t s)|].
        assert (x ∈ todo) as J by (unfold todo; apply elem_of_list_filter; split; [done|]; by apply elem_of_list_In, in_rev; rewrite rev_involutive; apply elem_of_list_In).
        destruct (M3 x J) as (t' & s' & f & _ & _ & K'). unfold known in *. rewrite K' in K. injection K as <- <-. by intros [].
    - intros x I t s K. unfold known in K. rewrite F1 in K. apply elem_of_app in I as [I|I]; [|by apply (Pr1 x t s)].
      destruct (M3 x I) as (t' & s' & f & _ & _ & K'). unfold known in K'. rewrite K' in K. injection K as <- <-. by intros [].
  Qed.
  Lemma conflicts_spec b ids : ∀ processed (c c' : cache), (∀ x, x ∈ processed -> ∀ t s, known c x t s -> ¬ live s) ->
    mark_conflicts b ids processed c = (c', Ok tt) -> ∀ P : cache -> Prop,
    P c -> (∀ gone c1 c2, P c1 -> retired gone (Conflicted b) c1 c2 -> P c2) -> P c'.
  Proof.
    induction ids as [|id ids IH]; intros processed c c' Pr E P P0 PS.
    - cbn in E. by injection E as <-.
    - cbn [mark_conflicts] in E. destruct (remove_descendants_spec id c) as (all & d & Ed & ND & Al & D). rewrite Ed in E.
      destruct (mark may_conflict _ _ _ _ (set_desc d c)) as [c1 [ts|e|]] eqn:M; [|discriminate|discriminate].
      destruct (conflict_step b all d processed c c1 ts ND D Pr M) as [R Pr2].
      apply (IH _ _ _) with (P := P) in E; [done|done|by eapply PS|done].
  Qed.

  (** When this succeeds *)
  Lemma mark_ok allowed bad unknown new l : ∀ c : cache, NoDup l -> (∀ x, x ∈ l -> ∃ t s, known c x t s ∧ is_Some (allowed s)) ->
    ∃ c' ts, mark allowed bad unknown new l c = (c', Ok ts).
  Proof.
    induction l as [|x l IH]; intros c ND O; [by eexists _, _|]. apply NoDup_cons in ND as [NI ND]. cbn [mark].
    destruct (O x) as (t & s & K & f & A); [constructor|]. unfold known in K. rewrite K, A.
    destruct (IH (set_txs (<[x := (t, new)]> (txs c)) c) ND) as (c' & ts & E); [|rewrite E; by eexists _, _].
    intros y I. destruct (O y) as (t' & s' & K' & A'); [by constructor|]. exists t', s'. split; [|done]. unfold known. cbn. rewrite lookup_insert_ne; [done|]. intros ->. done.
  Qed.
  Lemma reachable_known (c : cache) id x : inv c -> (∃ t s, known c id t s) -> rtc (link (desc c)) id x -> descends body id x ∧ ∃ t s, known c x t s.
  Proof.
    intros V K. revert x. apply rtc_ind_r; [split; [constructor|done]|]. intros x y _ L [D _]. split.
    - eapply rtc_r; [done|]. by apply (i_link _ V).
    - destruct (i_child _ V x y L) as (t & s & Ky & _). by exists t, s.
  Qed.
  Lemma abandon_ok id (c : cache) : inv c -> (∃ t s, known c id t s) ->
    (∀ x t s, descends body id x -> known c x t s -> is_Some (may_abandon s)) -> ∃ c', abandon id c = (c', Ok tt).
  Proof.
    intros V K O. unfold abandon. destruct K as (t0 & s0 & K). pose proof K as K'. unfold known in K'. rewrite K'.
    destruct (O id t0 s0 ltac:(constructor) K) as [f A]. rewrite A. destruct (remove_descendants_spec id c) as (all & d & Ed & ND & Al & D). rewrite Ed.
    edestruct (mark_ok may_abandon CannotChangeTransactionState CannotFindTransactionWithId Abandoned all (set_desc d c) ND) as (c' & ts & E); [|rewrite E; by eexists].
    intros x I. apply Al in I. destruct (reachable_known c id x V ltac:(by exists t0, s0) I) as [Dx (t & s & Kx)]. exists t, s. split; [done|]. by apply (O x t s).
  Qed.
  Lemma conflicts_ok b ids : ∀ processed (c : cache), inv c -> (∀ x, x ∈ processed -> ∀ t s, known c x t s -> ¬ live s) ->
    (∀ id, id ∈ ids -> (∃ t s, known c id t s) ∧ ∀ x t s, descends body id x -> known c x t s -> x ∈ processed ∨ is_Some (may_conflict s)) ->
    ∃ c', mark_conflicts b ids processed c = (c', Ok tt).
  Proof.
    induction ids as [|id ids IH]; intros processed c V Pr O; [by eexists|]. cbn [mark_conflicts].
    destruct (remove_descendants_spec id c) as (all & d & Ed & ND & Al & D). rewrite Ed.
    edestruct (mark_ok may_conflict CannotMarkTxAsConflictedIfInState CannotFindDescendantTransactionWithId (Conflicted b) (filter (λ x, x ∉ processed) (rev all)) (set_desc d c)) as (c1 & ts & E).
    { apply NoDup_filter. apply NoDup_ListNoDup, NoDup_rev. by apply NoDup_ListNoDup. }
    { intros x I. apply elem_of_list_filter in I as [NP I]. apply elem_of_list_In, in_rev, elem_of_list_In in I. apply Al in I.
      destruct (O id ltac:(constructor)) as [K Oi]. destruct (reachable_known c id x V K I) as [Dx (t & s & Kx)]. exists t, s. split; [done|].
      destruct (Oi x t s Dx Kx) as [?|?]; done. }
    rewrite E. destruct (conflict_step b all d processed c c1 ts ND D Pr E) as [R Pr2]. apply IH.
    - by apply (inv_retired _ _ _ _ V R).
    - done.
    - intros id' I. destruct (O id' ltac:(by constructor)) as [K Oi]. split.
      + destruct K as (t & s & K). destruct (rt_dec _ _ _ _ R id') as [G|G].
        * destruct (rt_gone _ _ _ _ R id' G) as (t' & s' & _ & _ & K'). by eexists _, _.
        * exists t, s. unfold known. by rewrite (rt_kept _ _ _ _ R id' G).
      + intros x t s Dx Kx. destruct (rt_dec _ _ _ _ R x) as [G|G]; [left; apply elem_of_app; by left|].
        unfold known in Kx. rewrite (rt_kept _ _ _ _ R x G) in Kx. destruct (Oi x t s Dx Kx) as [?|?]; [left; apply elem_of_app; by right|by right].
  Qed.

  (** * Opening again *)
  Notation entry := (T * (tx T Out * txstate))%type.
  Lemma load_spec l : ∀ c : cache, inv c ->
    NoDup (l.*1) -> (∀ p : entry, p ∈ l -> fst (snd p) = body (fst p)) -> (∀ p : entry, p ∈ l -> txs c !! fst p = None) ->
    (∀ p : entry, p ∈ l -> apart_from c (fst p) (fst (snd p))) ->
    (∀ (p q : entry) o, p ∈ l -> q ∈ l -> fst p ≠ fst q -> o ∈ ins (fst (snd p)) -> o ∉ ins (fst (snd q))) ->
    ((∀ p : entry, p ∈ l -> ¬ is_confirmed (snd (snd p))) ∨ desc c = ∅ ∧ ∀ p : entry, p ∈ l -> is_confirmed (snd (snd p))) ->
    ∃ c', load l c = (c', Ok tt) ∧ inv c' ∧ (∀ x t s, known c' x t s <-> known c x t s ∨ (x, (t, s)) ∈ l) ∧
      ((∀ p : entry, p ∈ l -> is_confirmed (snd (snd p))) -> desc c = ∅ -> desc c' = ∅) ∧
      (linked c -> (∀ p : entry, p ∈ l -> ∀ x t s, known c x t s -> live s -> ¬ spends t (fst p)) ->
       (∀ l1 (x : entry) l2 y, l = l1 ++ x :: l2 -> y ∈ l1 -> live (snd (snd y)) -> ¬ spends (fst (snd y)) (fst x)) -> linked c').
  Proof.
    induction l as [|[id [t st]] l IH]; intros c V ND Bd Ab Ap Pw Cf.
    - exists c. split; [done|]. split; [done|]. split; [|done]. intros x t s. split; [by left|]. intros [?|I]; [done|by apply elem_of_nil in I].
    - assert (t = body id) as -> by (apply (Bd (id, (t, st))); constructor).
      assert (txs c !! id = None) as Nid by (apply (Ab (id, (body id, st))); constructor).
      assert (∃ c1 b, add_tx id (body id) st c = (c1, Ok b)) as (c1 & b & E).
      { apply add_tx_ok. destruct Cf as [Cf|[De _]]; [left; apply (Cf (id, (body id, st))); constructor|]. right. intros o _ _. by rewrite De, lookup_empty. }
      cbn [load]. rewrite E.
      assert (inv c1) as V1 by (apply (inv_add id st c c1 b V); [apply (Ap (id, (body id, st))); constructor|done]).
      assert (∀ x t s, known c1 x t s <-> (x = id ∧ t = body id ∧ s = st) ∨ known c x t s) as K.
      { pose proof E as E'. apply add_tx_spec in E' as [(_ & _ & t' & s' & K & _)|(_ & _ & E1 & _)]; [unfold known in K; congruence|].
        intros x t s. unfold known. rewrite E1, lookup_insert_Some. split; [intros [[<- [= <- <-]]|[N ?]]; [by left|by right]|].
        intros [(-> & -> & ->)|Kx]; [by left|]. destruct (decide (id = x)) as [->|N]; [congruence|by right]. }
      cbn in ND. apply NoDup_cons in ND as [NI ND].
      assert (∀ p : entry, p ∈ l -> fst p ≠ id) as Ne.
      { intros p I Q. apply NI. rewrite <- Q. by apply elem_of_list_fmap_1. }
      assert (is_confirmed st -> desc c = ∅ -> desc c1 = ∅) as De.
      { intros Ci De. pose proof E as E'. apply add_tx_spec in E' as [(_ & -> & _)|(_ & _ & _ & _ & E3 & _)]; [done|]. apply map_eq. intros a. rewrite lookup_empty.
        destruct (desc c1 !! a) eqn:Ea; [|done]. assert (is_Some (desc c1 !! a)) as Sm by eauto. apply E3 in Sm. destruct (decide (a = id)); [done|].
        rewrite De, lookup_empty in Sm. by destruct Sm. }
      destruct (IH c1 V1 ND) as (c' & L & V' & K' & D' & Lk').
      + intros p I. apply Bd. by constructor.
      + intros p I. destruct (txs c1 !! fst p) as [[t s]|] eqn:Kp; [|done]. apply K in Kp as [(Q & _ & _)|Kp]; [by destruct (Ne p I)|].
        assert (txs c !! fst p = None) as F by (apply (Ab p); by constructor). unfold known in Kp. congruence.
      + intros p I x t s o Kx Lx N J. apply K in Kx as [(-> & -> & ->)|Kx].
        * apply (Pw p (id, (body id, st)) o); [by constructor|constructor|by apply Ne|done].
        * apply (Ap p ltac:(by constructor) x t s o Kx Lx N J).
      + intros p q o Ip Iq. apply Pw; by constructor.
      + destruct Cf as [Cf|[De0 Cf]].
        * left. intros p I. apply Cf. by constructor.
        * right. split; [|intros p I; apply Cf; by constructor]. apply De; [|done]. apply (Cf (id, (body id, st))). constructor.
      + exists c'. split; [done|]. split; [done|]. split; [|split].
        * intros x t s. rewrite K', K, elem_of_cons. split.
          -- intros [[(-> & -> & ->)|Kx]|I]; [right; by left|by left|right; by right].
          -- intros [Kx|[[= -> -> ->]|I]]; [left; by right|left; by left|by right].
        * intros Ci De0. apply D'; [intros p I; apply Ci; by constructor|]. apply De; [|done]. apply (Ci (id, (body id, st))). constructor.
        * intros Lk O1 O2. apply Lk'.
          -- apply (linked_add id st c c1 b V Lk); [|done]. intros _ x t s. apply (O1 (id, (body id, st))). constructor.
          -- intros p I x t s Kx Lx. apply K in Kx as [(-> & -> & ->)|Kx]; [|apply (O1 p ltac:(by constructor) x t s Kx Lx)].
             apply elem_of_list_split in I as (l1 & l2 & El). apply (O2 ((id, (body id, st)) :: l1) p l2 (id, (body id, st))); [by rewrite El|constructor|done].
          -- intros l1 x l2 y El I. apply (O2 ((id, (body id, st)) :: l1) x l2 y); [by rewrite El|by constructor].
  Qed.

  Lemma load_app l1 : ∀ l2 (c : cache), load (l1 ++ l2) c = match load l1 c with (c1, Ok _) => load l2 c1 | r => r end.
  Proof.
    induction l1 as [|[id [t st]] l1 IH]; intros l2 c; [done|]. cbn [app load]. destruct (add_tx id t st c) as [c1 [?|?|]]; [apply IH|done|done].
  Qed.

  Lemma reopen_spec (c : cache) l : inv c -> stored_order c l -> no_double_spend c -> ∃ c', load l empty = (c', Ok tt) ∧ inv c' ∧ txs c' = txs c ∧
    ((∀ l1 (x : entry) l2 y, l = l1 ++ x :: l2 -> y ∈ l1 -> live (snd (snd y)) -> ¬ spends (fst (snd y)) (fst x)) -> linked c').
  Proof.
    intros V (Pm & l1 & l2 & -> & C1 & C2) NDS.
    assert (∀ x t s, (x, (t, s)) ∈ l1 ++ l2 <-> known c x t s) as M by (intros x t s; rewrite Pm; by rewrite elem_of_map_to_list).
    assert (NoDup ((l1 ++ l2).*1)) as ND by (rewrite Pm; apply NoDup_fst_map_to_list).
    rewrite fmap_app in ND. apply NoDup_app in ND as (ND1 & ND12 & ND2).
    assert (∀ p : entry, p ∈ l1 ++ l2 -> fst (snd p) = body (fst p)) as Bd by (intros [x [t s]] I; apply M in I; by apply (i_body _ V x t s)).
    assert (∀ (p q : entry) o, p ∈ l1 ++ l2 -> q ∈ l1 ++ l2 -> fst p ≠ fst q -> o ∈ ins (fst (snd p)) -> o ∉ ins (fst (snd q))) as Pw.
    { intros [x [t s]] [y [t' s']] o Ip Iq N. apply M in Ip, Iq. apply (NDS x t s y t' s' o Ip Iq). cbn in N. congruence. }
    destruct (load_spec l1 empty inv_empty ND1) as (c1 & L1 & V1 & K1 & D1 & Lk1).
    - intros p I. apply Bd. apply elem_of_app. by left.
    - intros p _. apply lookup_empty.
    - intros p _ x t s o Kx. unfold known in Kx. cbn in Kx. by rewrite lookup_empty in Kx.
    - intros p q o Ip Iq. apply Pw; apply elem_of_app; by left.
    - right. split; [done|]. done.
    - assert (∀ x t s, known c1 x t s <-> (x, (t, s)) ∈ l1) as K1'.
      { intros x t s. rewrite K1. split; [|by right]. intros [Kx|?]; [|done]. unfold known in Kx. cbn in Kx. by rewrite lookup_empty in Kx. }
      destruct (load_spec l2 c1 V1 ND2) as (c2 & L2 & V2 & K2 & D2 & Lk2).
      + intros p I. apply Bd. apply elem_of_app. by right.
      + intros [x [t s]] I. cbn. destruct (txs c1 !! x) as [[t' s']|] eqn:Kx; [|done]. apply K1' in Kx. exfalso. apply (ND12 x).
        * by apply (elem_of_list_fmap_1 fst l1 (x, (t', s'))).
        * by apply (elem_of_list_fmap_1 fst l2 (x, (t, s))).
      + intros p I x t s o Kx Lx N J. apply K1' in Kx. apply (Pw p (x, (t, s)) o); [apply elem_of_app; by right|apply elem_of_app; by left|cbn; congruence|done].
      + intros p q o Ip Iq. apply Pw; apply elem_of_app; by right.
      + left. done.
      + exists c2. split; [by rewrite load_app, L1|]. split; [done|]. split.
        * apply map_eq. intros x. apply option_eq. intros [t s]. change (known c2 x t s <-> known c x t s). rewrite K2, K1', <- M, elem_of_app. done.
        * intros O. apply Lk2.
          -- apply Lk1; [apply linked_empty| |].
             ++ intros p _ x t s Kx. unfold known in Kx. cbn in Kx. by rewrite lookup_empty in Kx.
             ++ intros a x b y El I. apply (O a x (b ++ l2) y); [by rewrite El, <- app_assoc|done].
          -- intros p I x t s Kx Lx. apply K1' in Kx. apply elem_of_list_split in I as (a & b & El).
             apply (O (l1 ++ a) p b (x, (t, s))); [by rewrite El, app_assoc|apply elem_of_app; by left|done].
          -- intros a x b y El I. apply (O (l1 ++ a) x b y); [by rewrite El, app_assoc|apply elem_of_app; by right].
  Qed.

  (** * Every history *)
  Lemma step_inv e (c c' : cache) : inv c -> careful body c e -> step body e c = (c', Ok tt) -> inv c'.
  Proof.
    intros V C E. destruct e as [id st|id| |id|ids b|l]; cbn [step] in E.
    - destruct C as [_ C]. unfold discard in E. destruct (add_tx id (body id) st c) as [c1 [b|e|]] eqn:Ea; [|discriminate|discriminate]. injection E as <-.
      by apply (inv_add id st c c1 b V).
    - by apply (inv_remove id c c' V).
    - injection E as <-. by apply inv_reset.
    - apply (inv_retired _ _ c c' V (abandon_spec id c c' V E)).
    - apply (conflicts_spec b ids [] c c'); [intros x I; by apply elem_of_nil in I|done|done|]. intros gone c1 c2 V1. by apply inv_retired.
    - destruct C as [C1 C2]. destruct (reopen_spec c l V C1 C2) as (c1 & L & V1 & _). rewrite L in E. by injection E as <-.
  Qed.
  Lemma reach_inv (cond : cache -> event -> Prop) es c : (∀ c e, cond c e -> careful body c e) -> reach body cond es c -> inv c.
  Proof.
    intros W R. induction R as [|es c e c' R IH C E]; [apply inv_empty|]. by apply (step_inv e c c' IH); [apply W|].
  Qed.
  Lemma step_linked e (c c' : cache) : inv c -> linked c -> orderly body c e -> step body e c = (c', Ok tt) -> linked c'.
  Proof.
    intros V Lk [C O] E. destruct e as [id st|id| |id|ids b|l]; cbn [step] in E.
    - unfold discard in E. destruct (add_tx id (body id) st c) as [c1 [b|e|]] eqn:Ea; [|discriminate|discriminate]. injection E as <-.
      by apply (linked_add id st c c1 b V Lk).
    - by apply (linked_remove id c c' Lk).
    - injection E as <-. by apply linked_reset.
    - apply (linked_retired _ _ c c' Lk (abandon_spec id c c' V E)).
    - apply (conflicts_spec b ids [] c c'); [intros x I; by apply elem_of_nil in I|done|done|]. intros gone c1 c2. apply linked_retired.
    - destruct C as [C1 C2]. destruct (reopen_spec c l V C1 C2) as (c1 & L & _ & _ & V1). rewrite L in E. injection E as <-. by apply V1.
  Qed.
  Lemma reach_linked es c : reach body (orderly body) es c -> inv c ∧ linked c.
  Proof.
    intros R. induction R as [|es c e c' R [V Lk] C E]; [split; [apply inv_empty|apply linked_empty]|].
    split; [apply (step_inv e c c' V); [apply C|done]|by apply (step_linked e c c' V Lk)].
  Qed.

  (** * What is on the chain *)
  Definition chain_is (m : gmap T txstate) (c : cache) : Prop := ∀ id s, m !! id = Some s <-> is_confirmed s ∧ ∃ t, known c id t s.
  Lemma retired_chain gone new m c c' : chain_is m c -> retired gone new c c' -> chain_is m c'.
  Proof.
    intros Ch R id s. rewrite (Ch id s). destruct (rt_dec _ _ _ _ R id) as [G|G].
    - destruct (rt_gone _ _ _ _ R id G) as (t & s0 & K & N & K'). split; intros [Cf (t' & Kt)].
      + unfold known in *. rewrite K in Kt. injection Kt as <- <-. done.
      + unfold known in *. rewrite K' in Kt. injection Kt as <- <-. destruct (rt_new _ _ _ _ R). by apply confirmed_live.
    - unfold known. by rewrite (rt_kept _ _ _ _ R id G).
  Qed.
  Lemma reach_chain es c : reach body (careful body) es c -> chain_is (on_chain es) c.
  Proof.
    intros R. induction R as [|es c e c' R Ch C E].
    { intros id s. unfold on_chain, known. cbn. rewrite lookup_empty. split; [done|]. intros [_ [t K]]. by rewrite lookup_empty in K. }
    pose proof (reach_inv _ _ _ (fun _ _ X => X) R) as V. unfold on_chain. rewrite foldl_app. fold (on_chain es). cbn [foldl].
    destruct e as [id st|id| |id|ids b|l]; cbn [step] in E.
    - unfold discard in E. destruct (add_tx id (body id) st c) as [c1 [b|e|]] eqn:Ea; [|discriminate|discriminate]. cbn in E. injection E as <-.
      apply add_tx_spec in Ea as [(_ & -> & t' & s' & K & Q)|(_ & Q & E1 & _)].
      + destruct st as [h t i|n|n|n|]; try done. assert (on_chain es !! id = Some s') as ->; [|done]. apply Ch. split; [by destruct s'|by exists t'].
      + assert (on_chain es !! id = None) as No.
        { destruct (on_chain es !! id) as [s|] eqn:Eo; [|done]. apply Ch in Eo as [Cf [t K]]. specialize (Q t s K). by destruct s. }
        assert (∀ x s, x ≠ id -> on_chain es !! x = Some s <-> is_confirmed s ∧ ∃ t, known c1 x t s) as Oth.
        { intros x s N. rewrite (Ch x s). unfold known. by rewrite E1, lookup_insert_ne by done. }
        assert (∀ s, (is_confirmed s ∧ ∃ t, known c1 id t s) <-> is_confirmed s ∧ s = st) as Me.
        { intros s. unfold known. rewrite E1, lookup_insert. split; [by intros [? [t [= <- <-]]]|]. intros [? ->]. eauto. }
        destruct st as [h t i|n|n|n|].
        * rewrite No. intros x s. destruct (decide (x = id)) as [->|N].
          -- rewrite lookup_insert, Me. split; [by intros [= <-]|]. by intros [_ ->].
          -- rewrite lookup_insert_ne by done. by apply Oth.
        * intros x s. destruct (decide (x = id)) as [->|N]; [|by apply Oth]. rewrite No, Me. split; [done|]. by intros [? ->].
        * intros x s. destruct (decide (x = id)) as [->|N]; [|by apply Oth]. rewrite No, Me. split; [done|]. by intros [? ->].
        * intros x s. destruct (decide (x = id)) as [->|N]; [|by apply Oth]. rewrite No, Me. split; [done|]. by intros [? ->].
        * intros x s. destruct (decide (x = id)) as [->|N]; [|by apply Oth]. rewrite No, Me. split; [done|]. by intros [? ->].
    - destruct (remove_known id c c' E) as [_ K]. intros x s. rewrite lookup_delete_Some, (Ch x s). split.
      + intros (N & Cf & t & Kx). split; [done|]. exists t. apply K. split; [congruence|done].
      + intros (Cf & t & Kx). apply K in Kx as [N Kx]. split; [congruence|]. split; [done|by exists t].
    - injection E as <-. intros x s. rewrite (Ch x s). split; intros [Cf [t K]]; (split; [done|]); exists t.
      + apply reset_known. exists s. split; [done|]. by destruct s.
      + apply reset_known in K as (s' & K & ->). by destruct s'.
    - apply (retired_chain _ _ _ c c' Ch (abandon_spec id c c' V E)).
    - apply (conflicts_spec b ids [] c c'); [intros x I; by apply elem_of_nil in I|done|done|]. intros gone c1 c2. apply retired_chain.
    - destruct C as [C1 C2]. destruct (reopen_spec c l V C1 C2) as (c1 & L & _ & Et & _). rewrite L in E. injection E as <-.
      intros x s. rewrite (Ch x s). unfold known. by rewrite Et.
  Qed.

  (** * Unspent outputs *)
  Lemma utxos_spec ok which (c : cache) o out : (o, out) ∈ utxos ok which c <->
    ∃ t s, known c (fst o) t s ∧ which (kind_of s) = true ∧ outs t !! N.to_nat (snd o) = Some out ∧ is_consumed which o c = false ∧ ok s o out = true.
  Proof.
    unfold utxos. rewrite elem_of_list_In, in_flat_map. split.
    - intros ([id [t s]] & I & J). apply elem_of_list_In, elem_of_map_to_list in I. destruct (which (kind_of s)) eqn:W; [|done].
      apply elem_of_list_In, elem_of_list_filter in J as [P J]. apply elem_of_lookup_imap in J as (i & out' & [= -> ->] & L). cbn [fst snd] in *.
      apply andb_prop_elim in P as [P1 P2]. apply Is_true_true in P1, P2. apply negb_true_iff in P1. exists t, s. by rewrite Nat2N.id.
    - intros (t & s & K & W & L & Co & Ok). exists (fst o, (t, s)). split; [apply elem_of_list_In, elem_of_map_to_list; done|].
      rewrite W. apply elem_of_list_In, elem_of_list_filter. cbn [fst snd]. rewrite Co, Ok. split; [done|].
      apply elem_of_lookup_imap. exists (N.to_nat (snd o)), out. rewrite N2Nat.id. by destruct o.
  Qed.
  Lemma is_consumed_spec which (c : cache) o : inv c -> live_only which -> is_consumed which o c = true <-> spent which c o.
  Proof.
    intros V W. unfold is_consumed. split.
    - destruct (consumed c !! o) as [s|] eqn:Co; [|done]. intros Ws. destruct (i_spender _ V o s Co (which_live which s W Ws)) as (id & t & K & I). by exists id, t, s.
    - intros (id & t & s & K & Ws & I). by rewrite (i_cons _ V id t s o K (which_live which s W Ws) I).
  Qed.
  Lemma utxos_inv ok which (c : cache) o out : inv c -> live_only which -> (o, out) ∈ utxos ok which c <->
    ∃ t s, known c (fst o) t s ∧ which (kind_of s) = true ∧ outs t !! N.to_nat (snd o) = Some out ∧ ok s o out = true ∧ ¬ spent which c o.
  Proof.
    intros V W. rewrite utxos_spec. pose proof (is_consumed_spec which c o V W) as Q. split; intros (t & s & K & Ws & L & A & B); exists t, s.
    - rewrite <- Q, A. by rewrite B.
    - rewrite <- Q in B. destruct (is_consumed which o c); [by destruct B|]. done.
  Qed.
  Lemma utxos_confirmed ok es (c : cache) o out : reach body (careful body) es c ->
    (o, out) ∈ utxos ok confirmed_only c <->
    ∃ s, on_chain es !! fst o = Some s ∧ outs (body (fst o)) !! N.to_nat (snd o) = Some out ∧ ok s o out = true ∧
      ∀ id, is_Some (on_chain es !! id) -> o ∉ ins (body id).
  Proof.
    intros R. pose proof (reach_inv _ _ _ (fun _ _ X => X) R) as V. pose proof (reach_chain es c R) as Ch. rewrite utxos_inv by done.
    assert (∀ s, confirmed_only (kind_of s) = true <-> is_confirmed s) as CO by (by intros []).
    split.
    - intros (t & s & K & Ws & L & A & B). exists s. rewrite <- (i_body _ V _ _ _ K). split; [apply Ch; split; [by apply CO|by exists t]|]. split; [done|]. split; [done|].
      intros id [s' X] I. apply Ch in X as [Cf [t' K']]. apply B. exists id, t', s'. rewrite (i_body _ V _ _ _ K'). split; [by rewrite <- (i_body _ V _ _ _ K')|]. split; [by apply CO|done].
    - intros (s & X & L & A & B). apply Ch in X as [Cf [t K]]. exists t, s. rewrite (i_body _ V _ _ _ K). split; [by rewrite <- (i_body _ V _ _ _ K)|]. split; [by apply CO|]. split; [done|]. split; [done|].
      intros (id & t' & s' & K' & Ws & I). apply (B id); [|by rewrite <- (i_body _ V _ _ _ K')]. exists s'. apply Ch. split; [by apply CO|by exists t'].
  Qed.
  Lemma utxos_reopen ok which (c c' : cache) o out : inv c -> inv c' -> live_only which -> txs c' = txs c -> (o, out) ∈ utxos ok which c' <-> (o, out) ∈ utxos ok which c.
  Proof. intros V V' W E. rewrite !utxos_inv by done. unfold spent, known. by rewrite E. Qed.

  (** * Giving a transaction up *)
  Lemma links_descend (c : cache) a b : inv c -> rtc (link (desc c)) a b -> descends body a b.
  Proof. intros V. apply rtc_subrel. intros x y. apply (i_link _ V). Qed.
  Lemma live_linked (c : cache) a b : linked c -> (∃ t s, known c a t s ∧ live s) ->
    (∀ x t s, rtc (link (desc c)) a x -> known c x t s -> ¬ is_confirmed s) -> descends_live c a b -> rtc (link (desc c)) a b.
  Proof.
    intros Lk A NC D. cut (rtc (link (desc c)) a b ∧ ∃ t s, known c b t s ∧ live s); [by intros [? _]|].
    revert b D. apply rtc_ind_r; [split; [constructor|done]|]. intros x y D (t & s & Ky & Ly & Sp) [IH (t' & s' & Kx & Lx)].
    split; [|by exists t, s]. eapply rtc_r; [done|]. apply (Lk x t' s' y t s); try done. by apply (NC x t' s').
  Qed.

  (** * What marking conflicts does *)
  (** Who falls takes its live children along *)
  Definition falls (c c' : cache) (x : T) : Prop := ∀ t s, known c' x t s -> ¬ live s.
  Lemma retired_falls gone new c c' x : retired gone new c c' -> (∀ t s, known c x t s -> ¬ live s) -> falls c c' x.
  Proof. intros R F t s K L. destruct (retired_known _ _ _ _ _ _ _ R K L) as [_ K']. by apply (F t s). Qed.
  Lemma conflicts_effect b ids : ∀ processed (c c' : cache), inv c -> linked c -> (∀ x, x ∈ processed -> ∀ t s, known c x t s -> ¬ live s) ->
    mark_conflicts b ids processed c = (c', Ok tt) ->
    (∀ x t s, known c' x t s -> live s -> known c x t s) ∧
    (∀ id, id ∈ ids -> falls c c' id) ∧
    (∀ x t s y t' s', known c x t s -> live s -> falls c c' x -> known c y t' s' -> live s' -> spends t' x -> falls c c' y) ∧
    (∀ x, txs c' !! x = txs c !! x ∨ ((∃ id, id ∈ ids ∧ descends body id x) ∧ ∃ t s, known c x t s ∧ ¬ is_confirmed s ∧ known c' x t (Conflicted b))).
  Proof.
    induction ids as [|id ids IH]; intros processed c c' V Lk Pr E.
    - cbn in E. injection E as <-. split; [done|]. split; [intros id I; by apply elem_of_nil in I|]. split; [|by left].
      intros x t s y t' s' K L F. by destruct (F t s K).
    - cbn [mark_conflicts] in E. destruct (remove_descendants_spec id c) as (all & d & Ed & ND & Al & D). rewrite Ed in E.
      destruct (mark may_conflict _ _ _ _ (set_desc d c)) as [c1 [ts|e|]] eqn:M; [|discriminate|discriminate].
      destruct (conflict_step b all d processed c c1 ts ND D Pr M) as [R Pr2]. set (todo := filter (λ x, x ∉ processed) (rev all)) in *.
      set (c2 := foldl (fun c t => rollback t c) c1 ts) in *.
      destruct (IH _ c2 c' (inv_retired _ _ _ _ V R) (linked_retired _ _ _ _ Lk R) Pr2 E) as (I1 & I2 & I3 & I4).
      assert (∀ x, x ∈ all -> falls c c' x) as FA.
      { intros x I t s K L. apply (I1 x t s K) in L as K2. apply (Pr2 x) with (t := t) (s := s) in L; [done| |done].
        apply elem_of_app. destruct (decide (x ∈ processed)); [by right|left]. apply elem_of_list_filter. split; [done|]. apply elem_of_list_In, in_rev. rewrite rev_involutive. by apply elem_of_list_In. }
      assert (∀ x, x ∈ todo -> x ∈ all) as TA by (intros x I; unfold todo in I; apply elem_of_list_filter in I as [_ I]; by apply elem_of_list_In, in_rev, elem_of_list_In in I).
      split; [|split; [|split]].
      + intros x t s K L. apply (I1 x t s K) in L as K2. by apply (retired_known _ _ _ _ _ _ _ R K2 L).
      + intros y I. apply elem_of_cons in I as [->|I]; [apply FA, Al; constructor|]. by apply I2.
      + intros x t s y t' s' K L F K' L' Sp.
        destruct (rt_dec _ _ _ _ R x) as [G|G].
        * destruct (rt_gone _ _ _ _ R x G) as (t0 & s0 & K0 & N & _). unfold known in K0. rewrite K in K0. injection K0 as <- <-.
          apply FA. apply Al. apply TA, Al in G. eapply rtc_r; [done|]. by apply (Lk x t s y t' s').
        * assert (known c2 x t s) as K2 by (unfold known; by rewrite (rt_kept _ _ _ _ R x G)).
          destruct (rt_dec _ _ _ _ R y) as [Gy|Gy].
          -- apply FA. by apply TA.
          -- assert (known c2 y t' s') as K2' by (unfold known; by rewrite (rt_kept _ _ _ _ R y Gy)). by apply (I3 x t s y t' s').
      + intros x. destruct (rt_dec _ _ _ _ R x) as [G|G].
        * destruct (rt_gone _ _ _ _ R x G) as (t & s & K & N & K2). right. split.
          -- exists id. split; [constructor|]. apply TA, Al in G. by apply (links_descend c).
          -- exists t, s. split; [done|]. split; [done|]. destruct (I4 x) as [Eq|[_ (t' & s' & K' & _ & K3)]]; [unfold known; by rewrite Eq|].
             unfold known in K'. rewrite K2 in K'. injection K' as <- <-. done.
        * rewrite <- (rt_kept _ _ _ _ R x G). destruct (I4 x) as [Eq|[(id' & I & Dx) (t & s & K & N & K')]]; [by left|right].
          split; [exists id'; split; [by constructor|done]|]. exists t, s. split; [|done]. unfold known in *. by rewrite <- (rt_kept _ _ _ _ R x G).
  Qed.
  Lemma fall_along (c c' : cache) a b : (∀ x t s y t' s', known c x t s -> live s -> falls c c' x -> known c y t' s' -> live s' -> spends t' x -> falls c c' y) ->
    (∃ t s, known c a t s ∧ live s) -> falls c c' a -> descends_live c a b -> falls c c' b.
  Proof.
    intros F Ka Fa D. cut (falls c c' b ∧ ∃ t s, known c b t s ∧ live s); [by intros [? _]|]. revert b D. apply rtc_ind_r; [done|].
    intros x y D (t & s & Ky & Ly & Sp) [Fx (t' & s' & Kx & Lx)]. split; [|by exists t, s]. by apply (F x t' s' y t s).
  Qed.
End Proofs.
