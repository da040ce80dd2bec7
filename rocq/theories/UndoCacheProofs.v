(** Proofs about the undo caches: the stack of caches follows the table of UndoCacheSpec.v, for any kind of record
    satisfying a handful of laws; both kinds do. *)
From Verif Require Import Base BaseProofs ChainModel RewardModel UndoCacheModel UndoCacheSpec.

(** ** Folding one map into another *)
Lemma fold_into_spec {K A B E} `{Countable K} (f : option B -> A -> res E B) (m : gmap K B) (d : gmap K A) :
  (forall k a, d !! k = Some a -> exists b, f (m !! k) a = Ok b) ->
  exists m', fold_into f m d = Ok m'
    /\ forall k, match d !! k with None => m' !! k = m !! k | Some a => exists b, f (m !! k) a = Ok b /\ m' !! k = Some b end.
Proof.
  unfold fold_into.
  apply (map_fold_ind (fun acc d => (forall k a, d !! k = Some a -> exists b, f (m !! k) a = Ok b) ->
    exists m', acc = Ok m' /\ forall k, match d !! k with None => m' !! k = m !! k
      | Some a => exists b, f (m !! k) a = Ok b /\ m' !! k = Some b end)).
  - intros _. exists m. split; [done|]. intros k. by rewrite lookup_empty.
  - intros k a d' r Hk IH Hf. destruct IH as (m' & -> & Hm').
    { intros k' a' Hk'. apply (Hf k' a'). rewrite lookup_insert_ne; [done|]. intros ->. congruence. }
    cbn [rbind]. pose proof (Hm' k) as E1. rewrite Hk in E1. rewrite E1.
    destruct (Hf k a) as [b Eb]; [by rewrite lookup_insert|]. rewrite Eb. cbn [rbind]. eexists. split; [done|].
    intros k'. destruct (decide (k' = k)) as [->|Hne].
    + rewrite !lookup_insert. eauto.
    + rewrite !lookup_insert_ne by done. apply Hm'.
Qed.

Lemma save_fold {D B} (f : gmap N D -> tx_source -> cop B -> res undo_err (gmap N D)) (g : cop B -> option D -> option D)
    (m : gmap N D) (c : gmap tx_source (cop B)) :
  c !! SrcMempool = None ->
  (forall m b o, exists m', f m (SrcChain b) o = Ok m' /\ m' !! b = g o (m !! b) /\ forall b', b' <> b -> m' !! b' = m !! b') ->
  exists m', map_fold (fun s o acc => let? m' := acc in f m' s o) (Ok m) c = Ok m'
    /\ forall b, match c !! SrcChain b with None => m' !! b = m !! b | Some o => m' !! b = g o (m !! b) end.
Proof.
  intros Hc Hf. revert Hc.
  apply (map_fold_ind (fun acc c => c !! SrcMempool = None -> exists m', acc = Ok m'
    /\ forall b, match c !! SrcChain b with None => m' !! b = m !! b | Some o => m' !! b = g o (m !! b) end)).
  - intros _. exists m. split; [done|]. intros b. by rewrite lookup_empty.
  - intros s o c' r Hs IH Hc. destruct s as [b|]; [|by rewrite lookup_insert in Hc].
    rewrite lookup_insert_ne in Hc by done. destruct (IH Hc) as (m1 & -> & Hm1). cbn [rbind].
    destruct (Hf m1 b o) as (m2 & E2 & Hb & Hne). exists m2. split; [done|]. intros b'.
    destruct (decide (b' = b)) as [->|Hbb].
    + rewrite lookup_insert, Hb. pose proof (Hm1 b) as E. rewrite Hs in E. by rewrite E.
    + rewrite lookup_insert_ne by congruence. rewrite (Hne _ Hbb). apply Hm1.
Qed.

(** ** The laws of a kind of record *)
Definition fu {A} (f g : N -> option A) : N -> option A := fun x => match g x with Some i => Some i | None => f x end.
Definition ou {A} (f g : option A) : option A := match g with Some i => Some i | None => f end.
Definition disj {I R : Type} (f g : N -> option I) (r q : option R) : Prop :=
  (forall x, g x <> None -> f x = None) /\ (q <> None -> r = None).
Definition nothing {I R : Type} (f : N -> option I) (r : option R) : Prop := r = None /\ forall x, f x = None.
Definition one {I} (t : N) (i : I) : N -> option I := fun x => if decide (x = t) then Some i else None.

Record kind_laws {B I O R D} (K : block_kind B I O R D) (released : I -> O)
    (blocked : (N -> option I) -> N -> Prop) (holds : B -> (N -> option I) -> option R -> Prop)
    (derived : B -> B -> Prop) (fresh : B -> Prop) (gone : B -> N -> Prop) : Prop := {
  kl_ext : forall b f g r, (forall x, f x = g x) -> holds b f r -> holds b g r;
  kl_default : holds (bk_default K) (fun _ => None) None /\ fresh (bk_default K) /\ forall x, ~ gone (bk_default K) x;
  kl_insert : forall b f r t i, holds b f r -> f t = None ->
    (exists b', bk_insert K b t i = Ok b' /\ holds b' (fu f (one t i)) r /\ (fresh b -> fresh b') /\ forall x, gone b' x -> gone b x)
    \/ (bk_insert K b t i = Err (UndoAlreadyExists t) /\ gone b t);
  kl_set_reward : forall b f r, holds b f None ->
    exists b', bk_set_reward K b r = Ok b' /\ holds b' f (Some r) /\ (fresh b -> fresh b') /\ forall x, gone b' x -> gone b x;
  kl_take : forall b f r t i, holds b f r -> f t = Some i -> ~ blocked f t ->
    exists b', bk_take K b t = Ok (b', Some (released i)) /\ holds b' (fun x => if decide (x = t) then None else f x) r
      /\ derived b b' /\ forall x, gone b' x -> gone b x \/ x = t;
  kl_blocked : forall b f r t i, holds b f r -> f t = Some i -> blocked f t -> bk_take K b t = Err (TxUndoWithDependency t);
  kl_take_none : forall b f r t, holds b f r -> f t = None -> bk_strict K = false ->
    (exists b', bk_take K b t = Ok (b', None)) \/ (bk_take K b t = Err (MissingTxUndo t) /\ gone b t);
  kl_take_reward : forall b f r, holds b f r ->
    exists b', bk_take_reward K b = (b', r) /\ holds b' f None /\ forall x, gone b' x -> gone b x;
  kl_is_empty : forall b f r, holds b f r -> bk_is_empty K b = true <-> nothing f r;
  kl_reload : forall b f r, holds b f r -> holds (bk_load K (bk_save K b)) f r /\ forall x, ~ gone (bk_load K (bk_save K b)) x;
  kl_trans : forall a b c, derived a b -> derived b c -> derived a c;
  kl_combine_derived : forall a b, derived a b -> bk_combine K a b = Ok b;
  kl_combine_fresh : forall a b f r g q, holds a f r -> holds b g q -> fresh b -> disj f g r q ->
    exists b', bk_combine K a b = Ok b' /\ holds b' (fu f g) (ou r q) /\ (fresh a -> fresh b')
      /\ forall x, gone b' x -> gone a x \/ gone b x;
}.

Section Stack.
Context {B I O R D : Type} (K : block_kind B I O R D) (released : I -> O) (blockedf : (N -> option I) -> N -> Prop)
  (blocked : undo_table I R -> tx_source -> txid -> bool)
  (holds : B -> (N -> option I) -> option R -> Prop) (derived : B -> B -> Prop) (fresh : B -> Prop) (gone : B -> N -> Prop).
Context (L : kind_laws K released blockedf holds derived fresh gone).
Notation table := (undo_table I R).
Notation layer := (undo_layer I R).
Implicit Types (T old now : table) (l : layer) (ls : list layer) (s : tx_source) (c : undo_cache B) (cs : list (undo_cache B)).

Definition tx_of T s : N -> option I := fun x => ut_tx T !! (s, x).
Context (Hblocked : forall T s x, blocked T s x = true <-> blockedf (tx_of T s) x).

Definition block_is (b : B) T s : Prop := holds b (tx_of T s) (ut_reward T !! s).
Definition same_at T T' s : Prop := ut_reward T !! s = ut_reward T' !! s /\ forall x, ut_tx T !! (s, x) = ut_tx T' !! (s, x).
(** [now] is [old] plus what [b] holds *)
Definition adds (b : B) now old s : Prop := exists f r, holds b f r /\ disj (tx_of old s) f (ut_reward old !! s) r
  /\ (forall x, tx_of now s x = fu (tx_of old s) f x) /\ ut_reward now !! s = ou (ut_reward old !! s) r.

Definition gone_in ls s x : Prop := Exists (fun l => (s, x) ∈ ul_gone l) ls.

Definition mode cs (base : undo_base D) old l s (b : B) : Prop :=
  (ut_none old s /\ s ∈ ul_added l /\ block_is b (ul_table l) s)
  \/ (s ∉ ul_added l /\ s ∈ ul_taken l /\ block_is b (ul_table l) s
      /\ (cs = [] \/ exists fb, fetch K cs base s = Ok (Some fb) /\ derived fb b))
  \/ (s ∈ ul_added l /\ s ∉ ul_taken l /\ fresh b /\ adds b (ul_table l) old s).

Definition entry_ok cs base old ls l s (o : option (cop B)) : Prop :=
  match o with
  | None => same_at (ul_table l) old s /\ s ∉ ul_added l /\ s ∉ ul_taken l
  | Some OpErase => ut_none (ul_table l) s /\ s ∈ ul_taken l
  | Some (OpRead _) => False
  | Some (OpWrite b) => ~ ut_none (ul_table l) s /\ (forall x, gone b x -> gone_in (l :: ls) s x) /\ mode cs base old l s b
  end.

Definition fits (mem : bool) s : Prop := match s with SrcMempool => mem = true | SrcChain _ => mem = false end.

Definition base_ok (base : undo_base D) T mem : Prop :=
  match base with
  | ChainDb m => mem = false /\ ut_none T SrcMempool
      /\ forall b, match m !! b with
                   | None => ut_none T (SrcChain b)
                   | Some d => ~ ut_none T (SrcChain b) /\ block_is (bk_load K d) T (SrcChain b) /\ forall x, ~ gone (bk_load K d) x
                   end
  | MempoolBase => mem = true /\ forall s, ut_none T s
  end.

Definition ok_take s : table -> layer -> Prop := fun old l => ut_none old s \/ s ∉ ul_added l.
Definition ok_add s : table -> layer -> Prop := fun old l => ut_none old s \/ s ∉ ul_taken l.

Fixpoint stack_ok cs ls (base : undo_base D) T mem : Prop :=
  match cs, ls with
  | [], [] => base_ok base T mem
  | c :: cs', l :: ls' =>
      (forall s, entry_ok cs' base (below ls' T) ls' l s (c !! s))
      /\ (forall s, c !! s <> None -> fits mem s)
      /\ (forall s, ut_none (below ls' T) s \/ s ∉ ul_added l \/ s ∉ ul_taken l)
      /\ (forall s, s ∈ ul_taken l -> all_layers (ok_take s) ls' T)
      /\ (forall s, s ∈ ul_added l -> all_layers (ok_add s) ls' T /\ ut_none T s)
      /\ stack_ok cs' ls' base T mem
  | _, _ => False
  end.

(** *** Elementary facts *)
Lemma same_none T T' s : same_at T T' s -> ut_none T s -> ut_none T' s.
Proof. intros [H1 H2] [N1 N2]. split; [congruence|]. intros x. rewrite <- H2. apply N2. Qed.
Lemma same_sym T T' s : same_at T T' s -> same_at T' T s.
Proof. intros [H1 H2]. split; [done|]. intros x. by rewrite H2. Qed.
Lemma same_trans T T' T'' s : same_at T T' s -> same_at T' T'' s -> same_at T T'' s.
Proof. intros [H1 H2] [H3 H4]. split; [congruence|]. intros x. by rewrite H2. Qed.
Lemma same_block b T T' s : same_at T T' s -> block_is b T s -> block_is b T' s.
Proof. intros [H1 H2] H. unfold block_is. rewrite <- H1. eapply (kl_ext _ _ _ _ _ _ _ L); [|exact H]. intros x. apply H2. Qed.
Lemma none_nothing T s : ut_none T s <-> nothing (tx_of T s) (ut_reward T !! s).
Proof. done. Qed.
Lemma adds_none b now old s : ut_none old s -> adds b now old s -> block_is b now s.
Proof.
  intros [N1 N2] (f & r & Hh & _ & Hf & Hr). unfold block_is. rewrite Hr, N1. unfold ou.
  replace (match r with Some i => Some i | None => None end) with r by (by destruct r).
  eapply (kl_ext _ _ _ _ _ _ _ L); [|exact Hh]. intros x. rewrite Hf. unfold fu, tx_of. rewrite N2. by destruct (f x).
Qed.
Lemma adds_same b now old old' s : same_at old old' s -> adds b now old s -> adds b now old' s.
Proof.
  intros [H1 H2] (f & r & Hh & [Hd1 Hd2] & Hf & Hr). exists f, r. split_and!; [done| |..].
  - split; [intros x Hx; unfold tx_of; rewrite <- H2; by apply Hd1|]. rewrite <- H1. done.
  - intros x. rewrite Hf. unfold fu, tx_of. by rewrite H2.
  - by rewrite <- H1.
Qed.
Lemma adds_now b now now' old s : same_at now now' s -> adds b now old s -> adds b now' old s.
Proof.
  intros [H1 H2] (f & r & Hh & Hd & Hf & Hr). exists f, r. split_and!; [done|done| |].
  - intros x. rewrite <- Hf. unfold tx_of. by rewrite H2.
  - by rewrite <- H1.
Qed.
Lemma below_nil (T : table) : below [] T = T. Proof. done. Qed.

Lemma stack_length cs ls base T mem : stack_ok cs ls base T mem -> length cs = length ls.
Proof. revert ls. induction cs as [|c cs IH]; intros [|l ls]; cbn; [done..|]. intros (_&_&_&_&_&H). f_equal. by apply IH. Qed.

Lemma entry_ext cs base old ls l l' s o :
  same_at (ul_table l) (ul_table l') s -> (s ∈ ul_added l <-> s ∈ ul_added l') -> (s ∈ ul_taken l <-> s ∈ ul_taken l') ->
  (forall x, (s, x) ∈ ul_gone l -> (s, x) ∈ ul_gone l') ->
  entry_ok cs base old ls l s o -> entry_ok cs base old ls l' s o.
Proof.
  intros Hs Ha Ht Hg. destruct o as [[b|b|]|]; cbn.
  - intros (Hn & Hgone & Hm). split_and!.
    + intros H. apply Hn. by eapply same_none; [apply same_sym|].
    + intros x Hx. apply Hgone in Hx. unfold gone_in in *. rewrite Exists_cons in *. naive_solver.
    + destruct Hm as [(H1&H2&H3)|[(H1&H2&H3&H4)|(H1&H2&H3&H4)]].
      * left. split_and!; [done|by apply Ha|by eapply same_block].
      * right; left. split_and!; [by rewrite <- Ha|by apply Ht|by eapply same_block|done].
      * right; right. split_and!; [by apply Ha|by rewrite <- Ht|done|by eapply adds_now].
  - done.
  - intros [H1 H2]. split; [by eapply same_none|by apply Ht].
  - intros (H1 & H2 & H3). split_and!; [|by rewrite <- Ha|by rewrite <- Ht]. by eapply same_trans; [apply same_sym|].
Qed.

Lemma fits_source ls T mem s : source_fits (USpec ls T mem) s <-> fits mem s.
Proof. by destruct s. Qed.

(** *** Reading through the stack *)
Lemma fetch_spec cs ls base T mem s :
  stack_ok cs ls base T mem -> fits mem s -> all_layers (ok_take s) ls T ->
  (bk_strict K = true -> mem = true -> ~ ut_none (below ls T) s) ->
  exists o, fetch K cs base s = Ok o
    /\ match o with
       | None => ut_none (below ls T) s
       | Some b => ~ ut_none (below ls T) s /\ block_is b (below ls T) s /\ forall x, gone b x -> gone_in ls s x
       end.
Proof.
  revert ls. induction cs as [|c cs IH]; intros [|l ls]; cbn [stack_ok]; try done.
  - intros Hb Hf _ Hstr. cbn [fetch below] in *. destruct base as [m|]; cbn in *.
    + destruct Hb as (-> & Hnm & Hm). destruct s as [b|]; [|done].
      specialize (Hm b). destruct (m !! b) as [d|] eqn:E; cbn; eexists; (split; [done|]); cbn.
      * destruct Hm as (H1 & H2 & H3). split_and!; [done|done|]. intros x Hx. by destruct (H3 x).
      * done.
    + destruct Hb as (-> & Hb). destruct s as [b|]; [done|].
      destruct (bk_strict K); [by destruct (Hstr eq_refl eq_refl)|]. exists None. split; [done|]. apply Hb.
  - intros (He & _ & _ & _ & _ & Hst) Hf [Hok Hall] Hstr. cbn [fetch below] in *.
    specialize (He s). destruct (c !! s) as [[b|b|]|] eqn:E; cbn in He.
    + destruct He as (Hn & Hg & Hm). exists (Some b). split; [done|]. split_and!; [done| |done].
      destruct Hm as [(H1&H2&H3)|[(H1&H2&H3&H4)|(H1&H2&H3&H4)]]; [done|done|].
      destruct Hok as [Hok|Hok]; [by eapply adds_none|done].
    + done.
    + exists None. split; [done|]. apply He.
    + destruct He as (Hsame & _ & _). destruct (IH ls Hst Hf Hall) as (o & Eo & Ho).
      { intros H1 H2 H3. apply (Hstr H1 H2). by eapply same_none; [apply same_sym|]. }
      exists o. split; [done|]. destruct o as [b|].
      * destruct Ho as (H1 & H2 & H3). split_and!.
        { intros H4. apply H1. by eapply same_none. }
        { by eapply same_block; [apply same_sym|]. }
        { intros x Hx. unfold gone_in. rewrite Exists_cons. right. by apply H3. }
      * by eapply same_none; [apply same_sym|].
Qed.

(** *** Recording *)
Lemma add_step c cs l ls base T mem s (ins : B -> res undo_err B) (e : undo_err) (t : N) fi ri :
  stack_ok (c :: cs) (l :: ls) base T mem ->
  may_add (USpec (l :: ls) T mem) s ->
  (exists x, fi x <> None) \/ ri <> None ->
  disj (tx_of (ul_table l) s) fi (ut_reward (ul_table l) !! s) ri ->
  (forall b f r, holds b f r -> disj f fi r ri ->
    (exists b', ins b = Ok b' /\ holds b' (fu f fi) (ou r ri) /\ (fresh b -> fresh b') /\ forall x, gone b' x -> gone b x)
    \/ (ins b = Err e /\ gone b t)) ->
  forall now', (forall s', s' <> s -> same_at (ul_table l) now' s') ->
  (forall x, tx_of now' s x = fu (tx_of (ul_table l) s) fi x) -> ut_reward now' !! s = ou (ut_reward (ul_table l) !! s) ri ->
  let b0 := match c !! s with Some o => default (bk_default K) (op_get o) | None => bk_default K end in
  (exists b', ins b0 = Ok b'
     /\ stack_ok (<[s := OpWrite b']> c :: cs) (ULayer now' ({[s]} ∪ ul_added l) (ul_taken l) (ul_gone l) :: ls) base T mem)
  \/ (ins b0 = Err e /\ gone_in (l :: ls) s t /\ ~ ut_none (ul_table l) s).
Proof.
  intros Hst (Hfit & Hbase & Hall) Hne Hdj Hins now' Hother Hnow Hrew b0.
  apply fits_source in Hfit. cbn [sp_base sp_layers] in *. destruct Hall as [Hok Hall].
  destruct Hst as (He & Hfits & Hcond & Htk & Had & Hst). cbn [stack_ok ul_table ul_added ul_taken].
  assert (Hsub : forall b f r, holds b f r -> ((forall x, f x = tx_of (ul_table l) s x) /\ r = ut_reward (ul_table l) !! s) ->
    forall b', holds b' (fu f fi) (ou r ri) -> block_is b' now' s).
  { intros b f r _ [E1 ->] b' Hb'. unfold block_is. rewrite Hrew. eapply (kl_ext _ _ _ _ _ _ _ L); [|exact Hb'].
    intros x. rewrite Hnow. unfold fu. by rewrite E1. }
  assert (Hnn : ~ ut_none now' s).
  { intros [N1 N2]. destruct Hne as [[x Hx]|Hr].
    - specialize (Hnow x). unfold tx_of at 1 in Hnow. rewrite N2 in Hnow. unfold fu in Hnow. destruct (fi x); done.
    - rewrite Hrew in N1. unfold ou in N1. destruct ri; done. }
  (* the entry of [s] *)
  assert (Hentry : (exists b', ins b0 = Ok b' /\ (forall x, gone b' x -> gone_in (l :: ls) s x)
      /\ mode cs base (below ls T) (ULayer now' ({[s]} ∪ ul_added l) (ul_taken l) (ul_gone l)) s b')
    \/ (ins b0 = Err e /\ gone_in (l :: ls) s t /\ ~ ut_none (ul_table l) s)).
  { specialize (He s). subst b0. destruct (c !! s) as [[b|b|]|] eqn:E; cbn in He; cbn [op_get default].
    - destruct He as (Hn & Hg & Hm).
      assert (Hfd : exists f r, holds b f r /\ disj f fi r ri).
      { destruct Hm as [(H1&H2&H3)|[(H1&H2&H3&H4)|(H1&H2&H3&f&r&H4&[H5 H5']&H6&H7)]]; [by eexists _, _..|].
        exists f, r. split; [done|]. destruct Hdj as [Hd1 Hd2]. split.
        - intros x Hx. apply Hd1 in Hx. rewrite H6 in Hx. unfold fu in Hx. by destruct (f x).
        - intros Hr. apply Hd2 in Hr. rewrite H7 in Hr. unfold ou in Hr. by destruct r. }
      destruct Hm as [(H1&H2&H3)|[(H1&H2&H3&H4)|(H1&H2&H3&f&r&H4&[H5 H5']&H6&H7)]].
      + destruct (Hins _ _ _ H3 Hdj) as [(b' & Eb & Hb' & _ & Hg')|[Eb Hg']]; [left|right; by eauto 10].
        exists b'. split_and!; [done|by eauto|]. left. cbn. split_and!; [done|set_solver|]. eapply Hsub; [exact H3|done|exact Hb'].
      + destruct Hok as [Hok|Hok]; [|done].
        destruct (Hins _ _ _ H3 Hdj) as [(b' & Eb & Hb' & _ & Hg')|[Eb Hg']]; [left|right; by eauto 10].
        exists b'. split_and!; [done|by eauto|]. left. cbn. split_and!; [done|set_solver|]. eapply Hsub; [exact H3|done|exact Hb'].
      + assert (Hdf : disj f fi r ri).
        { destruct Hdj as [Hd1 Hd2]. split.
          - intros x Hx. apply Hd1 in Hx. rewrite H6 in Hx. unfold fu in Hx. by destruct (f x).
          - intros Hr. apply Hd2 in Hr. rewrite H7 in Hr. unfold ou in Hr. by destruct r. }
        destruct (Hins _ _ _ H4 Hdf) as [(b' & Eb & Hb' & Hfr & Hg')|[Eb Hg']]; [left|right; by eauto 10].
        exists b'. split_and!; [done|by eauto|]. right; right. cbn. split_and!; [set_solver|done|by auto|].
        exists (fu f fi), (ou r ri). split_and!; [done| |..].
        * destruct Hdj as [Hd1 Hd2]. split.
          { intros x Hx. unfold fu in Hx. destruct (fi x) eqn:Ef; [|by apply H5].
            assert (Hx1 : tx_of (ul_table l) s x = None) by (apply Hd1; by rewrite Ef).
            rewrite H6 in Hx1. unfold fu in Hx1. by destruct (f x). }
          { intros Hr. unfold ou in Hr. destruct ri as [ri|]; [|by apply H5'].
            assert (Hx1 : ut_reward (ul_table l) !! s = None) by (by apply Hd2). rewrite H7 in Hx1. unfold ou in Hx1. by destruct r. }
        * intros x. rewrite Hnow. unfold fu. destruct (fi x); [done|]. apply H6.
        * rewrite Hrew, H7. unfold ou. by destruct ri.
    - done.
    - destruct He as [Hn Ht]. destruct (kl_default _ _ _ _ _ _ _ L) as (Hd1 & Hd2 & Hd3).
      destruct Hok as [Hok|Hok]; [|done].
      destruct (Hins _ _ _ Hd1) as [(b' & Eb & Hb' & _ & Hg')|[Eb Hg']]; [by split|left|by destruct (Hd3 t)].
      exists b'. split_and!; [done|intros x Hx; by destruct (Hd3 x); auto|]. left. cbn. split_and!; [done|set_solver|].
      eapply Hsub; [exact Hd1| |exact Hb']. destruct Hn as [N1 N2]. split; [|done]. intros x. unfold tx_of. by rewrite N2.
    - destruct He as (Hs & Ha & Ht). destruct (kl_default _ _ _ _ _ _ _ L) as (Hd1 & Hd2 & Hd3).
      destruct (Hins _ _ _ Hd1) as [(b' & Eb & Hb' & Hfr & Hg')|[Eb Hg']]; [by split|left|by destruct (Hd3 t)].
      exists b'. split_and!; [done|intros x Hx; by destruct (Hd3 x); auto|]. right; right. cbn.
      split_and!; [set_solver|done|by auto|]. exists (fu (fun _ => None) fi), (ou None ri). split_and!; [done| |..].
      + destruct Hs as [S1 S2], Hdj as [Hj1 Hj2]. split.
        * intros x Hx. unfold fu in Hx. unfold tx_of. rewrite <- S2. apply Hj1. by destruct (fi x).
        * intros Hr. rewrite <- S1. apply Hj2. unfold ou in Hr. by destruct ri.
      + intros x. rewrite Hnow. unfold fu, tx_of. destruct Hs as [S1 S2]. rewrite S2. by destruct (fi x).
      + rewrite Hrew. unfold ou. destruct Hs as [S1 S2]. rewrite S1. by destruct ri. }
  destruct Hentry as [(b' & Eb & Hg & Hm)|H]; [left|by right]. exists b'. split; [done|]. split_and!.
  - intros s'. destruct (decide (s' = s)) as [->|Hss].
    + rewrite lookup_insert. cbn. split_and!; [done| |done]. intros x Hx. apply Hg in Hx. unfold gone_in in *.
      by rewrite Exists_cons in *.
    + rewrite lookup_insert_ne by done. apply (entry_ext _ _ _ _ l); [by apply Hother|cbn; set_solver|done|done|apply He].
  - intros s'. destruct (decide (s' = s)) as [->|Hss]; [done|]. rewrite lookup_insert_ne by done. apply Hfits.
  - intros s'. destruct (decide (s' = s)) as [->|Hss]; [by destruct Hok; auto|]. destruct (Hcond s') as [?|[?|?]]; [by left|right; left|right; right]; [clear -Hss H; set_solver..].
  - done.
  - intros s'. destruct (decide (s' = s)) as [->|Hss]; [done|]. intros Hin. apply Had. set_solver.
  - done.
Qed.

(** *** Handing back *)
(** What the verifier on top works on: the record of [s], whole. *)
Lemma whole_spec c cs l ls base T mem s :
  stack_ok (c :: cs) (l :: ls) base T mem -> may_take (USpec (l :: ls) T mem) s ->
  (bk_strict K = true -> mem = true -> ~ ut_none (ul_table l) s) ->
  exists o, match c !! s with None => fetch K cs base s | Some o => Ok (op_get o) end = Ok o
    /\ match o with
       | None => ut_none (ul_table l) s
       | Some b => ~ ut_none (ul_table l) s /\ block_is b (ul_table l) s /\ forall x, gone b x -> gone_in (l :: ls) s x
       end.
Proof.
  intros Hst (Hfit & Hall) Hstr. apply fits_source in Hfit.
  destruct (fetch_spec (c :: cs) (l :: ls) base T mem s Hst Hfit Hall Hstr) as (o & Eo & Ho). cbn [fetch below] in *.
  exists o. split; [|done]. by destruct (c !! s).
Qed.

Lemma take_step c cs l ls base T mem s b b' now' G :
  stack_ok (c :: cs) (l :: ls) base T mem -> may_take (USpec (l :: ls) T mem) s ->
  match c !! s with None => fetch K cs base s | Some o => Ok (op_get o) end = Ok (Some b) ->
  derived b b' \/ cs = [] \/ ut_none now' s ->
  block_is b' now' s -> (forall x, gone b' x -> gone_in (l :: ls) s x \/ (s, x) ∈ G) -> ul_gone l ⊆ G ->
  (forall s', s' <> s -> same_at (ul_table l) now' s') ->
  stack_ok (put_back K c s b' :: cs) (ULayer now' (ul_added l) ({[s]} ∪ ul_taken l) G :: ls) base T mem.
Proof.
  intros Hst (Hfit & Hall) Hb Hder Hblock Hgone HG Hother.
  apply fits_source in Hfit. cbn [sp_base sp_layers] in *. destruct Hall as [Hok Hall].
  destruct Hst as (He & Hfits & Hcond & Htk & Had & Hst). cbn [stack_ok ul_table ul_added ul_taken].
  unfold put_back. split_and!.
  - intros s'. destruct (decide (s' = s)) as [->|Hss].
    + rewrite lookup_insert. pose proof (kl_is_empty _ _ _ _ _ _ _ L _ _ _ Hblock) as Hemp.
      destruct (bk_is_empty K b'); cbn.
      { split; [by apply none_nothing, Hemp|set_solver]. }
      assert (Hnn : ~ ut_none now' s) by (rewrite none_nothing; intros H; by apply Hemp in H). split_and!; [done| |].
      { intros x Hx. apply Hgone in Hx. unfold gone_in in *. rewrite Exists_cons in *. cbn. naive_solver. }
      specialize (He s). destruct (c !! s) as [[b1|b1|]|] eqn:E; cbn in He; cbn in Hb; [| |done|].
      * injection Hb as ->. destruct He as (Hn & Hg & Hm).
        destruct Hm as [(H1&H2&H3)|[(H1&H2&H3&H4)|(H1&H2&H3&H4)]].
        -- left. done.
        -- right; left. cbn. split_and!; [done|set_solver|done|]. destruct Hder as [Hder|[->|?]]; [|by left|done].
           destruct H4 as [->|(fb & Ef & Hd)]; [by left|]. right. exists fb. split; [done|].
           by eapply (kl_trans _ _ _ _ _ _ _ L).
        -- destruct Hok as [Hok|Hok]; [|done]. left. done.
      * done.
      * destruct He as (Hs & Ha & Ht). right; left. cbn. split_and!; [done|set_solver|done|].
        destruct Hder as [Hder|[->|?]]; [right; by exists b|by left|done].
    + rewrite lookup_insert_ne by done. apply (entry_ext _ _ _ _ l); [by apply Hother|done|cbn; set_solver|intros x; apply HG|apply He].
  - intros s'. destruct (decide (s' = s)) as [->|Hss]; [done|]. rewrite lookup_insert_ne by done. apply Hfits.
  - intros s'. destruct (decide (s' = s)) as [->|Hss]; [by destruct Hok; auto|]. destruct (Hcond s') as [?|[?|?]]; [by left|right; left|right; right]; [clear -Hss H; set_solver..].
  - intros s'. destruct (decide (s' = s)) as [->|Hss]; [done|]. intros Hin. apply Htk. set_solver.
  - done.
  - done.
Qed.

(** *** Flushing *)
Lemma flush_step c p cs l q ls base T mem :
  stack_ok (c :: p :: cs) (l :: q :: ls) base T mem ->
  exists p', fold_into (merge_entry K) p (filter (fun kv => not_read (snd kv) = true) c) = Ok p'
    /\ stack_ok (p' :: cs) (ULayer (ul_table l) (ul_added l ∪ ul_added q) (ul_taken l ∪ ul_taken q) (ul_gone l ∪ ul_gone q) :: ls)
         base T mem.
Proof.
  intros (He & Hfits & Hcond & Htk & Had & (He' & Hfits' & Hcond' & Htk' & Had' & Hst)). cbn [below] in *.
  assert (Hfil : filter (fun kv => not_read (snd kv) = true) c = c).
  { apply map_filter_id. intros s o Eo. specialize (He s). rewrite Eo in He. by destruct o. }
  rewrite Hfil. set (l' := ULayer (ul_table l) (ul_added l ∪ ul_added q) (ul_taken l ∪ ul_taken q) (ul_gone l ∪ ul_gone q)).
  (* one source *)
  assert (Hone : forall s, match c !! s with
    | None => entry_ok cs base (below ls T) ls l' s (p !! s)
    | Some o => exists o', merge_entry K (p !! s) o = Ok o' /\ entry_ok cs base (below ls T) ls l' s (Some o')
    end).
  { intros s. pose proof (He s) as Es. pose proof (He' s) as Ep. specialize (Htk s). specialize (Had s).
    destruct (c !! s) as [[b|b|]|] eqn:Ec; cbn in Es; [|done| |].
    - destruct Es as (Hn & Hg & Hm). unfold merge_entry.
      assert (Hg' : forall x, gone b x -> gone_in (l' :: ls) s x).
      { intros x Hx. apply Hg in Hx. unfold gone_in in *. rewrite !Exists_cons in *. subst l'. cbn. set_solver. }
      destruct (p !! s) as [[pb|pb|]|] eqn:Epp; cbn in Ep.
      + destruct Ep as (Hpn & Hpg & Hpm).
        assert (Hpg' : forall x, gone pb x -> gone_in (l' :: ls) s x).
        { intros x Hx. apply Hpg in Hx. unfold gone_in in *. rewrite !Exists_cons in *. subst l'. cbn. set_solver. }
        destruct Hm as [(H1&H2&H3)|[(H1&H2&H3&H4)|(H1&H2&H3&H4)]].
        * done.
        * destruct H4 as [H4|(fb & Ef & Hd)]; [done|]. cbn in Ef. rewrite Epp in Ef. cbn in Ef. injection Ef as ->.
          rewrite (kl_combine_derived _ _ _ _ _ _ _ L _ _ Hd). cbn. eexists. split; [done|]. cbn. split_and!; [done|done|].
          destruct Hpm as [(P1&P2&P3)|[(P1&P2&P3&P4)|(P1&P2&P3&P4)]].
          -- left. cbn. split_and!; [done|set_solver|done].
          -- right; left. cbn. split_and!; [set_solver|set_solver|done|].
             destruct P4 as [P4|(fb' & Ef' & Hd')]; [by left|]. right. exists fb'. split; [done|].
             by eapply (kl_trans _ _ _ _ _ _ _ L).
          -- destruct (Htk H2) as [[Ht|Ht] _]; [|done]. left. cbn. split_and!; [done|set_solver|done].
        * destruct (Had H1) as [[Hpa _] HT]. destruct H4 as (f & r & Hh & Hdj & Hf & Hr).
          assert (Hcomb : forall g w, holds pb g w -> disj g f w r -> exists b', (let? b' := bk_combine K pb b in Ok (OpWrite b')) = Ok (OpWrite b')
            /\ holds b' (fu g f) (ou w r) /\ (fresh pb -> fresh b') /\ forall x, gone b' x -> gone_in (l' :: ls) s x).
          { intros g w Hgw Hd. destruct (kl_combine_fresh _ _ _ _ _ _ _ L _ _ _ _ _ _ Hgw Hh H3 Hd) as (b' & -> & Hb' & Hfr & Hgo).
            exists b'. split_and!; [done|done|done|]. intros x Hx. destruct (Hgo x Hx); auto. }
          assert (Hblk : forall b', block_is pb (ul_table q) s -> holds b' (fu (tx_of (ul_table q) s) f) (ou (ut_reward (ul_table q) !! s) r) ->
            block_is b' (ul_table l) s).
          { intros b' _ Hb'. unfold block_is. rewrite Hr. eapply (kl_ext _ _ _ _ _ _ _ L); [|exact Hb']. intros x. by rewrite Hf. }
          destruct Hpm as [(P1&P2&P3)|[(P1&P2&P3&P4)|(P1&P2&P3&g&w&P4&P5&P6&P7)]].
          -- destruct (Hcomb _ _ P3 Hdj) as (b' & Eb & Hb' & _ & Hgo). exists (OpWrite b'). split; [done|]. cbn. split_and!; [done|done|].
             left. cbn. split_and!; [done|set_solver|by apply Hblk].
          -- destruct Hpa as [Hpa|Hpa]; [|done].
             destruct (Hcomb _ _ P3 Hdj) as (b' & Eb & Hb' & _ & Hgo). exists (OpWrite b'). split; [done|]. cbn. split_and!; [done|done|].
             left. cbn. split_and!; [done|set_solver|by apply Hblk].
          -- assert (Hd' : disj g f w r).
             { destruct Hdj as [D1 D2]. split.
               - intros x Hx. apply D1 in Hx. rewrite P6 in Hx. unfold fu in Hx. by destruct (g x).
               - intros Hx. apply D2 in Hx. rewrite P7 in Hx. unfold ou in Hx. by destruct w. }
             destruct (Hcomb _ _ P4 Hd') as (b' & Eb & Hb' & Hfr & Hgo). exists (OpWrite b'). split; [done|]. cbn. split_and!; [done|done|].
             right; right. cbn. split_and!; [set_solver|set_solver|by auto|].
             exists (fu g f), (ou w r). split_and!; [done| |..].
             ++ destruct P5 as [Q1 Q2], Hdj as [D1 D2]. split.
                ** intros x Hx. unfold fu in Hx. destruct (f x) eqn:Efx; [|by apply Q1].
                   assert (Hx1 : tx_of (ul_table q) s x = None) by (apply D1; by rewrite Efx).
                   rewrite P6 in Hx1. unfold fu in Hx1. by destruct (g x).
                ** intros Hx. unfold ou in Hx. destruct r as [r|]; [|by apply Q2].
                   assert (Hx1 : ut_reward (ul_table q) !! s = None) by (by apply D2). rewrite P7 in Hx1. unfold ou in Hx1. by destruct w.
             ++ intros x. rewrite Hf. unfold fu. destruct (f x); [done|]. apply P6.
             ++ rewrite Hr, P7. unfold ou. by destruct r.
      + done.
      + destruct Ep as [Hpn Hpt]. exists (OpWrite b). split; [done|]. cbn. split_and!; [done|done|].
        destruct Hm as [(H1&H2&H3)|[(H1&H2&H3&H4)|(H1&H2&H3&H4)]].
        * destruct (Had H2) as [[[Hpa|Hpa] _] _]; [|done]. left. cbn. split_and!; [done|set_solver|done].
        * destruct H4 as [H4|(fb & Ef & Hd)]; [done|]. cbn in Ef. rewrite Epp in Ef. done.
        * destruct (Had H1) as [[[Hpa|Hpa] _] _]; [|done]. left. cbn. split_and!; [done|set_solver|exact (adds_none _ _ _ _ Hpn H4)].
      + destruct Ep as (Hps & Hpa & Hpt). exists (OpWrite b). split; [done|]. cbn. split_and!; [done|done|].
        destruct Hm as [(H1&H2&H3)|[(H1&H2&H3&H4)|(H1&H2&H3&H4)]].
        * left. cbn. split_and!; [by eapply same_none|set_solver|done].
        * right; left. cbn. split_and!; [set_solver|set_solver|done|].
          destruct H4 as [H4|(fb & Ef & Hd)]; [done|]. cbn in Ef. rewrite Epp in Ef. right. by exists fb.
        * right; right. cbn. split_and!; [set_solver|set_solver|done|by eapply adds_same].
    - cbn. eexists. split; [done|]. cbn. destruct Es. split; [done|set_solver].
    - destruct Es as (Hs & Ha & Ht). apply (entry_ext _ _ _ _ q); [by apply same_sym|subst l'; cbn; set_solver..|exact Ep]. }
  destruct (fold_into_spec (merge_entry K) p c) as (p' & Ep & Hp').
  { intros s o Eo. specialize (Hone s). rewrite Eo in Hone. destruct Hone as (o' & -> & _). eauto. }
  exists p'. split; [done|]. split_and!.
  - intros s. specialize (Hone s). specialize (Hp' s). destruct (c !! s) as [o|].
    + destruct Hone as (o' & E1 & Ho), Hp' as (o2 & E2 & ->). congruence.
    + by rewrite Hp'.
  - intros s Hs. specialize (Hp' s). specialize (Hfits s). destruct (c !! s) as [o|]; [by apply Hfits|].
    apply Hfits'. by rewrite <- Hp'.
  - intros s. subst l'. cbn [ul_added ul_taken].
    destruct (decide (s ∈ ul_added l ∪ ul_added q)) as [Ha|]; [|by auto].
    destruct (decide (s ∈ ul_taken l ∪ ul_taken q)) as [Ht|]; [|by auto]. left.
    apply elem_of_union in Ha, Ht. destruct Ha as [Ha|Ha], Ht as [Ht|Ht].
    + destruct (Hcond s) as [Hn|[?|?]]; [|done..]. pose proof (He' s) as Ep'. destruct (p !! s) as [[pb|pb|]|]; cbn in Ep'.
      * by destruct Ep'.
      * done.
      * destruct Ep' as [_ Ht']. destruct (Had s Ha) as [[[?|?] _] _]; done.
      * destruct Ep' as [Hs _]. by eapply same_none.
    + by destruct (Had s Ha) as [[[?|?] _] _].
    + by destruct (Htk s Ht) as [[?|?] _].
    + by destruct (Hcond' s) as [Hn|[?|?]].
  - intros s Hs. subst l'. cbn in Hs. apply elem_of_union in Hs. destruct Hs as [Hs|Hs]; [by destruct (Htk s Hs)|by apply Htk'].
  - intros s Hs. subst l'. cbn in Hs. apply elem_of_union in Hs. destruct Hs as [Hs|Hs]; [by destruct (Had s Hs) as [[_ ?] ?]|by apply Had'].
  - done.
Qed.

Lemma flush_db c l (m : gmap N D) T mem :
  stack_ok [c] [l] (ChainDb m) T mem ->
  exists m', map_fold (fun s o acc => let? m' := acc in save_entry K m' s o) (Ok m) (filter (fun kv => not_read (snd kv) = true) c) = Ok m'
    /\ stack_ok [] [] (ChainDb m') (ul_table l) mem.
Proof.
  intros (He & Hfits & Hcond & Htk & Had & Hst). cbn [below] in *. destruct Hst as (-> & HmT & Hm).
  assert (Hfil : filter (fun kv => not_read (snd kv) = true) c = c).
  { apply map_filter_id. intros s o Eo. specialize (He s). rewrite Eo in He. by destruct o. }
  rewrite Hfil.
  assert (Hcm : c !! SrcMempool = None).
  { destruct (c !! SrcMempool) eqn:E; [|done]. by specialize (Hfits SrcMempool ltac:(by rewrite E)). }
  destruct (save_fold (save_entry K) (fun o d => match o with OpWrite u => Some (bk_save K u) | OpRead _ => d | OpErase => None end) m c Hcm)
    as (m' & E & Hm').
  { intros m0 b o. destruct o; cbn; eexists; (split; [done|]); [|done|].
    - rewrite lookup_insert. split; [done|]. intros b' ?. by rewrite lookup_insert_ne.
    - rewrite lookup_delete. split; [done|]. intros b' ?. by rewrite lookup_delete_ne. }
  exists m'. split; [done|]. cbn. split_and!; [done| |].
  - specialize (He SrcMempool). rewrite Hcm in He. destruct He as [Hs _]. by eapply same_none; [apply same_sym|].
  - intros b. specialize (He (SrcChain b)). specialize (Hm' b). specialize (Hm b).
    destruct (c !! SrcChain b) as [[u|u|]|]; cbn in He; rewrite Hm'; [|done| |].
    + destruct He as (Hn & _ & Hmode).
      assert (Hblk : block_is u (ul_table l) (SrcChain b)).
      { destruct Hmode as [(H1&H2&H3)|[(H1&H2&H3&H4)|(H1&H2&H3&H4)]]; [done|done|].
        destruct (Had _ H1) as [_ HT]. by eapply adds_none. }
      destruct (kl_reload _ _ _ _ _ _ _ L _ _ _ Hblk). done.
    + apply He.
    + destruct He as [Hs _]. destruct (m !! b) as [d|].
      * destruct Hm as (H1 & H2 & H3). split_and!; [|by eapply same_block; [apply same_sym|]|done].
        intros H. apply H1. by eapply same_none.
      * by eapply same_none; [apply same_sym|].
Qed.

(** *** Every call *)
Definition inv (st : undo_stack B D) (sp : undo_spec I R) : Prop :=
  stack_ok (us_caches st) (sp_layers sp) (us_base st) (sp_base sp) (sp_mempool sp).

Lemma call_spec st sp k : inv st sp -> undo_use (bk_strict K) sp k ->
  (exists st' o, undo_run K st k = Ok (st', o) /\ (spec_call released blocked sp k).2 = Ok o /\ inv st' (spec_call released blocked sp k).1)
  \/ (exists e, undo_run K st k = Err e /\ answer_fits sp k (spec_call released blocked sp k).2 (Err e)).
Proof.
  destruct st as [cs base], sp as [ls T mem]. unfold inv. cbn [us_caches us_base sp_layers sp_base sp_mempool]. intros Hst Huse.
  pose proof (stack_length _ _ _ _ _ Hst) as Hlen.
  assert (Hcs : ls <> [] -> exists c cs' l ls', cs = c :: cs' /\ ls = l :: ls').
  { intros Hne. destruct ls as [|l ls]; [done|]. destruct cs as [|c cs]; [done|]. eauto 10. }
  destruct k as [s t i|s r|s t|s| | |]; cbn [undo_use sp_layers] in Huse.
  - destruct Huse as (Hne & Hadd & Hnone). destruct (Hcs Hne) as (c & cs' & l & ls' & -> & ->). cbn in Hnone.
    destruct (add_step c cs' l ls' base T mem s (fun b => bk_insert K b t i) (UndoAlreadyExists t) t (one t i) None Hst Hadd) with
      (now' := ut_add (ul_table l) s t i) as [(b' & Eb & Hst')|(Eb & Hg & Hn)].
    + left. exists t. unfold one. by rewrite decide_True.
    + split; [|done]. intros x. unfold one. destruct (decide (x = t)) as [->|]; [done|done].
    + intros b f r0 Hb [Hd1 Hd2].
      assert (Hft : f t = None) by (apply Hd1; unfold one; by rewrite decide_True).
      destruct (kl_insert _ _ _ _ _ _ _ L b f r0 t i Hb Hft) as [?|?]; [left|by right]. done.
    + intros s' Hss. split; [done|]. intros x. cbn. rewrite lookup_insert_ne; [done|congruence].
    + intros x. unfold tx_of, fu, one, ut_add. cbn. destruct (decide (x = t)) as [->|]; [by rewrite lookup_insert|].
      rewrite lookup_insert_ne; [done|congruence].
    + done.
    + left. eexists _, UDone. cbn. unfold add_tx_undo. rewrite Eb. cbn. done.
    + right. exists (UndoAlreadyExists t). cbn. unfold add_tx_undo. rewrite Eb. cbn. split; [done|]. right. done.
  - destruct Huse as (Hne & Hadd & Hnone). destruct (Hcs Hne) as (c & cs' & l & ls' & -> & ->). cbn in Hnone.
    destruct (add_step c cs' l ls' base T mem s (fun b => bk_set_reward K b r) UndoAlreadyExistsForReward 0%N (fun _ => None) (Some r) Hst Hadd) with
      (now' := ut_addr (ul_table l) s r) as [(b' & Eb & Hst')|(Eb & Hg & Hn)].
    + by right.
    + by split.
    + intros b f r0 Hb [Hd1 Hd2]. assert (r0 = None) as -> by (by apply Hd2). left. by apply (kl_set_reward _ _ _ _ _ _ _ L).
    + intros s' Hss. split; [|done]. cbn. by rewrite lookup_insert_ne.
    + done.
    + cbn. by rewrite lookup_insert.
    + left. eexists _, UDone. cbn. unfold add_reward_undo. rewrite Eb. cbn. done.
    + (* cannot happen: setting the reward of an empty place never fails *)
      exfalso. destruct Hst as (He & _). specialize (He s). destruct Hadd as (_ & _ & [Hok _]).
      destruct (c !! s) as [[b|b|]|]; cbn in He; cbn in Eb.
      * destruct He as (_ & _ & [(H1&H2&H3)|[(H1&H2&H3&H4)|(H1&H2&H3&f&w&H4&H5&H6&H7)]]).
        -- unfold block_is in H3. rewrite Hnone in H3. destruct (kl_set_reward _ _ _ _ _ _ _ L _ _ r H3) as (? & E & _). congruence.
        -- unfold block_is in H3. rewrite Hnone in H3. destruct (kl_set_reward _ _ _ _ _ _ _ L _ _ r H3) as (? & E & _). congruence.
        -- rewrite Hnone in H7. assert (w = None) as -> by (by destruct w).
           destruct (kl_set_reward _ _ _ _ _ _ _ L _ _ r H4) as (? & E & _). congruence.
      * done.
      * destruct (kl_default _ _ _ _ _ _ _ L) as (Hd & _).
        destruct (kl_set_reward _ _ _ _ _ _ _ L _ _ r Hd) as (? & E & _). congruence.
      * destruct (kl_default _ _ _ _ _ _ _ L) as (Hd & _).
        destruct (kl_set_reward _ _ _ _ _ _ _ L _ _ r Hd) as (? & E & _). congruence.
  - destruct Huse as (Hne & Htake & Hex). destruct (Hcs Hne) as (c & cs' & l & ls' & -> & ->). unfold sp_now in Hex. cbn [sp_layers sp_base below] in Hex.
    destruct (whole_spec c cs' l ls' base T mem s Hst Htake) as (o & Eo & Ho).
    { intros Hs _ [_ H]. by destruct (Hex Hs (H t)). }
    cbn [undo_run us_caches us_base spec_call]. cbn [below].
    destruct (ut_tx (ul_table l) !! (s, t)) as [i|] eqn:Et.
    + destruct o as [b|]; [|destruct Ho as [_ Ho]; rewrite Ho in Et; done]. destruct Ho as (Hn & Hb & Hg).
      assert (Hb' : bk_take K b t = if blocked (ul_table l) s t then Err (TxUndoWithDependency t) else bk_take K b t).
      { destruct (blocked (ul_table l) s t) eqn:Ebl; [|done]. apply Hblocked in Ebl. by eapply (kl_blocked _ _ _ _ _ _ _ L). }
      assert (Hbody : forall X, bk_take K b t = X -> take_tx_undo K c cs' base s t = 
        let? (b', r) := X in match r with Some u => Ok (put_back K c s b', Some u) | None => if bk_strict K then Err (MissingTxUndo t) else Ok (c, None) end).
      { intros X EX. unfold take_tx_undo. destruct (bk_strict K) eqn:Es.
        - destruct (c !! s) as [oc|].
          + injection Eo as Eo'. rewrite Eo'. cbn. rewrite EX. destruct X as [[b' [u|]]| |]; done.
          + rewrite Eo. cbn. rewrite EX. destruct X as [[b' [u|]]| |]; done.
        - rewrite Eo. cbn. rewrite EX. destruct X as [[b' [u|]]| |]; done. }
      destruct (blocked (ul_table l) s t) eqn:Ebl.
      * right. exists (TxUndoWithDependency t). rewrite (Hbody _ Hb'). cbn. split; [done|]. by left.
      * assert (Hnb : ~ blockedf (tx_of (ul_table l) s) t) by (rewrite <- Hblocked, Ebl; done).
        destruct (kl_take _ _ _ _ _ _ _ L b _ _ t i Hb Et Hnb) as (b' & Ek & Hh & Hd & Hgo).
        left. rewrite (Hbody _ Ek). cbn [rbind]. eexists _, _. split; [done|]. split; [done|]. cbn [us_caches us_base sp_layers sp_base sp_mempool fst].
        eapply take_step; [exact Hst|exact Htake|exact Eo|by left| | | |].
        -- unfold block_is. cbn. eapply (kl_ext _ _ _ _ _ _ _ L); [|exact Hh]. intros x. unfold tx_of. cbn.
           destruct (decide (x = t)) as [->|]; [by rewrite lookup_delete|]. rewrite lookup_delete_ne; [done|congruence].
        -- intros x Hx. destruct (Hgo x Hx) as [?| ->]; [by left; apply Hg|right; set_solver].
        -- set_solver.
        -- intros s' Hss. split; [done|]. intros x. cbn. rewrite lookup_delete_ne; [done|congruence].
    + assert (Es : bk_strict K = false) by (destruct (bk_strict K); [by destruct (Hex eq_refl)|done]).
      unfold take_tx_undo. rewrite Es, Eo. cbn [rbind]. destruct o as [b|].
      * destruct Ho as (Hn & Hb & Hg).
        destruct (kl_take_none _ _ _ _ _ _ _ L b _ _ t Hb Et Es) as [(b' & ->)|[-> Hgt]]; cbn [rbind].
        -- left. eexists _, _. split; [done|]. split; [done|]. done.
        -- right. eexists. split; [done|]. right. cbn. split_and!; [done|by apply Hg|done|done].
      * left. eexists _, _. split; [done|]. done.
  - destruct Huse as (Hne & Htake & Hsm & Hlast). destruct (Hcs Hne) as (c & cs' & l & ls' & -> & ->).
    unfold sp_now in Hlast. cbn [sp_layers sp_base below] in Hlast.
    destruct (whole_spec c cs' l ls' base T mem s Hst Htake) as (o & Eo & Ho).
    { intros _ Hmem. destruct Htake as [Hf _]. destruct s as [bl|]; cbn in Hf; [congruence|done]. }
    cbn [undo_run us_caches us_base spec_call]. cbn [below]. unfold take_reward_undo. rewrite Eo. cbn [rbind].
    left. destruct o as [b|].
    + destruct Ho as (Hn & Hb & Hg). destruct (kl_take_reward _ _ _ _ _ _ _ L b _ _ Hb) as (b' & -> & Hh & Hgo).
      destruct (ut_reward (ul_table l) !! s) as [r|] eqn:Er; cbn [rbind].
      * eexists _, _. split; [done|]. split; [done|]. cbn [us_caches us_base sp_layers sp_base sp_mempool fst].
        eapply take_step; [exact Hst|exact Htake|exact Eo| | | |done|].
        -- destruct Hlast as [Hlast|Hlast].
           ++ right; left. cbn in Hlen, Hlast. destruct cs'; [done|]. cbn in *. lia.
           ++ right; right. split; [cbn; by rewrite lookup_delete|]. intros x. apply Hlast.
        -- unfold block_is. cbn. by rewrite lookup_delete.
        -- intros x Hx. left. auto.
        -- intros s' Hss. split; [|done]. cbn. by rewrite lookup_delete_ne.
      * eexists _, _. split; [done|]. done.
    + destruct Ho as [Hr _]. rewrite Hr. eexists _, _. done.
  - left. exists (UndoStack (∅ :: cs) base), UDone. split; [by destruct cs|]. split; [by destruct ls|].
    replace ((spec_call released blocked (USpec ls T mem) UDerive).1) with (USpec (ULayer (below ls T) ∅ ∅ ∅ :: ls) T mem) by (by destruct ls).
    cbn [us_caches us_base sp_layers sp_base sp_mempool stack_ok ul_added ul_taken]. split_and!; try set_solver.
    + intros s. rewrite lookup_empty. cbn. split_and!; [done|set_solver|set_solver].
  - destruct Huse as (Hne & Hmem). destruct (Hcs Hne) as (c & cs' & l & ls' & -> & ->). left.
    cbn [undo_run us_caches us_base]. unfold flush_stack. destruct cs' as [|p cs'].
    + destruct ls' as [|q ls']; [|done]. specialize (Hmem eq_refl). cbn in Hmem.
      assert (Hb : exists m, base = ChainDb m).
      { destruct Hst as (_&_&_&_&_&Hb). destruct base; [by eexists|]. destruct Hb. congruence. }
      destruct Hb as [m ->]. destruct (flush_db c l m T mem Hst) as (m' & -> & Hst'). cbn. eexists _, _. done.
    + destruct ls' as [|q ls']; [done|].
      destruct (flush_step c p cs' l q ls' base T mem Hst) as (p' & -> & Hst'). cbn [rbind spec_call]. eexists _, _. done.
  - destruct (Hcs Huse) as (c & cs' & l & ls' & -> & ->). left. eexists _, _. cbn. split; [done|]. split; [done|]. apply Hst.
Qed.

Lemma reach_inv st sp : undo_reach K released blocked st sp -> inv st sp.
Proof.
  induction 1 as [| |st sp k st' o _ IH Huse Hrun].
  - cbn. split_and!; [done|done|]. intros b. rewrite lookup_empty. done.
  - cbn. split; [done|]. intros s. done.
  - destruct (call_spec _ _ _ IH Huse) as [(st2 & o2 & E & _ & Hi)|(e & E & _)]; [|congruence].
    rewrite Hrun in E. by injection E as -> ->.
Qed.

(** The top record may be read whole *)
Lemma fetch_whole st sp s : undo_reach K released blocked st sp -> may_take sp s ->
  (bk_strict K = true -> sp_mempool sp = true -> ~ ut_none (sp_now sp) s) ->
  exists o, fetch K (us_caches st) (us_base st) s = Ok o
    /\ match o with None => ut_none (sp_now sp) s | Some b => ~ ut_none (sp_now sp) s /\ block_is b (sp_now sp) s end.
Proof.
  intros Hr [Hf Ha] Hstr. apply reach_inv in Hr. destruct st as [cs base], sp as [ls T mem]. apply fits_source in Hf.
  destruct (fetch_spec cs ls base T mem s Hr Hf Ha Hstr) as (o & E & Ho). exists o. split; [done|]. destruct o; [|done].
  by destruct Ho as (?&?&?).
Qed.
End Stack.

(** ** The two kinds of record satisfy the laws *)
Section Maps.
Context {A T : Type} `{Countable A} `{EqDecision T}.
Implicit Types (m a b : gmap A (cop T)).
Definition live m k : option T := m !! k ≫= op_get.
Definition map_derived a b : Prop := forall k, b !! k = a !! k \/ (b !! k = Some OpErase /\ a !! k <> None).
Definition map_fresh b : Prop := forall k o, b !! k = Some o -> exists v, o = OpWrite v.

Lemma map_derived_trans a b c : map_derived a b -> map_derived b c -> map_derived a c.
Proof. intros H1 H2 k. destruct (H1 k) as [E1|[E1 ?]], (H2 k) as [E2|[E2 ?]]; rewrite ?E1 in *; auto. Qed.

Lemma combine_derived a b : map_derived a b -> combine_maps a b = Ok b.
Proof.
  intros Hd. destruct (fold_into_spec combine_op a b) as (m & E & Hm).
  { intros k o Eo. destruct (Hd k) as [E|[E Hn]].
    - rewrite <- E, Eo. destruct o; cbn; [rewrite bool_decide_true by done|..]; eauto.
    - assert (o = OpErase) as -> by congruence. destruct (a !! k) as [[]|]; [cbn; eauto..|done]. }
  unfold combine_maps. rewrite E. f_equal. apply map_eq. intros k. specialize (Hm k). destruct (Hd k) as [E'|[E' Hn]].
  - rewrite E' in *. destruct (a !! k) as [o|]; [|done]. destruct Hm as (x & E1 & ->).
    destruct o; cbn in E1; [rewrite bool_decide_true in E1 by done|..]; congruence.
  - rewrite E' in *. destruct Hm as (x & E1 & ->). destruct (a !! k) as [[]|]; cbn in E1; congruence.
Qed.

Lemma combine_fresh a b : map_fresh b -> (forall k, b !! k <> None -> live a k = None) ->
  exists m, combine_maps a b = Ok m /\ forall k, m !! k = match b !! k with Some o => Some o | None => a !! k end.
Proof.
  intros Hf Hd. unfold combine_maps.
  assert (Hop : forall k o, b !! k = Some o -> combine_op (a !! k) o = Ok o).
  { intros k o Eo. destruct (Hf k o Eo) as [v ->]. specialize (Hd k ltac:(by rewrite Eo)). unfold live in Hd.
    destruct (a !! k) as [[]|]; done. }
  destruct (fold_into_spec combine_op a b) as (m & E & Hm); [by eauto|]. exists m. split; [done|]. intros k. specialize (Hm k).
  destruct (b !! k) as [o|] eqn:Eo; [|done]. destruct Hm as (x & E1 & ->). rewrite (Hop k o Eo) in E1. congruence.
Qed.

Lemma foldl_insert_ {X} (g : X -> A) (v : cop T) (l : list X) m k :
  foldl (fun m x => <[g x := v]> m) m l !! k = if decide (k ∈ g <$> l) then Some v else m !! k.
Proof.
  revert m. induction l as [|x l IH]; intros m; cbn; [by rewrite decide_False by set_solver|].
  rewrite IH. destruct (decide (k ∈ g <$> l)) as [Hin|Hin]; [by rewrite decide_True by set_solver|].
  destruct (decide (k = g x)) as [->|Hne].
  - rewrite lookup_insert. by rewrite decide_True by set_solver.
  - rewrite lookup_insert_ne by done. by rewrite decide_False by set_solver.
Qed.
End Maps.

Section Accounting.
Context {R T : Type} `{EqDecision R} `{EqDecision T}.
Implicit Types (b : cblock R T).

Definition cb_holds b (f : N -> option T) (r : option R) : Prop :=
  (forall x, live (cb_txs b) x = f x) /\ cb_reward b ≫= op_get = r /\ cb_reward b <> Some OpErase.
Definition cb_derived (a b : cblock R T) : Prop := cb_reward a = cb_reward b /\ map_derived (cb_txs a) (cb_txs b).
Definition cb_fresh b : Prop := map_fresh (cb_txs b).
Definition cb_gone b (x : N) : Prop := cb_txs b !! x = Some OpErase.

Lemma cb_combine_derived a b : cb_derived a b -> cb_combine a b = Ok b.
Proof.
  intros [E1 E2]. unfold cb_combine. rewrite <- E1, (combine_derived _ _ E2).
  replace (combine_reward (cb_reward a) (cb_reward a)) with (Ok (E := undo_err) (cb_reward a)).
  - cbn. rewrite E1. by destruct b.
  - unfold combine_reward. destruct (cb_reward a); [|done]. by rewrite bool_decide_true.
Qed.

Lemma cb_combine_fresh a b f r g q : cb_holds a f r -> cb_holds b g q -> cb_fresh b -> disj f g r q ->
  exists b', cb_combine a b = Ok b' /\ cb_holds b' (fu f g) (ou r q) /\ (cb_fresh a -> cb_fresh b')
    /\ forall x, cb_gone b' x -> cb_gone a x \/ cb_gone b x.
Proof.
  intros (A1 & A2 & A3) (B1 & B2 & B3) Hf [D1 D2]. unfold cb_combine.
  destruct (combine_fresh (cb_txs a) (cb_txs b) Hf) as (m & -> & Hm).
  { intros k Hk. rewrite A1. apply D1. rewrite <- B1. unfold live. destruct (cb_txs b !! k) as [o|] eqn:E; [|done].
    destruct (Hf k o E) as [v ->]. done. }
  assert (Hr : combine_reward (cb_reward a) (cb_reward b) = Ok (match cb_reward b with Some o => Some o | None => cb_reward a end)).
  { unfold combine_reward. destruct (cb_reward b) as [[v|v|]|] eqn:E; [| |done|by destruct (cb_reward a)].
    - assert (Ea : cb_reward a ≫= op_get = None) by (rewrite A2; apply D2; rewrite <- B2; done). destruct (cb_reward a) as [[]|]; done.
    - assert (Ea : cb_reward a ≫= op_get = None) by (rewrite A2; apply D2; rewrite <- B2; done). destruct (cb_reward a) as [[]|]; done. }
  rewrite Hr. cbn [rbind]. eexists. split; [done|]. split_and!.
  - split_and!; cbn.
    + intros x. unfold live, fu. rewrite Hm, <- B1, <- A1. unfold live. destruct (cb_txs b !! x) as [o|] eqn:E; [|done].
      destruct (Hf x o E) as [v ->]. done.
    + rewrite <- A2, <- B2. destruct (cb_reward b) as [[]|]; done.
    + destruct (cb_reward b); done.
  - intros Ha k o. cbn. rewrite Hm. destruct (cb_txs b !! k) as [o'|] eqn:E; [intros [= <-]; by eapply Hf|]. apply Ha.
  - intros x. unfold cb_gone. cbn. rewrite Hm. destruct (cb_txs b !! x); auto.
Qed.

Lemma cb_is_empty_spec b f r : cb_holds b f r -> cb_is_empty b = true <-> nothing f r.
Proof.
  intros (A1 & A2 & A3). unfold cb_is_empty. rewrite A2, andb_true_iff, bool_decide_eq_true. unfold nothing. split.
  - intros [H1 H2]. split; [by destruct r|]. intros x. rewrite <- A1. unfold live. destruct (cb_txs b !! x) as [o|] eqn:E; [|done].
    cbn. by eapply H2.
  - intros [-> H]. split; [done|]. intros x o E. rewrite <- (H x), <- A1. unfold live. by rewrite E.
Qed.

Lemma cb_reload b f r : cb_holds b f r -> cb_holds (cb_load (cb_save b)) f r /\ forall x, ~ cb_gone (cb_load (cb_save b)) x.
Proof.
  intros (A1 & A2 & A3). unfold cb_load, cb_save, cb_gone, cb_holds, live. cbn. split_and!.
  - intros x. rewrite lookup_fmap, lookup_omap, <- A1. unfold live. by destruct (cb_txs b !! x) as [[]|].
  - rewrite <- A2. by destruct (cb_reward b) as [[]|].
  - by destruct (cb_reward b) as [[]|].
  - intros x. rewrite lookup_fmap, lookup_omap. by destruct (cb_txs b !! x) as [[]|].
Qed.

Lemma cb_take_reward_spec b f r : cb_holds b f r ->
  exists b', cb_take_reward b = (b', r) /\ cb_holds b' f None /\ forall x, cb_gone b' x -> cb_gone b x.
Proof. intros (A1 & A2 & A3). unfold cb_take_reward. rewrite A2. eexists. split; [done|]. by split_and!. Qed.

Lemma cb_set_reward_spec b f r : cb_holds b f None ->
  exists b', cb_set_reward b r = Ok b' /\ cb_holds b' f (Some r) /\ (cb_fresh b -> cb_fresh b') /\ forall x, cb_gone b' x -> cb_gone b x.
Proof.
  intros (A1 & A2 & A3). unfold cb_set_reward. destruct (cb_reward b) as [[]|]; [done..|]. eexists. split; [done|]. by split_and!.
Qed.

Lemma cb_insert_spec b f r t i : cb_holds b f r -> f t = None ->
  (exists b', cb_insert b t i = Ok b' /\ cb_holds b' (fu f (one t i)) r /\ (cb_fresh b -> cb_fresh b') /\ forall x, cb_gone b' x -> cb_gone b x)
  \/ (cb_insert b t i = Err (UndoAlreadyExists t) /\ cb_gone b t).
Proof.
  intros (A1 & A2 & A3) Ht. unfold cb_insert, cb_gone. rewrite <- A1 in Ht. unfold live in Ht.
  destruct (cb_txs b !! t) as [[]|] eqn:E; [done|done|by right|left]. eexists. split; [done|]. split_and!.
  - split_and!; [|done|done]. cbn. intros x. unfold live, fu, one. destruct (decide (x = t)) as [->|Hne]; [by rewrite lookup_insert|].
    rewrite lookup_insert_ne by done. apply A1.
  - intros Hf k o. cbn. destruct (decide (k = t)) as [->|Hne]; [rewrite lookup_insert; intros [= <-]; eauto|].
    rewrite lookup_insert_ne by done. apply Hf.
  - intros x. cbn. destruct (decide (x = t)) as [->|Hne]; [by rewrite lookup_insert|]. by rewrite lookup_insert_ne.
Qed.

(** Erasing an entry *)
Lemma cb_erase_spec b f r t : cb_holds b f r -> f t <> None ->
  let b' := CBlock (cb_reward b) (<[t := OpErase]> (cb_txs b)) in
  cb_holds b' (fun x => if decide (x = t) then None else f x) r /\ cb_derived b b' /\ forall x, cb_gone b' x -> cb_gone b x \/ x = t.
Proof.
  intros (A1 & A2 & A3) Ht b'. subst b'. split_and!.
  - split_and!; [|done|done]. cbn. intros x. unfold live. destruct (decide (x = t)) as [->|Hne]; [by rewrite lookup_insert|].
    rewrite lookup_insert_ne by done. apply A1.
  - split; [done|]. intros k. cbn. destruct (decide (k = t)) as [->|Hne]; [|rewrite lookup_insert_ne by done; by left].
    right. rewrite lookup_insert. split; [done|]. intros E. apply Ht. rewrite <- A1. unfold live. by rewrite E.
  - intros x. unfold cb_gone. cbn. destruct (decide (x = t)) as [->|Hne]; [by right|]. rewrite lookup_insert_ne by done. by left.
Qed.

Lemma accounting_laws : kind_laws (accounting_kind (R := R) (T := T)) id (fun _ _ => False) cb_holds cb_derived cb_fresh cb_gone.
Proof.
  split; cbn.
  - intros b f g r Hfg (A1 & A2 & A3). split_and!; [|done|done]. intros x. by rewrite A1.
  - split_and!; [|done|done]. split_and!; [|done|done]. intros x. unfold live, cb_default; cbn [cb_txs]. by rewrite lookup_empty.
  - apply cb_insert_spec.
  - apply cb_set_reward_spec.
  - intros b f r t i Hb Ht _. destruct (cb_erase_spec b f r t Hb) as (H1 & H2 & H3); [by rewrite Ht|].
    unfold cb_take. destruct Hb as (A1 & A2 & A3). rewrite <- A1 in Ht. unfold live in Ht.
    destruct (cb_txs b !! t) as [o|]; [|done]. cbn in Ht. rewrite Ht. eauto 10.
  - done.
  - intros b f r t (A1 & A2 & A3) Ht _. unfold cb_take, cb_gone. rewrite <- A1 in Ht. unfold live in Ht.
    destruct (cb_txs b !! t) as [[]|]; [done|done|by right|left; eauto].
  - apply cb_take_reward_spec.
  - apply cb_is_empty_spec.
  - apply cb_reload.
  - intros a b c [H1 H2] [H3 H4]. split; [congruence|by eapply map_derived_trans].
  - apply cb_combine_derived.
  - apply cb_combine_fresh.
Qed.
End Accounting.

Section Utxo.
Context {R T : Type} `{EqDecision R} `{EqDecision T}.
Implicit Types (b : ublock R T) (f : N -> option (T * list source_id)).

(** [c] spends an output of [p] *)
Definition edge f (c p : N) : Prop := exists u ss, f c = Some (u, ss) /\ FromTx p ∈ ss.
Definition ub_blocked f (t : N) : Prop := exists c, edge f c t.
Definition edges_are f (cp pc : gmap (N * N) (cop unit)) : Prop :=
  forall c p, (live cp (c, p) <> None <-> edge f c p) /\ (live pc (p, c) <> None <-> edge f c p).
Definition ub_holds b f (r : option R) : Prop :=
  cb_holds (ub_core b) (fun x => fst <$> f x) r /\ edges_are f (ub_child_parent b) (ub_parent_child b).
Definition ub_derived (a b : ublock R T) : Prop :=
  cb_derived (ub_core a) (ub_core b) /\ map_derived (ub_child_parent a) (ub_child_parent b)
  /\ map_derived (ub_parent_child a) (ub_parent_child b).
Definition ub_fresh b : Prop := cb_fresh (ub_core b) /\ map_fresh (ub_child_parent b) /\ map_fresh (ub_parent_child b).
Definition ub_gone b (x : N) : Prop := cb_gone (ub_core b) x.

Lemma source_txs_spec p ss : p ∈ source_txs ss <-> FromTx p ∈ ss.
Proof.
  unfold source_txs. rewrite elem_of_list_omap. split.
  - intros ([x|x] & Hin & [= ->]). done.
  - intros Hin. by exists (FromTx p).
Qed.

Lemma has_children_spec b f r t : ub_holds b f r -> has_children_of b t = true <-> ub_blocked f t.
Proof.
  intros [_ He]. unfold has_children_of. rewrite existsb_exists. split.
  - intros ([[p c] o] & Hin & Hb). apply elem_of_list_In, elem_of_map_to_list in Hin. cbn in Hb. apply andb_true_iff in Hb as [E1 E2].
    apply N.eqb_eq in E1 as ->. exists c. apply (He c t). unfold live. rewrite Hin. cbn. by destruct (op_get o).
  - intros [c Hc]. apply (He c t) in Hc. unfold live in Hc. destruct (ub_parent_child b !! (t, c)) as [o|] eqn:E; [|done].
    exists ((t, c), o). rewrite <- elem_of_list_In, elem_of_map_to_list. split; [done|]. cbn. rewrite N.eqb_refl. cbn in *. by destruct (op_get o).
Qed.

Lemma parents_spec b t k : k ∈ get_parents_of b t <-> fst k = t /\ live (ub_child_parent b) k <> None.
Proof.
  unfold get_parents_of. rewrite elem_of_list_fmap. split.
  - intros ([k' o] & -> & Hin). apply elem_of_list_filter in Hin as [[H1 H2] Hin]. apply elem_of_map_to_list in Hin. cbn in *.
    split; [done|]. unfold live. rewrite Hin. done.
  - intros [H1 H2]. unfold live in H2. destruct (ub_child_parent b !! k) as [o|] eqn:E; [|done]. exists (k, o). split; [done|].
    apply elem_of_list_filter. split; [done|]. by apply elem_of_map_to_list.
Qed.

Lemma edge_ext f g c p : (forall x, f x = g x) -> edge f c p <-> edge g c p.
Proof. intros H. unfold edge. by rewrite H. Qed.

Lemma ub_insert_spec b f r t i : ub_holds b f r -> f t = None ->
  (exists b', ub_insert b t i = Ok b' /\ ub_holds b' (fu f (one t i)) r /\ (ub_fresh b -> ub_fresh b') /\ forall x, ub_gone b' x -> ub_gone b x)
  \/ (ub_insert b t i = Err (UndoAlreadyExists t) /\ ub_gone b t).
Proof.
  intros [Hc He] Ht. unfold ub_insert. destruct i as [u ss]. cbn [fst snd].
  destruct (cb_insert_spec (ub_core b) _ r t u Hc) as [(c & -> & H1 & H2 & H3)|[-> Hg]]; [by rewrite Ht|left|by right].
  cbn [rbind]. eexists. split; [done|]. cbn [ub_core ub_child_parent ub_parent_child]. split_and!.
  - split; cbn [ub_core ub_child_parent ub_parent_child].
    + destruct H1 as (A1 & A2 & A3). split_and!; [|done|done]. intros x. rewrite A1. unfold fu, one. by destruct (decide (x = t)).
    + intros c' p. unfold live. rewrite !(foldl_insert_ (fun p => (t, p))), !(foldl_insert_ (fun p => (p, t))). destruct (He c' p) as [E1 E2].
      destruct (decide (c' = t)) as [->|Hne].
      * assert (Hno : ~ edge f t p) by (intros (?&?&?&_); congruence).
        assert (Hedge : edge (fu f (one t (u, ss))) t p <-> FromTx p ∈ ss).
        { unfold edge, fu, one. rewrite decide_True by done. split; [intros (?&?&[= <- <-]&?); done|eauto]. }
        rewrite Hedge, <- source_txs_spec. unfold live in E1, E2.
        destruct (decide ((t, p) ∈ (λ p0, (t, p0)) <$> source_txs ss)) as [Hin|Hin].
        -- rewrite (decide_True (P := (p, t) ∈ _)) by set_solver. set_solver.
        -- rewrite (decide_False (P := (p, t) ∈ _)) by set_solver. set_solver.
      * assert (Hedge : edge (fu f (one t (u, ss))) c' p <-> edge f c' p).
        { unfold edge, fu, one. by rewrite decide_False by done. }
        rewrite Hedge. rewrite !decide_False by set_solver. done.
  - intros (F1 & F2 & F3). split_and!; [by apply H2| |]; intros k o; cbn.
    + rewrite (foldl_insert_ (fun p => (t, p))). destruct (decide _); [intros [= <-]; by eexists|apply F2].
    + rewrite (foldl_insert_ (fun p => (p, t))). destruct (decide _); [intros [= <-]; by eexists|apply F3].
  - done.
Qed.

Lemma ub_take_spec b f r t i : ub_holds b f r -> f t = Some i -> ~ ub_blocked f t ->
  exists b', ub_take b t = Ok (b', Some (fst i)) /\ ub_holds b' (fun x => if decide (x = t) then None else f x) r
    /\ ub_derived b b' /\ forall x, ub_gone b' x -> ub_gone b x \/ x = t.
Proof.
  intros Hb Ht Hnb. pose proof Hb as [Hc He]. unfold ub_take.
  destruct (has_children_of b t) eqn:Ech; [by eapply has_children_spec in Ech|].
  destruct (cb_erase_spec (ub_core b) _ r t Hc) as (H1 & H2 & H3); [by rewrite Ht|].
  assert (Hu : cb_txs (ub_core b) !! t ≫= op_get = Some (fst i)) by (pose proof (proj1 Hc t) as E; unfold live in E; by rewrite E, Ht).
  rewrite Hu. eexists. split; [done|].
  assert (Hsw : forall c p, (p, c) ∈ (λ k : N * N, (snd k, fst k)) <$> get_parents_of b t <-> c = t /\ live (ub_child_parent b) (c, p) <> None).
  { intros c p. rewrite elem_of_list_fmap. split.
    - intros ([c' p'] & [= -> ->] & Hin). by apply parents_spec in Hin.
    - intros Hx. exists (c, p). split; [done|]. by apply parents_spec. }
  split_and!.
  - split; cbn [ub_core ub_child_parent ub_parent_child].
    + destruct H1 as (A1 & A2 & A3). split_and!; [|done|done]. intros x. rewrite A1. by destruct (decide (x = t)).
    + intros c p. unfold live. rewrite (foldl_insert_ (fun k => k)), (foldl_insert_ (fun k : N * N => (snd k, fst k))), list_fmap_id.
      destruct (He c p) as [E1 E2].
      assert (Hedge : edge (fun x => if decide (x = t) then None else f x) c p <-> c <> t /\ edge f c p).
      { unfold edge. destruct (decide (c = t)) as [->|Hne]; [|naive_solver]. split; [by intros (?&?&?&_)|by intros [? _]]. }
      rewrite Hedge. destruct (decide ((c, p) ∈ get_parents_of b t)) as [Hin|Hin].
      * pose proof Hin as Hin'. apply parents_spec in Hin' as [E3 E4]. cbn in E3.
        rewrite decide_True by (by apply Hsw). cbn. naive_solver.
      * rewrite decide_False by (intros Hx; apply Hin, parents_spec, Hsw; exact Hx). rewrite parents_spec in Hin. cbn in Hin.
        unfold live in E1, E2, Hin. split; [rewrite E1|rewrite E2]; (split; [|naive_solver]); intros Hx; (split; [|done]); intros ->; apply Hin; split; [done|by apply E1|done|by apply E1].
  - split_and!; [done| |].
    + intros k. cbn. rewrite (foldl_insert_ (fun k => k)), list_fmap_id. destruct (decide _) as [Hin|Hin]; [right|by left]. split; [done|].
      apply parents_spec in Hin as [_ Hin]. unfold live in Hin. by destruct (ub_child_parent b !! k).
    + intros [p c]. cbn. rewrite (foldl_insert_ (fun k : N * N => (snd k, fst k))). destruct (decide _) as [Hin|Hin]; [right|by left]. split; [done|].
      apply Hsw in Hin as [_ Hin]. apply (He c p) in Hin. apply (He c p) in Hin. unfold live in Hin. by destruct (ub_parent_child b !! (p, c)).
  - done.
Qed.

Lemma fst_fu f g : forall x, fst <$> fu f g x = fu (fun x => fst <$> f x) (fun x => fst <$> g x) x.
Proof. intros x. unfold fu. by destruct (g x). Qed.

Lemma ub_combine_fresh a b f r g q : ub_holds a f r -> ub_holds b g q -> ub_fresh b -> disj f g r q ->
  exists b', ub_combine a b = Ok b' /\ ub_holds b' (fu f g) (ou r q) /\ (ub_fresh a -> ub_fresh b')
    /\ forall x, ub_gone b' x -> ub_gone a x \/ ub_gone b x.
Proof.
  intros [Ac Ae] [Bc Be] (F1 & F2 & F3) [D1 D2]. unfold ub_combine.
  destruct (cb_combine_fresh (ub_core a) (ub_core b) _ _ _ _ Ac Bc F1) as (c & -> & H1 & H2 & H3).
  { split; [|done]. intros x Hx. rewrite D1; [done|]. by destruct (g x). }
  assert (Hdis : forall c p, edge g c p -> ~ edge f c p).
  { intros c' p (u & ss & E & _) (u' & ss' & E' & _). rewrite D1 in E'; [done|by rewrite E]. }
  destruct (combine_fresh (ub_child_parent a) (ub_child_parent b) F2) as (cp & -> & Hcp).
  { intros [c' p] Hk. destruct (live (ub_child_parent a) (c', p)) eqn:E; [exfalso|done].
    apply (Hdis c' p); [|apply (proj1 (Ae c' p)); by rewrite E]. apply (proj1 (Be c' p)). unfold live. destruct (ub_child_parent b !! (c', p)) as [o|] eqn:Eo; [|done].
    destruct (F2 _ _ Eo) as [v ->]. done. }
  destruct (combine_fresh (ub_parent_child a) (ub_parent_child b) F3) as (pc & -> & Hpc).
  { intros [p c'] Hk. destruct (live (ub_parent_child a) (p, c')) eqn:E; [exfalso|done].
    apply (Hdis c' p); [|apply (proj2 (Ae c' p)); by rewrite E]. apply (proj2 (Be c' p)). unfold live. destruct (ub_parent_child b !! (p, c')) as [o|] eqn:Eo; [|done].
    destruct (F3 _ _ Eo) as [v ->]. done. }
  cbn [rbind]. eexists. split; [done|]. cbn [ub_core ub_child_parent ub_parent_child]. split_and!.
  - split; cbn [ub_core ub_child_parent ub_parent_child].
    + destruct H1 as (A1 & A2 & A3). split_and!; [|done|done]. intros x. by rewrite A1, fst_fu.
    + assert (Hedge : forall c p, edge (fu f g) c p <-> edge f c p \/ edge g c p).
      { intros c' p. unfold edge, fu. destruct (g c') as [[u ss]|] eqn:Eg; [|naive_solver].
        assert (f c' = None) as -> by (apply D1; by rewrite Eg). naive_solver. }
      intros c' p. destruct (Ae c' p) as [A1 A2], (Be c' p) as [B1 B2]. rewrite !Hedge.
      unfold live in *. rewrite Hcp, Hpc. split.
      * rewrite <- A1, <- B1. destruct (ub_child_parent b !! (c', p)) as [o|] eqn:Eo; [|naive_solver].
        destruct (F2 _ _ Eo) as [v ->]. cbn. naive_solver.
      * rewrite <- A2, <- B2. destruct (ub_parent_child b !! (p, c')) as [o|] eqn:Eo; [|naive_solver].
        destruct (F3 _ _ Eo) as [v ->]. cbn. naive_solver.
  - intros (G1 & G2 & G3). split_and!; [by apply H2| |]; intros k o; cbn; [rewrite Hcp|rewrite Hpc].
    + destruct (ub_child_parent b !! k) eqn:E; [intros [= <-]; by eapply F2|apply G2].
    + destruct (ub_parent_child b !! k) eqn:E; [intros [= <-]; by eapply F3|apply G3].
  - done.
Qed.

Lemma utxo_laws : kind_laws (utxo_kind (R := R) (T := T)) fst ub_blocked ub_holds ub_derived ub_fresh ub_gone.
Proof.
  split; cbn.
  - intros b f g r Hfg [(A1 & A2 & A3) He]. split.
    + split_and!; [|done|done]. intros x. by rewrite A1, Hfg.
    + intros c p. rewrite <- (edge_ext _ _ c p Hfg). apply He.
  - split_and!; [|by split_and!|done]. split.
    + split_and!; [|done|done]. intros x. unfold live, ub_default, cb_default; cbn [cb_txs ub_core]. by rewrite lookup_empty.
    + intros c p. unfold live, ub_default; cbn [ub_child_parent ub_parent_child]. rewrite !lookup_empty. cbn. split; (split; [done|by intros (?&?&?&_)]).
  - apply ub_insert_spec.
  - intros b f r [Hc He]. unfold ub_set_reward. destruct (cb_set_reward_spec (ub_core b) _ r Hc) as (c & -> & H1 & H2 & H3).
    cbn. eexists. split; [done|]. split_and!; [by split| |done]. intros (F1 & F2 & F3). split_and!; auto.
  - apply ub_take_spec.
  - intros b f r t i Hb Ht Hbl. unfold ub_take. by rewrite (proj2 (has_children_spec b f r t Hb) Hbl).
  - done.
  - intros b f r [Hc He]. destruct Hc as (A1 & -> & A3).
    eexists. split; [done|]. split_and!; [|done]. split; [by split_and!|done].
  - intros b f r [Hc He]. unfold ub_is_empty. rewrite (cb_is_empty_spec _ _ _ Hc). unfold nothing. split; intros [H1 H2]; (split; [done|]); intros x; specialize (H2 x).
    + by destruct (f x).
    + by rewrite H2.
  - intros b f r [Hc He]. destruct (cb_reload _ _ _ Hc) as [H1 H2]. split; [|done]. split; [done|]. intros c p. destruct (He c p) as [E1 E2].
    unfold live in *. cbn. rewrite !lookup_fmap, !lookup_omap. split.
    + rewrite <- E1. by destruct (ub_child_parent b !! (c, p)) as [[]|].
    + rewrite <- E2. by destruct (ub_parent_child b !! (p, c)) as [[]|].
  - intros a b c (H1 & H2 & H3) (H4 & H5 & H6). split_and!; [|by eapply map_derived_trans..].
    destruct H1, H4. split; [congruence|by eapply map_derived_trans].
  - intros a b (H1 & H2 & H3). unfold ub_combine. rewrite (cb_combine_derived _ _ H1), (combine_derived _ _ H2), (combine_derived _ _ H3).
    cbn. by destruct b.
  - apply ub_combine_fresh.
Qed.
End Utxo.
