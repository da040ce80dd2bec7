(** Proofs about scripts: the stack evaluation is the recursive reading, thresholds are exact, translations agree. *)
From Verif Require Import Base AmountModel PrimModel PrimProofs OrdersModel TokensModel PosModel ChainModel UtxoModel ScriptModel ScriptSpec.
Local Open Scope N_scope.

Lemma sbind_assoc {S E A B C} (m : S * res E A) (f : S -> A -> S * res E B) (g : S -> B -> S * res E C) :
  sbind (sbind m f) g = sbind m (fun s a => sbind (f s a) g).
Proof. destruct m as [s []]; reflexivity. Qed.
Lemma sbind_ext {S E A B} (m : S * res E A) (f g : S -> A -> S * res E B) : (forall s a, f s a = g s a) -> sbind m f = sbind m g.
Proof. intros H. destruct m as [s []]; cbn; auto. Qed.

(** *** Thresholds *)
Lemma declared_sat s conds : declared (Satisfied s :: conds) = s :: declared conds. Proof. reflexivity. Qed.
Lemma declared_dis conds : declared (Dissatisfied :: conds) = declared conds. Proof. reflexivity. Qed.
Lemma declared_app a b : declared (a ++ b) = declared a ++ declared b.
Proof. apply omap_app. Qed.
Lemma declared_length conds : (length (declared conds) <= length conds)%nat.
Proof. induction conds as [|[s|] conds IH]; [done| |]; rewrite ?declared_sat, ?declared_dis; cbn [length]; lia. Qed.
Lemma collect_loop_spec conds ls ld acc : ls + ld = N.of_nat (length conds) ->
  collect_loop conds ls ld acc =
  if ls <? N.of_nat (length (declared conds)) then Err Excessive
  else if N.of_nat (length (declared conds)) <? ls then Err Insufficient else Ok (acc ++ declared conds).
Proof.
  revert ls ld acc. induction conds as [|[s|] conds IH]; intros ls ld acc H.
  - cbn in *. replace ls with 0 by lia. replace ld with 0 by lia. cbn. by rewrite app_nil_r.
  - rewrite declared_sat. cbn [collect_loop length] in *. unfold checked_sub. pose proof (declared_length conds) as Hd.
    destruct (N.leb_spec 1 ls) as [H1|H1]; cbn [ok_or rbind].
    + rewrite IH by lia. set (k := length (declared conds)) in *.
      replace (ls - 1 <? N.of_nat k) with (ls <? N.of_nat (S k)) by lia. destruct (ls <? _); [done|].
      replace (N.of_nat k <? ls - 1) with (N.of_nat (S k) <? ls) by lia.
      destruct (_ <? ls); [done|]. by rewrite <- app_assoc.
    + rewrite (proj2 (N.ltb_lt _ _)) by lia. done.
  - rewrite declared_dis. cbn [collect_loop length] in *. unfold checked_sub. pose proof (declared_length conds) as Hd.
    destruct (N.leb_spec 1 ld) as [H1|H1]; cbn [ok_or rbind].
    + apply IH. lia.
    + rewrite (proj2 (N.ltb_ge _ _)) by lia. rewrite (proj2 (N.ltb_lt _ _)) by lia. done.
Qed.
Lemma collect_spec n conds :
  collect_satisfied n conds =
  if N.of_nat (length conds) <? n then Panic
  else if N.of_nat (length (declared conds)) <? n then Err Insufficient
  else if n <? N.of_nat (length (declared conds)) then Err Excessive else Ok (declared conds).
Proof.
  unfold collect_satisfied, checked_sub, len. destruct (N.ltb_spec (N.of_nat (length conds)) n) as [H|H].
  - rewrite (proj2 (N.leb_gt _ _)) by lia. done.
  - rewrite (proj2 (N.leb_le _ _)) by lia. cbn [expect rbind]. rewrite collect_loop_spec by lia.
    destruct (N.ltb_spec n (N.of_nat (length (declared conds)))); destruct (N.ltb_spec (N.of_nat (length (declared conds))) n); try done; lia.
Qed.

(** *** The stack *)
Lemma script_size_pos s : (1 <= script_size s)%nat.
Proof. destruct s; cbn; lia. Qed.
Definition stack_size (l : list script) : nat := sum_list (script_size <$> l).
Lemma size_declared n conds : script_size (Threshold n conds) = S (stack_size (declared conds)).
Proof. cbn. f_equal. unfold stack_size. induction conds as [|[s|] conds IH]; cbn; [done| |done]. rewrite IH. reflexivity. Qed.
Lemma stack_size_app a b : stack_size (a ++ b) = (stack_size a + stack_size b)%nat.
Proof. unfold stack_size. rewrite fmap_app. induction (script_size <$> a) as [|x l IH]; cbn; lia. Qed.
Lemma size_elem s l : s ∈ l -> (script_size s <= stack_size l)%nat.
Proof. induction 1 as [s l|s x l H IH]; unfold stack_size in *; cbn; lia. Qed.
(** Induction over the sub-scripts that matter *)
Lemma script_ind' (P : script -> Prop) : (forall d w, P (Signature d w)) -> (forall t, P (Timelock t)) -> (forall c p, P (HashLock c p)) ->
  (forall n conds, Forall P (declared conds) -> P (Threshold n conds)) -> forall s, P s.
Proof.
  intros H1 H2 H3 H4 s. remember (script_size s) as k eqn:Hk. assert (Hle : (script_size s <= k)%nat) by lia. clear Hk.
  revert s Hle. induction k as [|k IH]; intros s Hle.
  - pose proof (script_size_pos s). lia.
  - destruct s as [n conds|d w|t|c p]; auto. apply H4. apply Forall_forall. intros s Hs. apply IH. rewrite size_declared in Hle.
    pose proof (size_elem _ _ Hs). lia.
Qed.
Section Stack.
  Context {St SE TE HE : Type} (v : visitor St SE TE HE).
  Fixpoint read_all (l : list script) (st : St) : St * res (script_err SE TE HE) unit :=
    match l with [] => (st, Ok tt) | s :: l => sbind (reading v s st) (fun st _ => read_all l st) end.
  Lemma read_all_app a b st : read_all (a ++ b) st = sbind (read_all a st) (fun st _ => read_all b st).
  Proof. revert st. induction a as [|s a IH]; intros st; [done|]. cbn. rewrite sbind_assoc. apply sbind_ext. intros s' _. apply IH. Qed.
  Lemma reading_threshold n conds st : reading v (Threshold n conds) st =
    if N.of_nat (length conds) <? n then (st, Panic)
    else if N.of_nat (length (declared conds)) <? n then (st, Err (ThresholdErr Insufficient))
    else if n <? N.of_nat (length (declared conds)) then (st, Err (ThresholdErr Excessive)) else read_all (declared conds) st.
  Proof.
    cbn [reading]. destruct (_ <? n); [done|]. destruct (_ <? n); [done|]. destruct (n <? _); [done|].
    revert st. induction conds as [|[s|] conds IH]; intros st; cbn; [done| |done]. apply sbind_ext. intros s' _. apply IH.
  Qed.
  Lemma verify_loop_spec fuel stack st : (stack_size stack <= fuel)%nat -> verify_loop v fuel stack st = read_all stack st.
  Proof.
    revert stack st. induction fuel as [|fuel IH]; intros [|s stack] st H; try done.
    { unfold stack_size in H. cbn in H. pose proof (script_size_pos s). lia. }
    cbn [verify_loop read_all]. assert (Hs : stack_size (s :: stack) = (script_size s + stack_size stack)%nat) by done. rewrite Hs in H. pose proof (script_size_pos s) as Hp.
    destruct s as [n conds|d w|t|c p].
    - rewrite reading_threshold, collect_spec. rewrite size_declared in H.
      destruct (_ <? n); [done|]. destruct (_ <? n); [done|]. destruct (n <? _); [done|].
      rewrite IH; [apply read_all_app|]. rewrite stack_size_app. lia.
    - cbn [reading]. apply sbind_ext. intros st' _. apply IH. lia.
    - cbn [reading]. apply sbind_ext. intros st' _. apply IH. lia.
    - cbn [reading]. apply sbind_ext. intros st' _. apply IH. lia.
  Qed.
  Theorem verify_reading s st : verify v s st = reading v s st.
  Proof.
    unfold verify. rewrite verify_loop_spec; [|unfold stack_size; cbn; lia]. cbn. destruct (reading v s st) as [st' [[]| |]]; done.
  Qed.
End Stack.

(** *** Checkers without state *)
Section Stateless.
  Context {SE TE HE : Type} (v : visitor unit SE TE HE).
  Definition leaf_sig d w := snd (visit_signature v d w tt) = Ok tt.
  Definition leaf_lock t := snd (visit_timelock v t tt) = Ok tt.
  Definition leaf_hash c p := snd (visit_hashlock v c p tt) = Ok tt.
  Lemma snd_sbind {A B} (m : unit * res (script_err SE TE HE) A) (f : unit -> A -> unit * res (script_err SE TE HE) B) :
    snd (sbind m f) = let? a := snd m in snd (f tt a).
  Proof. destruct m as [[] []]; reflexivity. Qed.
  Lemma read_all_ok l : snd (read_all v l tt) = Ok tt <-> Forall (fun s => snd (reading v s tt) = Ok tt) l.
  Proof.
    induction l as [|s l IH]; [split; [constructor|done]|]. cbn. rewrite snd_sbind, Forall_cons. destruct (snd (reading v s tt)) as [[]| |] eqn:E; cbn.
    - rewrite IH. tauto.
    - split; [done|]. intros [? _]. done.
    - split; [done|]. intros [? _]. done.
  Qed.
  Lemma leaf_ok {X E} (r : unit * res E unit) (f : E -> X) : snd (let (st, r) := r in (st, rmap_err f r)) = Ok tt <-> snd r = Ok tt.
  Proof. destruct r as [[] [[]| |]]; cbn; split; done. Qed.
  Lemma reading_ok s : snd (reading v s tt) = Ok tt <-> holds leaf_sig leaf_lock leaf_hash s.
  Proof.
    induction s as [d w|t|c p|n conds IH] using script_ind'.
    - cbn. rewrite leaf_ok. split; [by constructor|by inversion 1].
    - cbn. rewrite leaf_ok. split; [by constructor|by inversion 1].
    - cbn. rewrite leaf_ok. split; [by constructor|by inversion 1].
    - rewrite reading_threshold. pose proof (declared_length conds) as Hd. split.
      + destruct (N.ltb_spec (N.of_nat (length conds)) n); [done|]. destruct (N.ltb_spec (N.of_nat (length (declared conds))) n); [done|].
        destruct (N.ltb_spec n (N.of_nat (length (declared conds)))); [done|]. rewrite read_all_ok. intros H2. constructor; [lia|].
        rewrite Forall_forall in *. intros s Hs. apply IH; auto.
      + inversion 1 as [| | |n' conds' Hn Hf]; subst. rewrite (proj2 (N.ltb_ge _ _)) by lia. rewrite N.ltb_irrefl. apply read_all_ok.
        rewrite Forall_forall in *. intros s Hs. apply IH; auto.
  Qed.
  Lemma verify_ok s : check v s = Ok tt <-> holds leaf_sig leaf_lock leaf_hash s.
  Proof. unfold check. rewrite verify_reading. apply reading_ok. Qed.
  Lemma reading_panic s : (forall d w, snd (visit_signature v d w tt) <> Panic) -> (forall t, snd (visit_timelock v t tt) <> Panic) ->
    (forall c p, snd (visit_hashlock v c p tt) <> Panic) -> buildable s -> snd (reading v s tt) <> Panic.
  Proof.
    intros H1 H2 H3. assert (Hl : forall X E (r : unit * res E unit) (f : E -> X), snd r <> Panic -> snd (let (st, r) := r in (st, rmap_err f r)) <> Panic).
    { intros X E [st []] f; cbn; intros H; done. }
    induction s as [d w|t|c p|n conds IH] using script_ind'; intros Hb; try (cbn; apply Hl; auto).
    inversion Hb as [| | |n' conds' Hn Hf]; subst. rewrite reading_threshold, (proj2 (N.ltb_ge _ _)) by lia.
    destruct (_ <? n); [done|]. destruct (n <? _); [done|]. clear Hb Hn.
    induction (declared conds) as [|s l IHl]; [done|]. cbn. rewrite snd_sbind. apply Forall_cons in IH as [IH1 IH2]. apply Forall_cons in Hf as [Hf1 Hf2].
    specialize (IH1 Hf1). destruct (snd (reading v s tt)); cbn; auto.
  Qed.
End Stateless.
Lemma holds_mono s (sig sig' : N -> witness -> Prop) (lock lock' : timelock -> Prop) (hash hash' : hash_challenge -> bytes -> Prop) :
  (forall d w, sig d w -> sig' d w) -> (forall t, lock t -> lock' t) -> (forall c p, hash c p -> hash' c p) -> holds sig lock hash s -> holds sig' lock' hash' s.
Proof.
  intros H1 H2 H3. induction s as [d w|t|c p|n conds IH] using script_ind'; inversion 1; subst; constructor; auto.
  rewrite Forall_forall in *. auto.
Qed.

(** *** Time locks *)
Lemma standard_timelock_ok cx info t : ctx_in_range cx -> standard_timelock (lock_ctx_of cx info) t = Ok tt <-> lock_open cx info t.
Proof.
  intros [Hh Ht]. assert (Hm : forall E (r : res timelock_err unit) (f : timelock_err -> E), rmap_err f r = Ok tt <-> r = Ok tt) by (intros E [[]| |] f; cbn; split; done).
  destruct t as [h|x|d|dt]; cbn [standard_timelock lock_open].
  - rewrite Hm, check_at_least_ok. done.
  - rewrite Hm, check_at_least_ok. done.
  - assert (Hs : forall h, rmap_err LockContext (source_height (lock_ctx_of cx info)) = Ok h <-> made_height cx info h).
    { intros h. unfold made_height. cbn. destruct info as [o [[h'|]|]| | |]; cbn; split; intros H; try done; try (destruct H as (o' & [H|[H _]]); done).
      - injection H as <-. exists o. by left.
      - destruct H as (o' & [H|[H _]]); [by injection H as _ <-|done].
      - injection H as <-. exists o. by right.
      - destruct H as (o' & [H|[_ ->]]); done. }
    unfold i64_of_u64. destruct (Z.leb_spec (Z.of_N d) I64_MAX) as [Hd|Hd]; cbn [ok_or rbind].
    + destruct (rmap_err LockContext _) as [h| |] eqn:Es; cbn [rbind].
      * pose proof (proj1 (Hs h) eq_refl) as Hmade. destruct (height_add_spec h (Z.of_N d)) as [Ha Hp]; [unfold I64_MIN; lia|].
        split.
        -- intros H. exists h. split; [done|]. destruct (height_add h (Z.of_N d)) as [r| |] eqn:Er; try done. cbn [rmap_err rbind] in H.
           rewrite Hm, check_at_least_ok in H. cbn in H. destruct (proj1 (Ha r) eq_refl) as (_ & _ & E). lia.
        -- intros (h' & Hmade' & Hle). apply Hs in Hmade'. injection Hmade' as <-.
           rewrite (proj2 (Ha (h + d))) by (split_and!; lia). cbn [rmap_err rbind]. rewrite Hm, check_at_least_ok. cbn. lia.
      * split; [done|]. intros (h & Hmade%Hs & _). done.
      * split; [done|]. intros (h & Hmade%Hs & _). done.
    + split; [done|]. intros (h & _ & Hle). lia.
  - assert (Hs : forall x, rmap_err LockContext (source_time (lock_ctx_of cx info)) = Ok x <-> made_time cx info x).
    { intros x. unfold made_time. cbn. destruct info as [o [[h'|]|]| | |]; cbn; try (split; intros H; [done|destruct H as (o' & [(h & H & _)|[H _]]); done]).
      - split.
        + destruct (cx_time_at cx h') as [y|] eqn:E; cbn; intros H; [|done]. injection H as <-. exists o. left. eauto.
        + intros (o' & [(h & H & E)|[H _]]); [|done]. injection H as _ <-. by rewrite E.
      - split.
        + intros H. injection H as <-. exists o. by right.
        + intros (o' & [(h & H & E)|[_ ->]]); done. }
    destruct (rmap_err LockContext _) as [x| |] eqn:Es; cbn [rbind].
    + pose proof (proj1 (Hs x) eq_refl) as Hmade. unfold add_int_seconds, checked_add. destruct (N.leb_spec (x + dt) U64_MAX) as [Hx|Hx]; cbn [ok_or rbind].
      * rewrite Hm, check_at_least_ok. cbn. split; [eauto|]. intros (x' & Hx'%Hs & Hle). injection Hx' as <-. done.
      * split; [done|]. intros (x' & Hx'%Hs & Hle). injection Hx' as <-. lia.
    + split; [done|]. intros (x & Hx%Hs & _). done.
    + split; [done|]. intros (x & Hx%Hs & _). done.
Qed.

(** *** Translations *)
Lemma holds_both sig lock hash a b : holds sig lock hash (Threshold 2 [Satisfied a; Satisfied b]) <-> holds sig lock hash a /\ holds sig lock hash b.
Proof.
  split.
  - inversion 1 as [| | |n c Hn Hf]; subst. cbn in Hf. rewrite !Forall_cons in Hf. tauto.
  - intros [H1 H2]. constructor; [done|]. cbn. rewrite !Forall_cons. auto.
Qed.
Lemma holds_TRUE sig lock hash : holds sig lock hash TRUE.
Proof. constructor; [done|constructor]. Qed.
Lemma holds_sig sig lock hash d w : holds sig lock hash (Signature d w) <-> sig d w.
Proof. split; [by inversion 1|by constructor]. Qed.
Lemma holds_lock sig lock hash t : holds sig lock hash (Timelock t) <-> lock t.
Proof. split; [by inversion 1|by constructor]. Qed.
Lemma holds_hash sig lock hash c p : holds sig lock hash (HashLock c p) <-> hash c p.
Proof. split; [by inversion 1|by constructor]. Qed.
Lemma look_ok f id e d : look f id e = Ok d <-> f id = Ok (Some d).
Proof. unfold look. destruct (f id) as [[x|]| |]; cbn; split; intros H; try done; by injection H as ->. Qed.

Section Translations.
  Context (anyone : N) (from_data : bytes -> option htlc_spend) (hash160 : bytes -> N).
  (** The conditions of an input that was translated *)
  Definition accepts (sig : N -> witness -> Prop) (lock : timelock -> Prop) (hash : hash_challenge -> bytes -> Prop) (t : res translation_err script) : Prop :=
    exists s, t = Ok s /\ holds sig lock hash s.
  Lemma accepts_ok sig lock hash s : accepts sig lock hash (Ok s) <-> holds sig lock hash s.
  Proof. split; [intros (s' & [= <-] & H); done|exists s; done]. Qed.
  Lemma accepts_err sig lock hash e : accepts sig lock hash (Err e) <-> False.
  Proof. split; [intros (s' & H & _); done|done]. Qed.
  Lemma accepts_look sig lock hash f id e w : accepts sig lock hash (let? d := look f id e in Ok (to_signature w d)) <-> exists d, f id = Ok (Some d) /\ sig d w.
  Proof.
    unfold accepts. split.
    - intros (s & H & Hs). destruct (look f id e) as [d| |] eqn:E; try done. apply look_ok in E. cbn in H. injection H as <-. apply holds_sig in Hs. eauto.
    - intros (d & E & Hs). rewrite (proj2 (look_ok f id e d) E). cbn. exists (Signature d w). split; [done|]. by constructor.
  Qed.
  (** A requirement is met in terms of three predicates *)
  Definition met (sig : N -> witness -> Prop) (lock : timelock -> Prop) (secret : N -> bytes -> Prop) (r : requirement) : Prop :=
    (forall d w, rq_signer r = Some (d, w) -> sig d w) /\ (forall t, rq_lock r = Some t -> lock t) /\ (forall h p, rq_secret r = Some (h, p) -> secret h p).
  Lemma met_signed sig lock secret d w : met sig lock secret (signed_by d w) <-> sig d w.
  Proof. unfold met. cbn. split; [intros (H & _); auto|]. intros H. split_and!; [|done|done]. intros d' w' [= <- <-]. done. Qed.
  Lemma translate_tx_spec lk info w sig lock (hash : hash_challenge -> bytes -> Prop) :
    accepts sig lock hash (translate_tx anyone from_data lk info w) <->
    exists r, tx_requires anyone from_data lk info w r /\ met sig lock (fun h p => hash (HcHash160 h) p) r.
  Proof.
    destruct info as [o src|del a|c|c]; cbn [translate_tx].
    - destruct o as [v d|v d t|v|p data|d p|d p|a del|i|id data d|data|v h|d].
      + rewrite accepts_ok. unfold to_signature. rewrite holds_sig. split.
        * intros H. eexists. split; [constructor|by apply met_signed].
        * intros (r & Hr & Hm). inversion Hr; subst. by apply met_signed in Hm.
      + change (satisfied_conjunction [Timelock t; to_signature w d]) with (Ok (E := translation_err) (Threshold 2 [Satisfied (Timelock t); Satisfied (to_signature w d)])).
        rewrite accepts_ok, holds_both, holds_lock. unfold to_signature. rewrite holds_sig. split.
        * intros [H1 H2]. eexists. split; [constructor|]. split_and!; cbn; [|by intros t' [= <-]|done]. by intros d' w' [= <- <-].
        * intros (r & Hr & Hm). inversion Hr; subst. destruct Hm as (H1 & H2 & _). split; [by apply H2|by apply H1].
      + rewrite accepts_err. split; [done|]. intros (r & Hr & _). inversion Hr.
      + rewrite accepts_ok. unfold to_signature. rewrite holds_sig. split.
        * intros H. eexists. split; [constructor|by apply met_signed].
        * intros (r & Hr & Hm). inversion Hr; subst. by apply met_signed in Hm.
      + rewrite accepts_look. split.
        * intros (k & E & H). eexists. split; [by constructor|by apply met_signed].
        * intros (r & Hr & Hm). inversion Hr; subst. apply met_signed in Hm. eauto.
      + rewrite accepts_err. split; [done|]. intros (r & Hr & _). inversion Hr.
      + rewrite accepts_err. split; [done|]. intros (r & Hr & _). inversion Hr.
      + rewrite accepts_err. split; [done|]. intros (r & Hr & _). inversion Hr.
      + rewrite accepts_ok. unfold to_signature. rewrite holds_sig. split.
        * intros H. eexists. split; [constructor|by apply met_signed].
        * intros (r & Hr & Hm). inversion Hr; subst. by apply met_signed in Hm.
      + rewrite accepts_err. split; [done|]. intros (r & Hr & _). inversion Hr.
      + destruct w as [x|ty raw]; cbn [htlc_of].
        * cbn. rewrite accepts_err. split; [done|]. intros (r & Hr & _). inversion Hr.
        * destruct (from_data raw) as [[secret sg|sg]|] eqn:E; cbn [ok_or rbind].
          -- cbn. rewrite accepts_ok, holds_both, holds_hash, holds_sig. split.
             ++ intros [H1 H2]. eexists. split; [by constructor|]. split_and!; cbn; [by intros d' w' [= <- <-]|done|by intros h' p' [= <- <-]].
             ++ intros (r & Hr & Hm). inversion Hr; subst; [|congruence]. destruct Hm as (H1 & _ & H2).
                match goal with H : from_data raw = Some (HtlcSpend ?a ?b) |- _ => rewrite E in H; injection H as <- <- end. split; [by apply H2|by apply H1].
          -- cbn. rewrite accepts_ok, holds_both, holds_lock, holds_sig. split.
             ++ intros [H1 H2]. eexists. split; [by constructor|]. split_and!; cbn; [by intros d' w' [= <- <-]|by intros t' [= <-]|done].
             ++ intros (r & Hr & Hm). inversion Hr; subst; [congruence|]. destruct Hm as (H1 & H2 & _).
                match goal with H : from_data raw = Some (HtlcRefund ?a) |- _ => rewrite E in H; injection H as <- end. split; [by apply H2|by apply H1].
          -- cbn. rewrite accepts_err. split; [done|]. intros (r & Hr & _). inversion Hr; subst; congruence.
      + rewrite accepts_err. split; [done|]. intros (r & Hr & _). inversion Hr.
    - rewrite accepts_look. split.
      + intros (k & E & H). eexists. split; [by constructor|by apply met_signed].
      + intros (r & Hr & Hm). inversion Hr; subst. apply met_signed in Hm. eauto.
    - assert (Ht : forall id, command_account c = AccToken id ->
        (accepts sig lock hash (let? d := look (token_authority lk) id TokenNotFound in Ok (to_signature w d)) <->
         exists r, tx_requires anyone from_data lk (InfoCommand c) w r /\ met sig lock (fun h p => hash (HcHash160 h) p) r)).
      { intros id Hc. rewrite accepts_look. split.
        - intros (k & E & H). eexists. split; [by econstructor|by apply met_signed].
        - intros (r & Hr & Hm). inversion Hr; subst; try done. apply met_signed in Hm.
          match goal with H : command_account c = AccToken _ |- _ => rewrite Hc in H; injection H as <- end. eauto. }
      destruct c as [id a|id|id|id b|id|id d|id|id a d|id u]; try (apply Ht; reflexivity).
      + rewrite accepts_look. split.
        * intros (k & E & H). eexists. split; [by apply rq_conclude_v0|by apply met_signed].
        * intros (r & Hr & Hm). inversion Hr; subst; [done|]. apply met_signed in Hm. eauto.
      + rewrite accepts_ok. split; [|intros _; apply holds_TRUE]. intros _. eexists. split; [apply rq_fill_v0|]. split_and!; done.
    - destruct c as [id a|id|id].
      + rewrite accepts_ok. unfold to_signature. rewrite holds_sig. split.
        * intros H. eexists. split; [constructor|by apply met_signed].
        * intros (r & Hr & Hm). inversion Hr; subst. by apply met_signed in Hm.
      + rewrite accepts_look. split.
        * intros (k & E & H). eexists. split; [by apply rq_freeze|by apply met_signed].
        * intros (r & Hr & Hm). inversion Hr; subst. apply met_signed in Hm. eauto.
      + rewrite accepts_look. split.
        * intros (k & E & H). eexists. split; [by apply rq_conclude|by apply met_signed].
        * intros (r & Hr & Hm). inversion Hr; subst. apply met_signed in Hm. eauto.
  Qed.
  Lemma translate_reward_spec lk info w sig lock (hash : hash_challenge -> bytes -> Prop) :
    accepts sig lock hash (translate_reward lk info w) <->
    exists r, reward_requires info w r /\ met sig lock (fun h p => hash (HcHash160 h) p) r.
  Proof.
    destruct info as [o src|del a|c|c]; cbn [translate_reward];
      try (rewrite accepts_err; split; [done|]; intros (r & Hr & _); inversion Hr; fail).
    destruct o; try (rewrite accepts_err; split; [done|]; intros (r & Hr & _); inversion Hr; fail).
    - rewrite accepts_ok. unfold to_signature. rewrite holds_sig. split.
      + intros H. eexists. split; [constructor|by apply met_signed].
      + intros (r & Hr & Hm). inversion Hr; subst. by apply met_signed in Hm.
    - rewrite accepts_ok. unfold to_signature. rewrite holds_sig. split.
      + intros H. eexists. split; [constructor|by apply met_signed].
      + intros (r & Hr & Hm). inversion Hr; subst. by apply met_signed in Hm.
  Qed.
  (** The secret of an HTLC input is right *)
  Definition secret_shown (hash : N -> bytes -> Prop) (info : input_info) (w : witness) : Prop :=
    forall v h src ty raw secret sg, info = InfoUtxo (OHtlc v h) src -> w = Standard ty raw -> from_data raw = Some (HtlcSpend secret sg) -> hash (hl_secret_hash h) secret.
  Lemma split_spec lk info w sig lock (hash : hash_challenge -> bytes -> Prop) :
    accepts sig lock hash (translate_tx anyone from_data lk info w) <->
    accepts (fun _ _ => True) lock (fun _ _ => True) (translate_timelock from_data info w) /\
    accepts sig (fun _ => True) (fun _ _ => True) (translate_signature anyone from_data lk info w) /\
    secret_shown (fun h p => hash (HcHash160 h) p) info w.
  Proof.
    assert (Hn : (forall v h src, info <> InfoUtxo (OHtlc v h) src) -> secret_shown (fun h p => hash (HcHash160 h) p) info w).
    { intros H v h src ty raw secret sg E. by apply H in E. }
    assert (HT : forall sig lock hash, accepts sig lock hash (Ok TRUE)) by (intros; apply accepts_ok, holds_TRUE).
    assert (Hs : forall x, (forall v h src, info <> InfoUtxo (OHtlc v h) src) -> accepts sig lock hash x <-> accepts (fun _ _ => True) lock (fun _ _ => True) (Ok TRUE) /\
       accepts sig lock hash x /\ secret_shown (fun h p => hash (HcHash160 h) p) info w).
    { intros x H. split; [|tauto]. intros Hx. split_and!; [apply HT|done|by apply Hn]. }
    assert (He : forall e e' e'', accepts sig lock hash (Err e) <-> accepts (fun _ _ => True) lock (fun _ _ => True) (Err e') /\
       accepts sig (fun _ => True) (fun _ _ => True) (Err e'') /\ secret_shown (fun h p => hash (HcHash160 h) p) info w).
    { intros. rewrite !accepts_err. tauto. }
    assert (Hl : forall f id e l1 h1 l2 h2, accepts sig l1 h1 (let? d := look f id e in Ok (to_signature w d)) <-> accepts sig l2 h2 (let? d := look f id e in Ok (to_signature w d))).
    { intros. rewrite !accepts_look. done. }
    assert (Hk : forall d l1 h1 l2 h2, accepts sig l1 h1 (Ok (to_signature w d)) <-> accepts sig l2 h2 (Ok (to_signature w d))).
    { intros. rewrite !accepts_ok. unfold to_signature. by rewrite !holds_sig. }
    destruct info as [o src|del a|c|c]; cbn [translate_tx translate_timelock translate_signature].
    - destruct o as [v d|v d t|v|p data|d p|d p|a del|i|id data d|data|v h|d]; try apply He.
      + rewrite (Hs _) by done. rewrite (Hk d lock hash (fun _ => True) (fun _ _ => True)). done.
      + cbn. rewrite !accepts_ok, holds_both, !holds_lock. unfold to_signature. rewrite !holds_sig. split; [|tauto]. intros [H1 H2]. split_and!; [done..|]. by apply Hn.
      + rewrite (Hs _) by done. rewrite (Hk _ lock hash (fun _ => True) (fun _ _ => True)). done.
      + rewrite (Hs _) by done. rewrite (Hl _ _ _ lock hash (fun _ => True) (fun _ _ => True)). done.
      + rewrite (Hs _) by done. rewrite (Hk d lock hash (fun _ => True) (fun _ _ => True)). done.
      + destruct w as [x|ty raw]; cbn [htlc_of]; [apply He|]. destruct (from_data raw) as [[secret sg|sg]|] eqn:E; cbn [ok_or rbind]; [| |apply He].
        * cbn. rewrite !accepts_ok, holds_both, holds_hash, !holds_sig. split.
          -- intros [H1 H2]. split_and!; [apply holds_TRUE|done|]. intros v' h' src' ty' raw' s' sg' [= <- <- <-] [= <- <-] E'. rewrite E in E'. by injection E' as <- <-.
          -- intros (_ & H1 & H2). split; [|done]. by eapply H2.
        * cbn. rewrite !accepts_ok, holds_both, !holds_lock, !holds_sig. split.
          -- intros [H1 H2]. split_and!; [done..|]. intros v' h' src' ty' raw' s' sg' [= <- <- <-] [= <- <-] E'. congruence.
          -- tauto.
    - rewrite (Hs _) by done. rewrite (Hl _ _ _ lock hash (fun _ => True) (fun _ _ => True)). done.
    - destruct c; try (rewrite (Hs _) by done; rewrite (Hl _ _ _ lock hash (fun _ => True) (fun _ _ => True)); done).
      split; [|intros _; apply HT]. intros _. split_and!; [apply HT..|]. by apply Hn.
    - destruct c.
      + rewrite (Hs _) by done. rewrite (Hk _ lock hash (fun _ => True) (fun _ _ => True)). done.
      + rewrite (Hs _) by done. rewrite (Hl _ _ _ lock hash (fun _ => True) (fun _ _ => True)). done.
      + rewrite (Hs _) by done. rewrite (Hl _ _ _ lock hash (fun _ => True) (fun _ _ => True)). done.
  Qed.
End Translations.

(** *** Inputs and transactions *)
Section Inputs.
  Context (anyone : N) (from_data : bytes -> option htlc_spend) (hash160 : bytes -> N).
  Context {SE K : Type} (sig : K -> N -> N -> witness -> res SE unit).
  Notation full lk := (verify_full_input hash160 sig (translate_tx anyone from_data lk)).
  (** One input passes the signature-only check *)
  Definition signed_input (lk : lookups) (k : K) (p : N * input_info * witness) : Prop :=
    let '(n, info, w) := p in accepts (fun d w => sig k n d w = Ok tt) (fun _ => True) (fun _ _ => True) (translate_signature anyone from_data lk info w).
  Lemma wrap_ok {A} (n : N) (t : res translation_err A) (f : A -> res (script_err SE (lock_err lock_ctx_err) hash_lock_err) unit) :
    rmap_err (fun e : input_err => (n, e)) (let? s := rmap_err Translation t in rmap_err Verification (f s)) = Ok tt <-> exists s, t = Ok s /\ f s = Ok tt.
  Proof.
    destruct t as [s|e|]; cbn.
    - destruct (f s) as [[]| |] eqn:Ef; cbn; split; try done; eauto; intros (s' & [= <-] & H); congruence.
    - split; [done|]. intros (s & ? & _). done.
    - split; [done|]. intros (s & ? & _). done.
  Qed.
  Lemma full_input_ok translate k cx n info w : verify_full_input hash160 sig translate k cx (n, info, w) = Ok tt <->
    accepts (fun d w => sig k n d w = Ok tt) (fun t => standard_timelock (lock_ctx_of cx info) t = Ok tt) (fun c p => standard_hashlock hash160 c p = Ok tt) (translate info w).
  Proof.
    unfold verify_full_input. rewrite (wrap_ok n). unfold accepts. split; intros (s & E & H); exists s; (split; [done|]); by apply verify_ok in H || apply verify_ok.
  Qed.
  Lemma timelocks_input_ok cx n info w : verify_timelocks_input (SE := SE) from_data cx (n, info, w) = Ok tt <->
    accepts (fun _ _ => True) (fun t => standard_timelock (lock_ctx_of cx info) t = Ok tt) (fun _ _ => True) (translate_timelock from_data info w).
  Proof.
    unfold verify_timelocks_input. rewrite (wrap_ok n). unfold accepts. split; intros (s & E & H); exists s; (split; [done|]).
    - apply verify_ok in H. eapply holds_mono; [..|exact H]; done.
    - apply verify_ok. eapply holds_mono; [..|exact H]; done.
  Qed.
  Lemma for_all_ok {A} (f : A -> res (N * @input_err SE) unit) l : for_all f l = Ok tt <-> Forall (fun a => f a = Ok tt) l.
  Proof.
    unfold for_all. induction l as [|a l IH]; cbn; [split; [constructor|done]|]. rewrite Forall_cons.
    destruct (f a) as [[]| |]; cbn; [rewrite IH; tauto|split; [done|intros [? _]; done]..].
  Qed.
  Lemma full_ok translate commitments cx utxos inputs sigs :
    verify_full hash160 commitments sig translate cx utxos inputs sigs = Ok tt <->
    exists l k, core_context (SE := SE) utxos inputs sigs = Ok l /\ commitments l = Ok k /\ Forall (fun p => verify_full_input hash160 sig translate k cx p = Ok tt) l.
  Proof.
    unfold verify_full. destruct (core_context utxos inputs sigs) as [l| |]; cbn; [|split; [done|intros (l & k & ? & _); done]..].
    destruct (commitments l) as [k| |] eqn:Ek; cbn; [|split; [done|intros (l' & k & [= <-] & ? & _); congruence]..].
    rewrite for_all_ok. split; [eauto|]. intros (l' & k' & [= <-] & Ek' & H). rewrite Ek in Ek'. injection Ek' as <-. done.
  Qed.
  Lemma timelocks_ok cx utxos inputs sigs :
    verify_timelocks (SE := SE) from_data cx utxos inputs sigs = Ok tt <->
    exists l, core_context (SE := SE) utxos inputs sigs = Ok l /\ Forall (fun p => verify_timelocks_input (SE := SE) from_data cx p = Ok tt) l.
  Proof.
    unfold verify_timelocks. destruct (core_context utxos inputs sigs) as [l| |]; cbn; [|split; [done|intros (l & ? & _); done]..].
    rewrite for_all_ok. split; [eauto|]. intros (l' & [= <-] & H). done.
  Qed.
  Lemma standard_hash_ok c p : standard_hashlock hash160 c p = Ok tt <-> exists h, c = HcHash160 h /\ hash160 p = h.
  Proof.
    destruct c as [h|h|h|h|h]; cbn; try (split; [done|intros (x & ? & _); done]).
    unfold ensure. destruct (N.eqb_spec (hash160 p) h) as [->|H]; split; try done; [eauto|]. intros (x & [= <-] & E). done.
  Qed.
  Lemma full_input_split lk k cx n info w : full lk k cx (n, info, w) = Ok tt <->
    verify_timelocks_input (SE := SE) from_data cx (n, info, w) = Ok tt /\ signed_input lk k (n, info, w) /\ secret_shown from_data (fun h p => hash160 p = h) info w.
  Proof.
    rewrite full_input_ok, (split_spec anyone from_data hash160), timelocks_input_ok. cbn [signed_input].
    assert (Hs : secret_shown from_data (fun h p => standard_hashlock hash160 (HcHash160 h) p = Ok tt) info w <-> secret_shown from_data (fun h p => hash160 p = h) info w).
    { unfold secret_shown. split; intros H v h src ty raw secret sg E1 E2 E3; specialize (H v h src ty raw secret sg E1 E2 E3).
      - apply standard_hash_ok in H as (h' & [= <-] & H). done.
      - apply standard_hash_ok. eauto. }
    rewrite Hs. done.
  Qed.
  Lemma full_input_requires lk k cx n info w : ctx_in_range cx -> full lk k cx (n, info, w) = Ok tt <->
    exists r, tx_requires anyone from_data lk info w r /\ signer_ok (sig k n) r /\ lock_ok cx info r /\ secret_ok hash160 r.
  Proof.
    intros Hr. rewrite full_input_ok, translate_tx_spec. unfold met, signer_ok, lock_ok, secret_ok. split; intros (r & H1 & H2 & H3 & H4); exists r; split_and!; auto.
    - intros t Ht. apply standard_timelock_ok; auto.
    - intros h p Hp. specialize (H4 h p Hp). apply standard_hash_ok in H4 as (h' & [= <-] & ?). done.
    - intros t Ht. apply standard_timelock_ok; auto.
    - intros h p Hp. apply standard_hash_ok. exists h. split; auto.
  Qed.
  Lemma reward_input_requires lk k cx n info w : ctx_in_range cx -> verify_full_input hash160 sig (translate_reward lk) k cx (n, info, w) = Ok tt <->
    exists r, reward_requires info w r /\ signer_ok (sig k n) r.
  Proof.
    intros Hr. rewrite full_input_ok, translate_reward_spec. unfold met, signer_ok. split.
    - intros (r & H1 & H2 & _). eauto.
    - intros (r & H1 & H2). exists r. split_and!; auto; intros; inversion H1; subst; done.
  Qed.
  (** The only scripts that come out of a translation *)
  Lemma translate_tx_shape lk info w s : translate_tx anyone from_data lk info w = Ok s ->
    s = TRUE \/ (exists d w, s = Signature d w) \/ (exists t d w, s = Threshold 2 [Satisfied (Timelock t); Satisfied (Signature d w)]) \/
    (exists h p d w, s = Threshold 2 [Satisfied (HashLock (HcHash160 h) p); Satisfied (Signature d w)]).
  Proof.
    assert (Hl : forall f id e, (let? d := look f id e in Ok (to_signature w d)) = Ok s -> exists d w, s = Signature d w).
    { intros f id e H. destruct (look f id e); try done. injection H as <-. unfold to_signature. eauto. }
    destruct info as [o src|del a|c|c]; cbn [translate_tx].
    - destruct o as [v d|v d t|v|p data|d p|d p|a del|i|id data d|data|v h|d]; intros H; try done; try (injection H as <-; unfold to_signature; eauto 10).
      + right. left. by eapply Hl.
      + destruct w as [x|ty raw]; [done|]. cbn in H. destruct (from_data raw) as [[secret sg|sg]|]; cbn in H; try done; injection H as <-; eauto 10.
    - intros H. right. left. by eapply Hl.
    - destruct c; intros H; try (right; left; by eapply Hl). injection H as <-. by left.
    - destruct c; intros H; try (right; left; by eapply Hl). injection H as <-. right. left. unfold to_signature. eauto.
  Qed.
  Lemma full_input_panic lk k cx n info w : (forall d w, sig k n d w <> Panic) -> (forall id, pool_decommission lk id <> Panic) -> (forall id, delegation_spend lk id <> Panic) ->
    (forall id, token_authority lk id <> Panic) -> (forall id, order_conclude lk id <> Panic) ->
    full lk k cx (n, info, w) = Panic -> exists t, standard_timelock (lock_ctx_of cx info) t = Panic /\ translate_timelock from_data info w = Ok (Timelock t).
  Proof.
    intros Hsig H1 H2 H3 H4 H. unfold verify_full_input in H.
    assert (Hl : forall f id e, (forall id, f id <> Panic) -> (let? d := look f id e in Ok (to_signature w d)) <> Panic).
    { intros f id e Hf. unfold look. specialize (Hf id). destruct (f id) as [[x|]| |]; cbn; done. }
    assert (Htr : translate_tx anyone from_data lk info w <> Panic).
    { destruct info as [o src|del a|c|c]; cbn [translate_tx].
      - destruct o; try done; [by apply Hl|]. destruct w as [x|ty raw]; [done|]. cbn. destruct (from_data raw) as [[]|]; done.
      - by apply Hl.
      - destruct c; try done; by apply Hl.
      - destruct c; try done; by apply Hl. }
    destruct (translate_tx anyone from_data lk info w) as [s| |] eqn:E; [|done..]. cbn in H.
    assert (Hp : check (full_checker (sig k n) hash160 (lock_ctx_of cx info)) s = Panic) by (destruct (check _ s); done).
    unfold check in Hp. rewrite verify_reading in Hp.
    destruct (translate_tx_shape _ _ _ _ E) as [->|[(d & w' & ->)|[(t & d & w' & ->)|(h & p & d & w' & ->)]]].
    - done.
    - cbn in Hp. specialize (Hsig d w'). destruct (sig k n d w'); done.
    - exists t. rewrite reading_threshold in Hp. cbn in Hp. specialize (Hsig d w').
      assert (Ht : standard_timelock (lock_ctx_of cx info) t = Panic).
      { destruct (standard_timelock (lock_ctx_of cx info) t) as [[]| |]; [|done..]. cbn in Hp. destruct (sig k n d w') as [[]| |]; done. }
      split; [done|]. destruct info as [o src|del a|c|c]; cbn [translate_tx translate_timelock] in E |- *.
      + destruct o as [v x|v x y|v|q data|x q|x q|a del|i|id data x|data|v h|x]; try done.
        * by injection E as <- <- <-.
        * unfold look in E. destruct (pool_decommission lk q) as [[z|]| |]; done.
        * destruct w as [x|ty raw]; [done|]. cbn in E |- *. destruct (from_data raw) as [[]|]; try done. cbn in E |- *. by injection E as <- <- <-.
      + unfold look in E. destruct (delegation_spend lk del) as [[z|]| |]; done.
      + destruct c as [id a|id|id|id b|id|id d'|id|id a d'|id u]; try done; unfold look in E;
          try (destruct (token_authority lk id) as [[z|]| |]; done); destruct (order_conclude lk id) as [[z|]| |]; done.
      + destruct c as [id a|id|id]; try done; unfold look in E; destruct (order_conclude lk id) as [[z|]| |]; done.
    - rewrite reading_threshold in Hp. cbn in Hp. specialize (Hsig d w'). unfold ensure in Hp. destruct (hash160 p =? h); cbn in Hp; [|done].
      destruct (sig k n d w') as [[]| |]; done.
  Qed.
  Lemma tx_signature_ok lk k d n i u utxos w p :
    is_owner lk i u d -> (forall o, i = InUtxo o -> u = u_output <$> utxos o) -> per_input (SE := SE) utxos n (i, Some w) = Ok p ->
    verify_tx_signature anyone from_data sig k d n i u (Some w) = Ok tt <-> signed_input lk k p.
  Proof.
    intros Ho Hu Hp. assert (Hsingle : forall (f : N -> res unit (option N)) id e, f id = Ok (Some d) ->
      (let? x := look f id e in Ok (E := translation_err) (to_signature w x)) = Ok (to_signature w d)).
    { intros f id e H. unfold look. by rewrite H. }
    assert (Hgen : forall info info', translate_signature anyone from_data (single_lookup d) info' w = translate_signature anyone from_data lk info w ->
      (rmap_err (fun e : input_err => (n, e)) (let? s := rmap_err Translation (translate_signature anyone from_data (single_lookup d) info' w) in
         rmap_err Verification (check (signature_only (CE := lock_ctx_err) (sig k n)) s)) = Ok tt <-> signed_input lk k (n, info, w))).
    { intros info info' E. rewrite E, (wrap_ok n). cbn [signed_input]. unfold accepts. split; intros (s & Es & H); exists s; (split; [done|]).
      - apply verify_ok in H. eapply holds_mono; [..|exact H]; done.
      - apply verify_ok. eapply holds_mono; [..|exact H]; done. }
    unfold verify_tx_signature, per_input in *. cbn [fst snd ok_or rbind] in Hp. destruct i as [o|nonce del a|nonce c|c]; cbn [info_of rbind] in Hp |- *.
    - specialize (Hu o eq_refl). destruct (utxos o) as [ut|]; [|done]. cbn in Hu, Hp. subst u. injection Hp as <-. cbn [ok_or rbind]. apply (Hgen (InfoUtxo (u_output ut) (Some (u_source ut))) (InfoUtxo (u_output ut) None)).
      cbn [translate_signature]. destruct (u_output ut) as [v x|v x y|v|q data|x q|x q|a del|i|id data x|data|v h|x]; try done.
      rewrite !Hsingle; [done|by eapply Ho|done].
    - injection Hp as <-. cbn [is_owner] in Ho. cbn [ok_or rbind]. match goal with |- context[translate_signature _ _ _ ?i _] => apply (Hgen i i) end. cbn [translate_signature]. rewrite !Hsingle; done.
    - injection Hp as <-. cbn [is_owner] in Ho. cbn [ok_or rbind]. match goal with |- context[translate_signature _ _ _ ?i _] => apply (Hgen i i) end. cbn [translate_signature]. destruct c; cbn in Ho; rewrite ?Hsingle; done.
    - injection Hp as <-. cbn [is_owner] in Ho. cbn [ok_or rbind]. match goal with |- context[translate_signature _ _ _ ?i _] => apply (Hgen i i) end. cbn [translate_signature]. destruct c; rewrite ?Hsingle; done.
  Qed.
End Inputs.
