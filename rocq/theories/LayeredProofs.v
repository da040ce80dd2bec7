(** Generic refinement proof for stacks of caches. *)
From Verif Require Import Base LayeredModel LayeredSpec.

Section refine.
Context {View Delta Db Op Undo Er U1 U2 St : Type}.
Variable cache_view : View -> Delta -> View.
Variable db_view : Db -> View.
Variable empty_delta : Delta.
Variable run_op : View -> Delta -> Op -> Delta * res Er Undo.
Variable run_undo : View -> Delta -> Undo -> Delta * res Er unit.
Variable merge : Delta -> Delta -> Delta * res Er U1.
Variable db_merge : Db -> Delta -> Db * res Er U2.
Variable step : St -> Op -> res Er St.
Variable fits : St -> Op -> Prop.
(** [reads v s]: all queries of [v] succeed and answer as [s]. [inv p d s]: delta [d] over parent value [p] stands for [s].
    [db_inv db s]: the database stands for [s]. [undoes u s' s]: [u] is the record of an operation from [s] to [s']. *)
Variable reads : View -> St -> Prop.
Variable inv : St -> Delta -> St -> Prop.
Variable good : St -> Prop.
Variable db_inv : Db -> St -> Prop.
Variable undoes : Undo -> St -> St -> Prop.

Hypothesis reads_cache : forall P p d s, reads P p -> inv p d s -> reads (cache_view P d) s.
Hypothesis reads_db : forall db s, db_inv db s -> reads (db_view db) s.
Hypothesis db_good : forall db s, db_inv db s -> good s.
Hypothesis inv_good : forall p d s, inv p d s -> good s.
Hypothesis inv_empty : forall p, good p -> inv p empty_delta p.
Hypothesis op_refines : forall P p d s o, reads P p -> inv p d s -> fits s o ->
  match step s o with
  | Ok s' => exists d' u, run_op P d o = (d', Ok u) /\ inv p d' s' /\ undoes u s' s
  | Err e => exists d', run_op P d o = (d', Err e) /\ inv p d' s
  | Panic => False
  end.
Hypothesis undo_refines : forall P p d s' u s, reads P p -> inv p d s' -> undoes u s' s ->
  exists d', run_undo P d u = (d', Ok tt) /\ inv p d' s.
Hypothesis merge_refines : forall p d s e t, inv p d s -> inv s e t -> exists d' u, merge d e = (d', Ok u) /\ inv p d' t.
Hypothesis db_merge_refines : forall db p d s, db_inv db p -> inv p d s ->
  exists db' u, db_merge db d = (db', Ok u) /\ db_inv db' s.

Notation stack_view := (stack_view cache_view db_view).
Notation machine_view := (machine_view cache_view db_view).
Notation exec := (exec cache_view db_view empty_delta run_op run_undo merge db_merge).
Notation exec_all := (exec_all cache_view db_view empty_delta run_op run_undo merge db_merge).

(** Undo records match the remembered values. *)
Inductive log_ok : St -> list Undo -> list St -> Prop :=
| log_nil s : log_ok s [] []
| log_cons s' u s us ss : undoes u s' s -> log_ok s us ss -> log_ok s' (u :: us) (s :: ss).

Inductive stack_ok (db : Db) (b : St) : list (Delta * list Undo) -> list (St * list St) -> St -> Prop :=
| stack_nil : db_inv db b -> stack_ok db b [] [] b
| stack_cons ls sls p d s us ss :
    stack_ok db b ls sls p -> inv p d s -> log_ok s us ss -> stack_ok db b ((d, us) :: ls) ((s, ss) :: sls) s.

Definition rel (m : (Db * list Undo) * list (Delta * list Undo)) (sm : (St * list St) * list (St * list St)) : Prop :=
  stack_ok m.1.1 sm.1.1 m.2 sm.2 (top sm) /\ log_ok sm.1.1 m.1.2 sm.1.2.

Lemma stack_top db b bl ls sls t : stack_ok db b ls sls t -> t = top ((b, bl), sls).
Proof. destruct 1; reflexivity. Qed.

Lemma stack_reads db b ls sls t : stack_ok db b ls sls t -> reads (stack_view db ls) t /\ good t.
Proof.
  induction 1 as [Hdb|ls sls p d s us ss Hst [IH1 IH2] Hinv Hlog].
  - split; [apply reads_db; exact Hdb|apply (db_good _ _ Hdb)].
  - split; [apply (reads_cache _ _ _ _ IH1 Hinv)|apply (inv_good _ _ _ Hinv)].
Qed.

Lemma exec_refines m sm c : rel m sm -> fits_command fits sm c ->
  rel (exec m c).1 (sexec step sm c).1 /\ (exec m c).2 = (sexec step sm c).2.
Proof.
  destruct m as [[db dblog] ls], sm as [[b blog] sls]. unfold rel. cbn [fst snd]. intros [Hst Hblog] Hfit.
  inversion Hst as [Hdb E1 E2|ls' sls' p d s us ss Hst' Hinv Hlog E1 E2 E3]; subst; clear Hst.
  - (* no cache open *)
    destruct c; cbn; (split; [|reflexivity]); try (split; [constructor; exact Hdb|exact Hblog]).
    split; [|exact Hblog]. econstructor; [constructor; exact Hdb| |exact Hblog].
    apply inv_empty. apply (db_good _ _ Hdb).
  - unfold top, top_level in Hinv, Hlog; cbn in Hinv, Hlog. pose proof (stack_reads _ _ _ _ _ Hst') as [Hreads Hgood].
    destruct c as [o| | | |].
    + (* Do *)
      unfold fits_command in Hfit; cbn in Hfit. pose proof (op_refines _ _ _ _ _ Hreads Hinv Hfit) as Hop.
      cbn. destruct (step s o) as [s'|e|] eqn:Es.
      * destruct Hop as (d' & u & -> & Hinv' & Hu). cbn. split; [|reflexivity]. split; [|exact Hblog].
        econstructor; [exact Hst'|exact Hinv'|]. constructor; assumption.
      * destruct Hop as (d' & -> & Hinv'). cbn. split; [|reflexivity]. split; [|exact Hblog]. econstructor; eassumption.
      * contradiction.
    + (* UndoLast *)
      cbn. inversion Hlog as [|s1 u s0 us' ss' Hu Hlog']; subst.
      * cbn. split; [|reflexivity]. split; [|exact Hblog]. econstructor; eassumption.
      * destruct (undo_refines _ _ _ _ _ _ Hreads Hinv Hu) as (d' & -> & Hinv'). cbn. split; [|reflexivity].
        split; [|exact Hblog]. econstructor; eassumption.
    + (* Push *)
      cbn. split; [|reflexivity]. split; [|exact Hblog]. econstructor.
      * econstructor; eassumption.
      * apply inv_empty. apply (inv_good _ _ _ Hinv).
      * exact Hlog.
    + (* Flush *)
      inversion Hst' as [Hdb F1 F2|ls2 sls2 p2 d2 s2 us2 ss2 Hst2 Hinv2 Hlog2 F1 F2 F3]; subst.
      * destruct (db_merge_refines _ _ _ _ Hdb Hinv) as (db' & u & Hm & Hdb'). cbn. rewrite Hm. cbn.
        split; [|reflexivity]. split; [constructor; exact Hdb'|exact Hlog].
      * destruct (merge_refines _ _ _ _ _ Hinv2 Hinv) as (d' & u & Hm & Hinv'). cbn. rewrite Hm. cbn.
        split; [|reflexivity]. split; [|exact Hblog]. econstructor; eassumption.
    + (* Discard *)
      cbn. split; [|reflexivity]. split; [|exact Hblog]. rewrite <- (stack_top _ _ _ _ _ _ Hst'). exact Hst'.
Qed.

Theorem exec_all_refines cs m sm : rel m sm -> fits_all step fits sm cs ->
  rel (exec_all m cs).1 (sexec_all step sm cs).1 /\ (exec_all m cs).2 = (sexec_all step sm cs).2.
Proof.
  revert m sm. induction cs as [|c cs IH]; intros m sm Hrel Hfit; cbn.
  - split; [exact Hrel|reflexivity].
  - destruct Hfit as [Hf1 Hf2]. destruct (exec_refines _ _ _ Hrel Hf1) as [Hrel' Ho].
    destruct (exec m c) as [m' o] eqn:E1. destruct (sexec step sm c) as [sm' so] eqn:E2. cbn in *. subst so.
    destruct (IH _ _ Hrel' Hf2) as [IH1 IH2].
    destruct (exec_all m' cs) as [m'' os]. destruct (sexec_all step sm' cs) as [sm'' sos]. cbn in *.
    split; [exact IH1|congruence].
Qed.

Lemma rel_start db s0 : db_inv db s0 -> rel ((db, []), []) ((s0, []), []).
Proof. intros H. split; [constructor; exact H|constructor]. Qed.

Lemma rel_reads m sm : rel m sm -> reads (machine_view m) (top sm).
Proof. intros [H _]. apply (stack_reads _ _ _ _ _ H). Qed.

Theorem layered_refinement db s0 cs :
  db_inv db s0 -> fits_all step fits ((s0, []), []) cs ->
  let (m, os) := exec_all ((db, []), []) cs in
  let (sm, sos) := sexec_all step ((s0, []), []) cs in
  os = sos /\ reads (machine_view m) (top sm) /\ (m.2 = [] -> db_inv m.1.1 (top sm)).
Proof.
  intros Hdb Hfit. destruct (exec_all_refines cs _ _ (rel_start _ _ Hdb) Hfit) as [Hrel Ho].
  destruct (exec_all ((db, []), []) cs) as [m os]. destruct (sexec_all step ((s0, []), []) cs) as [sm sos]. cbn in *.
  split; [exact Ho|]. split; [apply rel_reads, Hrel|].
  intros Hm. destruct Hrel as [Hrel _]. destruct m as [[db' dl] ls]. cbn in *. subst ls.
  inversion Hrel as [Hdb' E1 E2 E3|]. exact Hdb'.
Qed.

(** *** Undoing *)
Lemma exec_all_app cs cs' m :
  exec_all m (cs ++ cs') =
  ((exec_all (exec_all m cs).1 cs').1, (exec_all m cs).2 ++ (exec_all (exec_all m cs).1 cs').2).
Proof.
  revert m. induction cs as [|c cs IH]; intros m; cbn; [destruct (exec_all m cs'); reflexivity|].
  destruct (exec m c) as [m' o]. rewrite IH. destruct (exec_all m' cs) as [m1 o1]. cbn.
  destruct (exec_all m1 cs'); reflexivity.
Qed.

Lemma sexec_all_app cs cs' m :
  sexec_all step m (cs ++ cs') =
  ((sexec_all step (sexec_all step m cs).1 cs').1, (sexec_all step m cs).2 ++ (sexec_all step (sexec_all step m cs).1 cs').2).
Proof.
  revert m. induction cs as [|c cs IH]; intros m; cbn; [destruct (sexec_all step m cs'); reflexivity|].
  destruct (sexec step m c) as [m' o]. rewrite IH. destruct (sexec_all step m' cs) as [m1 o1]. cbn.
  destruct (sexec_all step m1 cs'); reflexivity.
Qed.

Lemma fits_all_app cs cs' m :
  fits_all step fits m (cs ++ cs') <-> fits_all step fits m cs /\ fits_all step fits (sexec_all step m cs).1 cs'.
Proof.
  revert m. induction cs as [|c cs IH]; intros m; cbn; [tauto|].
  rewrite IH. destruct (sexec step m c) as [m' o]. cbn. destruct (sexec_all step m' cs); cbn. tauto.
Qed.

Lemma neutral_spec cs : neutral cs -> forall sm : (St * list St) * list (St * list St),
  Forall (fun o => o = Done) (sexec_all step sm cs).2 -> top_level (sexec_all step sm cs).1 = top_level sm.
Proof.
  induction 1 as [| | |o cs Hn IH|cs cs' H1 IH1 H2 IH2]; intros sm Hall.
  - reflexivity.
  - destruct sm as [b ls]. reflexivity.
  - destruct sm as [b [|l [|l2 ls]]]; reflexivity.
  - cbn [app] in *. change (Do o :: cs ++ [UndoLast]) with ([Do o] ++ (cs ++ [UndoLast])) in *.
    rewrite sexec_all_app in Hall |- *. cbn [fst snd] in *. apply Forall_app in Hall as [Ho Hall].
    destruct sm as [b [|[s log] ls]]; [apply Forall_cons in Ho as [Ho _]; discriminate Ho|].
    cbn in Ho. destruct (step s o) as [s'|e|] eqn:Hs; cbn in Ho; try (apply Forall_cons in Ho as [Ho _]; discriminate Ho).
    assert (H1 : (sexec_all step (b, (s, log) :: ls) [Do o]).1 = (b, (s', s :: log) :: ls)).
    { cbn. rewrite Hs. reflexivity. }
    rewrite H1 in *. rewrite sexec_all_app in Hall |- *. cbn [fst snd] in *. apply Forall_app in Hall as [Hcs Hu].
    specialize (IH _ Hcs). destruct (sexec_all step (b, (s', s :: log) :: ls) cs).1 as [b2 [|l2 ls2]].
    + cbn in Hu. apply Forall_cons in Hu as [Hu _]. discriminate Hu.
    + unfold top_level in IH. cbn in IH. subst l2. reflexivity.
  - rewrite sexec_all_app in Hall |- *. cbn [fst snd] in *. apply Forall_app in Hall as [Ha Hb].
    rewrite (IH2 _ Hb). apply IH1, Ha.
Qed.

(** Run anything, then a neutral sequence all of whose commands take effect: every query answers as before it. *)
Theorem layered_undo db s0 cs ns :
  db_inv db s0 -> fits_all step fits ((s0, []), []) (cs ++ ns) -> neutral ns ->
  let m1 := (exec_all ((db, []), []) cs).1 in
  let m2 := exec_all m1 ns in
  Forall (fun o => o = Done) m2.2 -> exists s, reads (machine_view m1) s /\ reads (machine_view m2.1) s.
Proof.
  intros Hdb Hfit Hn m1 m2 Hall. apply fits_all_app in Hfit as [Hf1 Hf2].
  destruct (exec_all_refines cs _ _ (rel_start _ _ Hdb) Hf1) as [Hrel1 _].
  destruct (exec_all_refines ns _ _ Hrel1 Hf2) as [Hrel2 Ho2].
  fold m1 in Hrel1, Hrel2, Ho2. fold m2 in Hrel2, Ho2. rewrite Ho2 in Hall.
  pose proof (neutral_spec _ Hn _ Hall) as Htop.
  eexists. split; [apply (rel_reads _ _ Hrel1)|]. unfold top. rewrite <- Htop. apply (rel_reads _ _ Hrel2).
Qed.

Theorem layered_never_stuck db s0 cs :
  db_inv db s0 -> fits_all step fits ((s0, []), []) cs ->
  Forall2 expected cs (exec_all ((db, []), []) cs).2.
Proof.
  intros Hdb. pose proof (rel_start _ _ Hdb) as Hrel. revert Hrel. clear Hdb.
  generalize (((s0, []), []) : (St * list St) * list (St * list St)) as sm.
  generalize (((db, []), []) : (Db * list Undo) * list (Delta * list Undo)) as m.
  induction cs as [|c cs IH]; intros m sm Hrel Hfit; cbn; [constructor|].
  destruct Hfit as [Hf1 Hf2]. destruct (exec_refines _ _ _ Hrel Hf1) as [Hrel' Ho].
  specialize (IH _ _ Hrel' Hf2).
  destruct (exec m c) as [m' o]. cbn in *. destruct (exec_all m' cs) as [m'' os]. cbn in *.
  constructor; [|exact IH]. subst o.
  destruct sm as [b [|[s log] ls]]; destruct c; cbn; auto; try discriminate.
  - unfold fits_command in Hf1; cbn in Hf1. destruct Hrel as [Hst _]. destruct m as [[db1 dl1] ls1]. cbn in Hst.
    inversion Hst as [|ls' sls' p d s' us ss Hst' Hinv Hlog E1 E2 E3]; subst.
    pose proof (op_refines _ _ _ _ _ (proj1 (stack_reads _ _ _ _ _ Hst')) Hinv Hf1) as Hop. unfold top in Hop. cbn in Hop.
    destruct (step s o) as [s1|e|]; cbn; try discriminate. contradiction.
  - destruct log; cbn; auto.
  - destruct ls; cbn; auto.
Qed.

(** Forward runs only ever apply operations to the visible value. *)
Lemma forward_invariant (I : St -> Prop) cs :
  (forall s o s', I s -> step s o = Ok s' -> I s') -> Forall forward cs ->
  forall sm, I (top sm) -> I (top (sexec_all step sm cs).1).
Proof.
  intros Hstep Hf. induction Hf as [|c cs Hc Hcs IH]; intros sm Hsm; [exact Hsm|]. cbn.
  destruct (sexec step sm c) as [sm' o] eqn:E. specialize (IH sm').
  destruct (sexec_all step sm' cs) as [sm'' os]. apply IH. clear IH.
  destruct sm as [b ls]. destruct c; try contradiction.
  - destruct ls as [|[s log] ls]; cbn in E; [congruence|].
    destruct (step s o0) as [s'|e|] eqn:Hs; injection E as <- <-; try exact Hsm.
    apply (Hstep _ _ _ Hsm Hs).
  - cbn in E. injection E as <- <-. exact Hsm.
  - destruct ls as [|l [|l2 ls]]; cbn in E; injection E as <- <-; exact Hsm.
Qed.

(** An invariant of all values a run can show, whatever is undone or dropped. *)
Definition all_levels (I : St -> Prop) (sm : (St * list St) * list (St * list St)) : Prop :=
  forall l, l = sm.1 \/ l ∈ sm.2 -> I l.1 /\ Forall I l.2.

Lemma levels_invariant (I : St -> Prop) cs :
  (forall s o s', I s -> step s o = Ok s' -> I s') ->
  forall sm, all_levels I sm -> all_levels I (sexec_all step sm cs).1.
Proof.
  intros Hstep. induction cs as [|c cs IH]; intros sm Hsm; [exact Hsm|]. cbn.
  destruct (sexec step sm c) as [sm' o] eqn:E. specialize (IH sm').
  destruct (sexec_all step sm' cs) as [sm'' os]. apply IH. clear IH.
  destruct sm as [b ls]. unfold all_levels in *. cbn [fst snd] in Hsm.
  destruct c as [op| | | |]; cbn in E.
  - destruct ls as [|[s log] ls]; [injection E as <- <-; exact Hsm|].
    destruct (step s op) as [s'|e|] eqn:Hs; injection E as <- <-; try exact Hsm.
    cbn. intros l [->|Hl]; [apply Hsm; left; reflexivity|]. apply elem_of_cons in Hl as [->|Hl].
    + cbn. destruct (Hsm (s, log)) as [H1 H2]; [right; left|]. cbn in *. split; [apply (Hstep _ _ _ H1 Hs)|].
      constructor; assumption.
    + apply Hsm. right. right. exact Hl.
  - destruct ls as [|[s [|s0 log]] ls]; injection E as <- <-; try exact Hsm.
    cbn. intros l [->|Hl]; [apply Hsm; left; reflexivity|]. apply elem_of_cons in Hl as [->|Hl].
    + cbn. destruct (Hsm (s, s0 :: log)) as [H1 H2]; [right; left|]. cbn in *. apply Forall_cons in H2. exact H2.
    + apply Hsm. right. right. exact Hl.
  - injection E as <- <-. cbn. intros l [->|Hl]; [apply Hsm; left; reflexivity|]. apply elem_of_cons in Hl as [->|Hl].
    + destruct ls as [|l' ls]; cbn; [apply Hsm; left; reflexivity|]. apply Hsm. right. left.
    + apply Hsm. right. exact Hl.
  - destruct ls as [|l1 [|l2 ls]]; injection E as <- <-; try exact Hsm; cbn; intros l [->|Hl].
    + apply Hsm. right. left.
    + apply elem_of_nil in Hl. contradiction.
    + apply Hsm. left. reflexivity.
    + apply elem_of_cons in Hl as [->|Hl]; apply Hsm; right; [left|right; right; exact Hl].
  - destruct ls as [|l1 ls]; injection E as <- <-; try exact Hsm; cbn; intros l [->|Hl].
    + apply Hsm. left. reflexivity.
    + apply Hsm. right. right. exact Hl.
Qed.

Lemma levels_top (I : St -> Prop) sm : all_levels I sm -> I (top sm).
Proof.
  destruct sm as [b [|l ls]]; intros H; unfold top, top_level; cbn.
  - apply (H b). left. reflexivity.
  - apply (H l). right. left.
Qed.

(** Everything visible through the real machine satisfies an invariant of the values. *)
Theorem layered_invariant (I : St -> Prop) db s0 cs :
  (forall s o s', I s -> step s o = Ok s' -> I s') -> I s0 ->
  db_inv db s0 -> fits_all step fits ((s0, []), []) cs ->
  exists s, I s /\ reads (machine_view (exec_all ((db, []), []) cs).1) s.
Proof.
  intros Hstep H0 Hdb Hfit. destruct (exec_all_refines cs _ _ (rel_start _ _ Hdb) Hfit) as [Hrel _].
  eexists. split; [|apply (rel_reads _ _ Hrel)]. apply levels_top. apply levels_invariant; [exact Hstep|].
  intros l [->|Hl]; [|apply elem_of_nil in Hl; contradiction]. cbn. split; [exact H0|constructor].
Qed.

(** After any run, a forward run keeps whatever every operation keeps. *)
Theorem layered_forward (I : St -> Prop) db s0 cs fs :
  (forall s o s', I s -> step s o = Ok s' -> I s') -> Forall forward fs ->
  db_inv db s0 -> fits_all step fits ((s0, []), []) (cs ++ fs) ->
  let m1 := (exec_all ((db, []), []) cs).1 in
  exists s1 s2, reads (machine_view m1) s1 /\ reads (machine_view (exec_all m1 fs).1) s2 /\ (I s1 -> I s2).
Proof.
  intros Hstep Hfw Hdb Hfit m1. apply fits_all_app in Hfit as [Hf1 Hf2].
  destruct (exec_all_refines cs _ _ (rel_start _ _ Hdb) Hf1) as [Hrel1 _].
  destruct (exec_all_refines fs _ _ Hrel1 Hf2) as [Hrel2 _].
  do 2 eexists. split; [apply (rel_reads _ _ Hrel1)|]. split; [apply (rel_reads _ _ Hrel2)|].
  intros H. apply (forward_invariant I fs Hstep Hfw). exact H.
Qed.

(** After any run, a forward run does to the visible value exactly what its accepted operations do. *)
Lemma forward_steps cs : Forall forward cs -> forall sm : (St * list St) * list (St * list St),
  steps step (top sm) (accepted cs (sexec_all step sm cs).2) = Ok (top (sexec_all step sm cs).1).
Proof.
  intros Hf. induction Hf as [|c cs Hc Hcs IH]; intros sm; [reflexivity|]. cbn.
  destruct (sexec step sm c) as [sm' o] eqn:E. specialize (IH sm').
  destruct (sexec_all step sm' cs) as [sm'' os]. cbn in IH |- *.
  destruct sm as [b ls]. destruct c as [op| | | |]; try contradiction.
  - destruct ls as [|[s log] ls]; cbn in E; [injection E as <- <-; exact IH|].
    unfold top, top_level at 1. cbn. destruct (step s op) as [s'|e|] eqn:Hs; injection E as <- <-; cbn.
    + rewrite Hs. exact IH.
    + exact IH.
    + exact IH.
  - cbn in E. injection E as <- <-. exact IH.
  - destruct ls as [|l [|l2 ls]]; cbn in E; injection E as <- <-; exact IH.
Qed.

Theorem layered_steps db s0 cs fs :
  Forall forward fs -> db_inv db s0 -> fits_all step fits ((s0, []), []) (cs ++ fs) ->
  let m1 := (exec_all ((db, []), []) cs).1 in
  let m2 := exec_all m1 fs in
  exists s1 s2, reads (machine_view m1) s1 /\ reads (machine_view m2.1) s2 /\ good s1 /\
    steps step s1 (accepted fs m2.2) = Ok s2.
Proof.
  intros Hfw Hdb Hfit m1 m2. apply fits_all_app in Hfit as [Hf1 Hf2].
  destruct (exec_all_refines cs _ _ (rel_start _ _ Hdb) Hf1) as [Hrel1 _].
  destruct (exec_all_refines fs _ _ Hrel1 Hf2) as [Hrel2 Ho].
  do 2 eexists. split; [apply (rel_reads _ _ Hrel1)|]. split; [apply (rel_reads _ _ Hrel2)|].
  split; [apply (stack_reads _ _ _ _ _ (proj1 Hrel1))|].
  unfold m2, m1. rewrite Ho. apply (forward_steps _ Hfw).
Qed.

(** After any run, the outcome of one more operation is decided by what is visible. *)
Theorem layered_next db s0 cs o :
  db_inv db s0 -> fits_all step fits ((s0, []), []) cs ->
  let m1 := (exec_all ((db, []), []) cs).1 in
  m1.2 <> [] -> (forall s, reads (machine_view m1) s -> fits s o) ->
  exists s, reads (machine_view m1) s /\
    (exec m1 (Do o)).2 = outcome_of (step s o) /\
    reads (machine_view (exec m1 (Do o)).1) (match step s o with Ok s' => s' | _ => s end).
Proof.
  intros Hdb Hf1 m1 Hne Hf2.
  destruct (exec_all_refines cs _ _ (rel_start _ _ Hdb) Hf1) as [Hrel1 _]. fold m1 in Hrel1.
  set (sm := (sexec_all step ((s0, []), []) cs).1) in *.
  assert (fits_command fits sm (Do o)) as Hf3.
  { pose proof (Hf2 _ (rel_reads _ _ Hrel1)) as H. destruct sm as [b [|[s log] ls]]; [exact I|exact H]. }
  destruct (exec_refines _ _ _ Hrel1 Hf3) as [Hrel2 Ho].
  eexists. split; [apply (rel_reads _ _ Hrel1)|]. rewrite Ho.
  pose proof (rel_reads _ _ Hrel2) as Hr2. clear Ho Hf1 Hf2 Hf3 Hrel2.
  destruct sm as [b [|[s log] ls]].
  - destruct Hrel1 as [Hst _]. destruct m1 as [[d1 l1] ls1]. cbn in Hst, Hne. inversion Hst; subst. contradiction.
  - cbn in *. unfold top, top_level in *. cbn in *. destruct (step s o); split; (reflexivity || exact Hr2).
Qed.
End refine.

(** Deciding the range condition of a concrete run. *)
Section decide_fits.
Context {Op St Er : Type}.
Variable step : St -> Op -> res Er St.
Variable fits : St -> Op -> Prop.
Variable fitsb : St -> Op -> bool.
Hypothesis fitsb_sound : forall s o, fitsb s o = true -> fits s o.
Fixpoint fits_allb (m : (St * list St) * list (St * list St)) (cs : list (command Op)) : bool :=
  match cs with
  | [] => true
  | c :: cs' => match c, m.2 with Do o, (s, _) :: _ => fitsb s o | _, _ => true end && fits_allb (sexec step m c).1 cs'
  end.
Lemma fits_allb_sound cs m : fits_allb m cs = true -> fits_all step fits m cs.
Proof.
  revert m. induction cs as [|c cs IH]; intros m H; cbn in *; [exact I|].
  apply andb_true_iff in H as [H1 H2]. split; [|apply IH, H2].
  unfold fits_command. destruct c; trivial. destruct (m.2) as [|[s l] ls]; trivial. apply fitsb_sound, H1.
Qed.
End decide_fits.
