(** Proofs about the orphan pool. *)
From Verif Require Import Base BaseProofs OrphanModel OrphanSpec.
Local Open Scope N_scope.

Lemma filter_all {A} (P : A -> Prop) `{forall x, Decision (P x)} (l : list A) : (forall x, x ∈ l -> P x) -> filter P l = l.
Proof.
  induction l as [|x l IH]; intro Hl; [done|]. rewrite filter_cons_True by (apply Hl; set_solver). f_equal. apply IH. intros y Hy. apply Hl. set_solver.
Qed.
Lemma filter_none {A} (P : A -> Prop) `{forall x, Decision (P x)} (l : list A) : (forall x, x ∈ l -> ~ P x) -> filter P l = [].
Proof.
  induction l as [|x l IH]; intro Hl; [done|]. rewrite filter_cons_False by (apply Hl; set_solver). apply IH. intros y Hy. apply Hl. set_solver.
Qed.
Lemma filter_comm {A} (P Q : A -> Prop) `{forall x, Decision (P x)} `{forall x, Decision (Q x)} (l : list A) : filter P (filter Q l) = filter Q (filter P l).
Proof. rewrite !list_filter_filter. apply list_filter_iff. intro x. tauto. Qed.
Lemma filter_lt {A} (P Q : A -> Prop) `{forall x, Decision (P x)} `{forall x, Decision (Q x)} (l : list A) z :
  (forall x, Q x -> P x) -> z ∈ l -> P z -> ~ Q z -> (length (filter Q l) < length (filter P l))%nat.
Proof.
  intros Sub. assert (Le : forall l : list A, (length (filter Q l) <= length (filter P l))%nat).
  { clear l z. intro l. induction l as [|x l IH]; [done|]. destruct (decide (Q x)) as [q|q].
    - rewrite filter_cons_True, filter_cons_True by auto. cbn. lia.
    - rewrite filter_cons_False by done. destruct (decide (P x)); [rewrite filter_cons_True by done; cbn; lia|rewrite filter_cons_False by done; done]. }
  induction l as [|x l IH]; intros Hz Pz Nz; [set_solver|]. apply elem_of_cons in Hz. destruct Hz as [<-|Hz].
  - rewrite filter_cons_False, filter_cons_True by done. cbn. specialize (Le l). lia.
  - specialize (IH Hz Pz Nz). destruct (decide (Q x)) as [q|q].
    + rewrite filter_cons_True, filter_cons_True by auto. cbn. lia.
    + rewrite filter_cons_False by done. destruct (decide (P x)); [rewrite filter_cons_True by done; cbn; lia|rewrite filter_cons_False by done; done].
Qed.

Lemma filter_ext_in {A} (P Q : A -> Prop) `{forall x, Decision (P x)} `{forall x, Decision (Q x)} (l : list A) :
  (forall x, x ∈ l -> P x <-> Q x) -> filter P l = filter Q l.
Proof.
  induction l as [|x l IH]; intro Hl; [done|]. assert (Hx : P x <-> Q x) by (apply Hl; set_solver). assert (IH' : filter P l = filter Q l) by (apply IH; set_solver).
  destruct (decide (P x)); [rewrite !filter_cons_True by tauto|rewrite !filter_cons_False by tauto]; by rewrite IH'.
Qed.

Section OrphanProofs.
  Implicit Type p : pool.

  Lemma by_id_id p id b : consistent p -> orphan_by_id p !! id = Some b -> ob_id b = id /\ b ∈ stored p.
  Proof. intros C H. apply (cn_by_id _ C) in H. tauto. Qed.
  Lemma stored_by_id p b : consistent p -> b ∈ stored p -> orphan_by_id p !! ob_id b = Some b.
  Proof. intros C H. apply (cn_by_id _ C). done. Qed.
  Lemma stored_inj p b c : consistent p -> b ∈ stored p -> c ∈ stored p -> ob_id b = ob_id c -> b = c.
  Proof. intros C Hb Hc E. apply stored_by_id in Hb; [|done]. apply stored_by_id in Hc; [|done]. congruence. Qed.
  Lemma in_prev p prev l b : consistent p -> orphan_by_prev_id p !! prev = Some l -> b ∈ l <-> b ∈ stored p /\ ob_prev b = prev.
  Proof. intros C H. pose proof (cn_by_prev _ C prev) as E. rewrite H in E. cbn in E. rewrite E, elem_of_list_filter. tauto. Qed.
  Lemma prev_list p prev l : consistent p -> orphan_by_prev_id p !! prev = Some l -> l = filter (fun b => ob_prev b = prev) (stored p).
  Proof. intros C H. pose proof (cn_by_prev _ C prev) as E. by rewrite H in E. Qed.
  Lemma prev_none p prev : consistent p -> orphan_by_prev_id p !! prev = None -> forall b, b ∈ stored p -> ob_prev b <> prev.
  Proof.
    intros C H b Hb E. pose proof (cn_by_prev _ C prev) as X. rewrite H in X. cbn in X. assert (Hin : b ∈ filter (fun b => ob_prev b = prev) (stored p)) by (apply elem_of_list_filter; done).
    rewrite <- X in Hin. set_solver.
  Qed.

  Lemma stored_drop (m : gmap N oblock) id (ids : list N) : (forall i b, m !! i = Some b -> ob_id b = i) ->
    omap (fun i => delete id m !! i) (filter (fun i => i <> id) ids) = filter (fun b => ob_id b <> id) (omap (fun i => m !! i) ids).
  Proof.
    intro Hm. induction ids as [|i ids IH]; [done|]. destruct (decide (i = id)) as [->|N].
    - rewrite filter_cons_False by auto. rewrite IH. cbn. destruct (m !! id) as [b|] eqn:E; [|done]. rewrite filter_cons_False; [done|]. apply Hm in E. auto.
    - rewrite filter_cons_True by done. cbn. rewrite lookup_delete_ne by done. rewrite IH. destruct (m !! i) as [b|] eqn:E; [|done]. rewrite filter_cons_True; [done|].
      apply Hm in E. congruence.
  Qed.
  Lemma fmap_filter_ids id (l : list oblock) : ob_id <$> filter (fun b => ob_id b <> id) l = filter (fun i => i <> id) (ob_id <$> l).
  Proof.
    induction l as [|b l IH]; [done|]. cbn [fmap list_fmap]. destruct (decide (ob_id b = id)) as [E|N].
    - rewrite !filter_cons_False by auto. done.
    - rewrite !filter_cons_True by done. cbn. by rewrite IH.
  Qed.
  Lemma drop_spec p id b : consistent p -> orphan_by_id p !! id = Some b ->
    exists p', drop_block p id = Ok p' /\ consistent p' /\ stored p' = filter (fun x => ob_id x <> id) (stored p) /\ max_orphans p' = max_orphans p.
  Proof.
    intros C Hb. destruct (by_id_id _ _ _ C Hb) as [Ib Sb]. unfold drop_block. rewrite Hb. cbn [expect rbind].
    destruct (orphan_by_prev_id p !! ob_prev b) as [l|] eqn:Hl; [|destruct (prev_none _ _ C Hl _ Sb); done].
    eexists. split; [done|]. pose proof (prev_list _ _ _ C Hl) as El. set (l' := filter (fun x => ob_id x <> id) l).
    assert (St : stored (Pool (filter (fun i => i <> id) (orphan_ids p)) (delete id (orphan_by_id p))
      (match l' with [] => delete (ob_prev b) (orphan_by_prev_id p) | _ => <[ob_prev b := l']> (orphan_by_prev_id p) end) (max_orphans p)) =
      filter (fun x => ob_id x <> id) (stored p)).
    { unfold stored at 1. cbn [orphan_ids orphan_by_id]. apply stored_drop. intros i x Hx. by apply (by_id_id p i x C). }
    split; [|split; [done|done]]. constructor; rewrite ?St; cbn [orphan_ids orphan_by_id orphan_by_prev_id].
    - by rewrite fmap_filter_ids, (cn_ids _ C).
    - apply NoDup_filter, C.
    - intros i x. rewrite elem_of_list_filter, lookup_delete_Some, (cn_by_id _ C). split; intros; destruct_and!; subst; split_and!; auto.
    - intro prev. assert (El' : l' = filter (fun x => ob_prev x = ob_prev b) (filter (fun x => ob_id x <> id) (stored p))) by (unfold l'; rewrite El; apply filter_comm).
      destruct (decide (prev = ob_prev b)) as [->|N].
      + rewrite <- El'. destruct l' as [|y l''] eqn:Ey; [by rewrite lookup_delete|by rewrite lookup_insert].
      + replace (filter (fun x => ob_prev x = prev) (filter (fun x => ob_id x <> id) (stored p))) with (filter (fun x => ob_prev x = prev) (stored p)).
        * rewrite <- (cn_by_prev _ C). destruct l'; [by rewrite lookup_delete_ne|by rewrite lookup_insert_ne].
        * rewrite filter_comm. symmetry. apply filter_all. intros x Hx E. apply elem_of_list_filter in Hx. destruct Hx as [Px Hx]. apply N.
          rewrite <- Px. f_equal. apply (stored_inj p); [done..|congruence].
    - intros prev. destruct l' as [|y l''] eqn:Ey.
      + destruct (decide (prev = ob_prev b)) as [->|N]; [by rewrite lookup_delete|]. rewrite lookup_delete_ne by done. apply C.
      + destruct (decide (prev = ob_prev b)) as [->|N]; [by rewrite lookup_insert|]. rewrite lookup_insert_ne by done. apply C.
  Qed.

  Definition below (rank : N -> nat) (p : pool) : Prop := forall b, b ∈ stored p -> (rank (ob_prev b) < rank (ob_id b))%nat.
  Lemma deepest_spec rank fuel : forall p b, consistent p -> below rank p -> b ∈ stored p ->
    (length (filter (fun x => (rank (ob_id b) < rank (ob_id x))%nat) (stored p)) <= fuel)%nat ->
    exists d p', d ∈ stored p /\ leaf (stored p) d /\ del_one_deepest_child fuel p (ob_id b) = Ok p' /\ consistent p' /\
      stored p' = filter (fun x => ob_id x <> ob_id d) (stored p) /\ max_orphans p' = max_orphans p.
  Proof.
    induction fuel as [|fuel IH]; intros p b C Bl Hb Fu; cbn [del_one_deepest_child].
    all: destruct (orphan_by_prev_id p !! ob_id b) as [[|c l]|] eqn:Hl.
    all: try (destruct (cn_no_empty _ C _ Hl)).
    all: try (destruct (drop_spec p (ob_id b) b C (stored_by_id _ _ C Hb)) as (p' & E & C' & S' & M'); exists b, p'; split; [done|]; split; [intros x Hx; by apply (prev_none _ _ C Hl)|]; split_and!; done).
    all: assert (Hc : c ∈ stored p /\ ob_prev c = ob_id b) by (apply (in_prev _ _ _ _ C Hl); set_solver); destruct Hc as [Hc Pc]; pose proof (Bl _ Hc) as Rc; rewrite Pc in Rc.
    - exfalso. assert (X : c ∈ filter (fun x => (rank (ob_id b) < rank (ob_id x))%nat) (stored p)) by (apply elem_of_list_filter; done).
      destruct (filter _ (stored p)); [set_solver|]. cbn in Fu. lia.
    - apply IH; try done.
      assert (Lt : (length (filter (fun x => (rank (ob_id c) < rank (ob_id x))%nat) (stored p)) < length (filter (fun x => (rank (ob_id b) < rank (ob_id x))%nat) (stored p)))%nat).
      { apply (filter_lt _ _ _ c); try done; [intros; lia|lia]. }
      lia.
  Qed.
  Lemma len_stored p : consistent p -> length (stored p) = length (orphan_ids p).
  Proof. intro C. rewrite <- (cn_ids _ C). by rewrite fmap_length. Qed.
  Lemma nth_stored p n id : consistent p -> orphan_ids p !! n = Some id -> exists b, stored p !! n = Some b /\ ob_id b = id.
  Proof. intros C H. rewrite <- (cn_ids _ C) in H. rewrite list_lookup_fmap in H. destruct (stored p !! n) as [b|]; [|done]. injection H as <-. by exists b. Qed.
  Lemma prune_spec rank p choice : consistent p -> below rank p -> 0 < max_orphans p -> pool_len p <= max_orphans p ->
    (pool_len p < max_orphans p /\ prune p choice = Ok p) \/
    (pool_len p = max_orphans p /\ exists d p', d ∈ stored p /\ leaf (stored p) d /\ prune p choice = Ok p' /\ consistent p' /\
       stored p' = filter (fun x => ob_id x <> ob_id d) (stored p) /\ max_orphans p' = max_orphans p).
  Proof.
    intros C Bl Mx Le. unfold prune. destruct (pool_len p <? max_orphans p) eqn:E; [left; split; [lia|done]|]. right. split; [lia|].
    assert (Lt : (N.to_nat (choice mod pool_len p) < length (orphan_ids p))%nat).
    { unfold pool_len in *. assert (choice mod N.of_nat (length (orphan_ids p)) < N.of_nat (length (orphan_ids p))) by (apply N.mod_lt; lia).
      set (m := choice mod _) in *. clearbody m. lia. }
    destruct (lookup_lt_is_Some_2 _ _ Lt) as [id Hid]. rewrite Hid. cbn [expect rbind]. destruct (nth_stored _ _ _ C Hid) as (b & Hb & <-).
    apply (deepest_spec rank); try done; [by eapply elem_of_list_lookup_2|]. rewrite <- (len_stored _ C). apply filter_length.
  Qed.
  Lemma filter_one_less p d : consistent p -> d ∈ stored p -> (length (filter (fun x => ob_id x <> ob_id d) (stored p)) < length (stored p))%nat.
  Proof.
    intros C Hd. assert (X : filter (fun _ : oblock => True) (stored p) = stored p) by by apply filter_all. rewrite <- X at 2.
    apply (filter_lt _ _ _ d); auto.
  Qed.
  Lemma add_new p b : consistent p -> orphan_by_id p !! ob_id b = None ->
    let p' := Pool (orphan_ids p ++ [ob_id b]) (<[ob_id b := b]> (orphan_by_id p))
                   (<[ob_prev b := default [] (orphan_by_prev_id p !! ob_prev b) ++ [b]]> (orphan_by_prev_id p)) (max_orphans p) in
    consistent p' /\ stored p' = stored p ++ [b].
  Proof.
    intros C Hn p'. assert (Ni : ob_id b ∉ orphan_ids p).
    { intro X. rewrite <- (cn_ids _ C) in X. apply elem_of_list_fmap in X. destruct X as (y & E & Hy). apply (stored_by_id _ _ C) in Hy. congruence. }
    assert (St : stored p' = stored p ++ [b]).
    { unfold stored at 1. unfold p'. cbn [orphan_ids orphan_by_id]. rewrite omap_app. f_equal.
      - unfold stored. apply list_omap_ext. induction (orphan_ids p) as [|i l IH]; constructor; [|apply IH; set_solver]. rewrite lookup_insert_ne by set_solver. done.
      - cbn. by rewrite lookup_insert. }
    split; [|done]. constructor; rewrite ?St; cbn [orphan_ids orphan_by_id orphan_by_prev_id p'].
    - rewrite fmap_app, (cn_ids _ C). done.
    - apply NoDup_app. split_and!; [apply C|set_solver|apply NoDup_singleton].
    - intros i x. rewrite elem_of_app, elem_of_list_singleton, lookup_insert_Some, (cn_by_id _ C). split.
      + intros [[<- <-]|[_ [H1 H2]]]; auto.
      + intros [[H1| ->] H2]; [right|left; auto]. split; [|done]. intro X. apply Ni. rewrite <- (cn_ids _ C). apply elem_of_list_fmap. exists x. split; [congruence|done].
    - intro prev. rewrite filter_app. destruct (decide (prev = ob_prev b)) as [->|N].
      + rewrite lookup_insert. cbn. rewrite (cn_by_prev _ C). by rewrite decide_True by done.
      + rewrite lookup_insert_ne by done. rewrite (cn_by_prev _ C). rewrite (filter_cons_False _ b) by auto. by rewrite app_nil_r.
    - intros prev. destruct (decide (prev = ob_prev b)) as [->|N].
      + rewrite lookup_insert. intros [= X]. by apply app_nil in X as [_ X].
      + rewrite lookup_insert_ne by done. apply C.
  Qed.
  Definition good (rank : N -> nat) (p : pool) : Prop := consistent p /\ below rank p /\ 0 < max_orphans p /\ pool_len p <= max_orphans p.
  Lemma pool_len_stored p : consistent p -> pool_len p = N.of_nat (length (stored p)).
  Proof. intro C. unfold pool_len. by rewrite (len_stored _ C). Qed.
  (** What adding does to the list of blocks *)
  Lemma add_spec rank p b choice : good rank p -> (rank (ob_prev b) < rank (ob_id b))%nat ->
    exists p' kept, fst (add_block p b choice) = p' /\ good rank p' /\ max_orphans p' = max_orphans p /\
      ((pool_len p < max_orphans p /\ kept = stored p) \/
       (pool_len p = max_orphans p /\ exists d, d ∈ stored p /\ leaf (stored p) d /\ kept = filter (fun x => ob_id x <> ob_id d) (stored p))) /\
      ((snd (add_block p b choice) = Ok tt /\ (forall x, x ∈ kept -> ob_id x <> ob_id b) /\ stored p' = kept ++ [b]) \/
       (snd (add_block p b choice) = Err BlockAlreadyInOrphanList /\ (exists x, x ∈ kept /\ ob_id x = ob_id b) /\ stored p' = kept)).
  Proof.
    intros (C & Bl & Mx & Le) Rb.
    assert (X : exists q, prune p choice = Ok q /\ consistent q /\ below rank q /\ max_orphans q = max_orphans p /\ pool_len q < max_orphans q /\
      ((pool_len p < max_orphans p /\ stored q = stored p) \/
       (pool_len p = max_orphans p /\ exists d, d ∈ stored p /\ leaf (stored p) d /\ stored q = filter (fun x => ob_id x <> ob_id d) (stored p)))).
    { destruct (prune_spec rank p choice C Bl Mx Le) as [[Lt E]|(Eq & d & q & Hd & Lf & E & Cq & Sq & Mq)].
      - exists p. split_and!; auto.
      - exists q. split_and!; try done.
        + intros x Hx. rewrite Sq in Hx. apply elem_of_list_filter in Hx. apply Bl, Hx.
        + rewrite (pool_len_stored _ Cq), Sq, Mq, <- Eq, (pool_len_stored _ C). pose proof (filter_one_less p d C Hd). lia.
        + right. split; [done|]. by exists d. }
    destruct X as (q & Eq & Cq & Bq & Mq & Lq & Kq). unfold add_block. rewrite Eq.
    destruct (orphan_by_id q !! ob_id b) as [x|] eqn:Hb; cbn [fst snd].
    - exists q, (stored q). split; [done|]. split; [split_and!; try done; lia|]. split; [done|]. split; [done|]. right. split; [done|]. split; [|done].
      destruct (by_id_id _ _ _ Cq Hb) as [I S]. by exists x.
    - destruct (add_new q b Cq Hb) as [C' S']. eexists _, (stored q). split; [done|]. split; [|split; [done|]; split; [done|]; left; split; [done|]; split; [|done]].
      + split_and!; [done| |cbn; lia|].
        * intros x Hx. rewrite S' in Hx. apply elem_of_app in Hx. destruct Hx as [Hx|Hx]; [by apply Bq|]. apply elem_of_list_singleton in Hx. by subst.
        * rewrite (pool_len_stored _ C'), S', app_length. cbn. rewrite (pool_len_stored _ Cq) in Lq. lia.
      + intros x Hx E. apply (stored_by_id _ _ Cq) in Hx. congruence.
  Qed.
  Lemma filter_filter_ids (l : list oblock) (ids : list N) i :
    filter (fun x => ob_id x ∉ ids) (filter (fun x => ob_id x <> i) l) = filter (fun x => ob_id x ∉ i :: ids) l.
  Proof.
    induction l as [|x l IH]; [done|]. destruct (decide (ob_id x = i)) as [E|N].
    - rewrite (filter_cons_False _ x l) by auto. rewrite IH. rewrite filter_cons_False; [done|]. set_solver.
    - rewrite (filter_cons_True _ x l) by done. destruct (decide (ob_id x ∈ ids)).
      + rewrite !filter_cons_False by set_solver. done.
      + rewrite !filter_cons_True by set_solver. by rewrite IH.
  Qed.
  Lemma drop_all (l : list oblock) : forall p, consistent p -> NoDup (ob_id <$> l) -> (forall b, b ∈ l -> b ∈ stored p) ->
    exists p', rfold (fun p b => drop_block p (ob_id b)) l p = Ok p' /\ consistent p' /\ stored p' = filter (fun x => ob_id x ∉ (ob_id <$> l)) (stored p) /\ max_orphans p' = max_orphans p.
  Proof.
    induction l as [|b l IH]; intros p C Nd Hl.
    - exists p. split_and!; try done. symmetry. apply filter_all. set_solver.
    - cbn in Nd. apply NoDup_cons in Nd. destruct Nd as [Nb Nd]. destruct (drop_spec p (ob_id b) b C) as (q & E & Cq & Sq & Mq); [apply stored_by_id; [done|apply Hl; set_solver]|].
      cbn [rfold]. rewrite E. cbn [rbind]. destruct (IH q Cq Nd) as (p' & E' & C' & S' & M').
      + intros x Hx. rewrite Sq. apply elem_of_list_filter. split; [|apply Hl; set_solver]. intro X. apply Nb. rewrite <- X. by apply elem_of_list_fmap_1.
      + exists p'. split; [done|]. split; [done|]. split; [|congruence]. rewrite S', Sq. cbn [fmap list_fmap]. apply filter_filter_ids.
  Qed.
  Lemma take_spec p id : consistent p -> exists p', take_all_children_of p id = Ok (p', filter (fun b => ob_prev b = id) (stored p)) /\ consistent p' /\
    stored p' = filter (fun b => ob_prev b <> id) (stored p) /\ max_orphans p' = max_orphans p.
  Proof.
    intro C. unfold take_all_children_of. destruct (orphan_by_prev_id p !! id) as [l|] eqn:Hl.
    - pose proof (prev_list _ _ _ C Hl) as El. destruct (drop_all l p C) as (p' & E & C' & S' & M').
      + assert (Nd : NoDup (ob_id <$> stored p)) by (rewrite (cn_ids _ C); apply C). rewrite El. clear -Nd. induction (stored p) as [|x l IH]; [constructor|]. cbn in Nd.
        apply NoDup_cons in Nd. destruct Nd as [N1 N2]. destruct (decide (ob_prev x = id)); [rewrite filter_cons_True by done|rewrite filter_cons_False by done; auto].
        cbn. apply NoDup_cons. split; [|auto]. intro X. apply N1. apply elem_of_list_fmap in X. destruct X as (y & -> & Hy). apply elem_of_list_filter in Hy. apply elem_of_list_fmap_1. tauto.
      + intros b Hb. apply (in_prev _ _ _ _ C Hl) in Hb. tauto.
      + exists p'. rewrite E. cbn [rbind]. rewrite El at 1. split_and!; try done. rewrite S'. apply filter_ext_in. intros x Hx. split.
        * intros X Y. apply X. apply elem_of_list_fmap_1. apply (in_prev _ _ _ _ C Hl). done.
        * intros X Y. apply elem_of_list_fmap in Y. destruct Y as (y & E' & Hy). apply (in_prev _ _ _ _ C Hl) in Hy. destruct Hy as [Hy Py]. apply X. rewrite <- Py. f_equal. by apply (stored_inj p).
    - exists p. pose proof (prev_none _ _ C Hl) as N. rewrite filter_none by done. split_and!; try done. symmetry. by apply filter_all.
  Qed.
End OrphanProofs.
