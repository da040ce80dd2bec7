(** Proofs about downloading a chain. *)
From Verif Require Import Base StatusModel StatusSpec BlockTreeModel BlockTreeSpec BlockTreeProofs SyncModel SyncSpec SyncProofs SyncProperties DownloadModel DownloadSpec.
Local Open Scope N_scope.

Lemma persisted_some t id b : persisted_index t id = Some b <-> t_idx t !! id = Some b /\ bi_persisted b = true.
Proof. unfold persisted_index. destruct (t_idx t !! id) as [x|]; [|by split; [|intros []]]. destruct (bi_persisted x) eqn:P; (split; [intros E; simplify_eq; done|intros [E Q]; simplify_eq; try done; congruence]). Qed.
Lemma grows_refl t : grows t t.
Proof. intros id b P. exists b. split; [done|]. unfold same_block. tauto. Qed.
Lemma grows_has t t' id : grows t t' -> has t id -> has t' id.
Proof. intros G [b P]. destruct (G _ _ P) as (b' & P' & _). by exists b'. Qed.
Lemma path_app a l l' z : path a (l ++ l') z <-> exists y, path a l y /\ path y l' z.
Proof.
  revert a. induction l as [|b l IH]; intros a; cbn [path app].
  - split; [intro P; by exists a|]. by intros (y & -> & P).
  - rewrite IH. naive_solver.
Qed.
Lemma path_connected a l z : path a l z -> connected l = true.
Proof.
  revert a. induction l as [|b l IH]; intros a P; [done|]. destruct P as [_ P]. destruct l as [|b' l]; [done|].
  change (connected (b :: b' :: l)) with ((bi_id b =? bi_prev b') && connected (b' :: l)). rewrite (IH _ P). destruct P as [-> _]. by rewrite N.eqb_refl.
Qed.
Lemma path_last a l z : path a l z -> z = default a (bi_id <$> last l).
Proof.
  revert a. induction l as [|b l IH]; intros a P; [by cbn in *|]. destruct P as [_ P]. apply IH in P as ->. destruct l as [|b' l]; [done|].
  change (last (b :: b' :: l)) with (last (b' :: l)). destruct (last (b' :: l)) eqn:E; [done|]. by apply last_None in E.
Qed.

Section tree.
  Context (cf : tree_cfg).
  Lemma trust_up t n : wf cf t -> forall x g a ga, get_gen cf t x = Some g -> up cf t n x = Some a -> get_gen cf t a = Some ga -> gen_trust ga <= gen_trust g.
  Proof.
    intro W. induction n as [|n IH]; intros x g a ga G U Ga; cbn [up] in U; [injection U as ->; rewrite G in Ga; by injection Ga as ->|].
    destruct (parent cf t x) as [p|] eqn:P; [|done]. apply parent_some in P as (b & G' & <-). rewrite G in G'. injection G' as ->.
    apply get_gen_block in G as [_ G]. destruct (W _ _ G) as (_ & _ & _ & (gp & Gp & _ & T & _) & _). specialize (IH _ _ _ _ Gp U Ga). cbn [gen_trust]. lia.
  Qed.
  Lemma consistent_ancestor t t' a x : wf cf t -> wf cf t' -> consistent t t' -> is_Some (get_gen cf t x) -> is_Some (get_gen cf t' x) -> ancestor cf t a x <-> ancestor cf t' a x.
  Proof. intros W W' C X X'. unfold ancestor. setoid_rewrite (fun n => consistent_up cf t t' n W W' C x X X'). done. Qed.
End tree.

Section download.
  Context (cf : tree_cfg) (s : tree) (top : N) (An : answering cf s top).
  Notation gs := (get_gen cf (t_idx s)).
  Notation main := (fun a => ancestor cf (t_idx s) a (t_best s)).

  Lemma wfs : wf cf (t_idx s).
  Proof. apply built_wf, An. Qed.
  Lemma best_gen : exists gb, gs (t_best s) = Some gb /\ gen_height gb = top.
  Proof. apply An. Qed.

  (** A block of the main chain of the answering node that the asking one has *)
  Definition ours (t : tree) (a : N) (h : N) : Prop := (exists g, gs a = Some g /\ gen_height g = h) /\ main a /\ (a = genesis_id cf \/ has t a).
  Lemma ours_grows t t' a h : grows t t' -> ours t a h -> ours t' a h.
  Proof. intros G (E & M & [K|K]); split; [done| |done|]; (split; [done|]); [by left|]. right. by eapply grows_has. Qed.
  Lemma ours_gen t a h : asking cf s t -> ours t a h -> exists g, get_gen cf (t_idx t) a = Some g /\ gen_height g = h /\ persisted_gen cf t a = Some g.
  Proof.
    intros A ((g & G & <-) & M & K). unfold persisted_gen. destruct (N.eqb_spec a (genesis_id cf)) as [->|N].
    { exists Genesis. rewrite get_gen_genesis in G |- *. injection G as <-. done. }
    destruct K as [|[b P]]; [done|]. rewrite P. apply persisted_some in P as [P Q]. exists (Block b).
    assert (get_gen cf (t_idx t) a = Some (Block b)) as G' by (by apply get_gen_block). split; [done|]. split; [|done]. apply (consistent_height cf _ _ _ _ _ (as_agree _ _ _ A) G' G).
  Qed.
  Lemma ours_uniq t a h t' h' : ours t a h -> ours t' a h' -> h = h'.
  Proof. intros ((g & G & <-) & _) ((g' & G' & <-) & _). congruence. Qed.
  (** Everything known below a known block *)
  Lemma known_ours t a ga : asking cf s t -> get_gen cf (t_idx t) a = Some ga -> main a -> is_Some (gs a) -> ours t a (gen_height ga).
  Proof.
    intros A G M [g Gs]. split; [exists g; split; [done|symmetry; apply (consistent_height cf _ _ _ _ _ (as_agree _ _ _ A) G Gs)]|]. split; [done|].
    destruct g as [|b]; [left; by apply get_gen_gen in Gs|]. right. apply get_gen_block in Gs as [N Gs]. destruct ga as [|b']; [by apply get_gen_gen in G|]. apply get_gen_block in G as [_ G].
    exists b'. apply persisted_some. split; [done|]. destruct (wfs _ _ Gs) as (E & _). apply (as_stored _ _ _ A b b'); [|by rewrite E]. unfold on_chain. by rewrite E.
  Qed.
  Lemma complete_below t : asking cf s t -> ours t (t_best s) top -> forall b, on_chain cf s b -> has t (bi_id b).
  Proof.
    intros A O b (N & G & M). destruct (ours_gen _ _ _ A O) as (g & Gt & _). pose proof (built_wf _ _ (as_built _ _ _ A)) as W.
    destruct best_gen as (gb & Gb & _). apply (consistent_ancestor cf _ _ _ _ W wfs (as_agree _ _ _ A)) in M as M'; [|by eexists|by eexists].
    destruct (ancestor_known cf _ _ _ _ W Gt M') as (ga & Ga & _). assert (gs (bi_id b) = Some (Block b)) as Gsb by (by apply get_gen_block).
    destruct (known_ours t _ ga A Ga M ltac:(by eexists)) as (_ & _ & [K|K]); done.
  Qed.

  (** A part of the main chain of the answering node that follows a block *)
  Definition seg (a : N) (l : list bindex) : Prop := (exists z, path a l z) /\ Forall (on_chain cf s) l.
  Lemma seg_cons a b l : seg a (b :: l) <-> bi_prev b = a /\ on_chain cf s b /\ seg (bi_id b) l.
  Proof. unfold seg. rewrite Forall_cons. cbn [path]. naive_solver. Qed.
  Lemma seg_prefix a l l' : seg a (l ++ l') -> seg a l.
  Proof. intros [[z P] F]. apply path_app in P as (y & P & _). apply Forall_app in F as [F _]. split; [by exists y|done]. Qed.
  Lemma seg_suffix a l l' : seg a (l ++ l') -> exists y, path a l y /\ seg y l'.
  Proof. intros [[z P] F]. apply path_app in P as (y & P & P'). apply Forall_app in F as [_ F]. exists y. split; [done|]. split; [by exists z|done]. Qed.
  Lemma on_chain_ours t b : on_chain cf s b -> has t (bi_id b) -> ours t (bi_id b) (bi_height b).
  Proof. intros (N & G & M) H. split; [exists (Block b); split; [by apply get_gen_block|done]|]. split; [done|by right]. Qed.
  Lemma seg_height t a h b l : ours t a h -> seg a (b :: l) -> bi_height b = h + 1.
  Proof.
    intros ((g & G & <-) & _) (E & (N & Gb & M) & _)%seg_cons. destruct (wfs _ _ Gb) as (_ & _ & _ & (p & Gp & Hp & _) & _). rewrite E, G in Gp. injection Gp as <-. done.
  Qed.
  Lemma seg_heights t a h l : ours t a h -> seg a l -> forall i b, l !! i = Some b -> bi_height b = h + 1 + N.of_nat i.
  Proof.
    intros (Ex & _) Sg. clear t. revert a h Ex Sg. induction l as [|b l IH]; intros a h (g & G & <-) Sg i c L; [done|]. apply seg_cons in Sg as (E & (N & Gb & M) & Sg).
    destruct (wfs _ _ Gb) as (_ & _ & _ & (p & Gp & Hp & _) & _). rewrite E, G in Gp. injection Gp as <-.
    destruct i as [|i]; cbn in L; [injection L as <-; lia|]. rewrite (IH _ (bi_height b) ltac:(exists (Block b); split; [by apply get_gen_block|done]) Sg i c L). lia.
  Qed.
  Lemma seg_low t a h l : ours t a h -> seg a l -> h + N.of_nat (length l) <= top.
  Proof.
    intros O Sg. destruct best_gen as (gb & Gb & Eb). destruct l as [|b0 l0] eqn:E.
    - destruct O as ((g & G & <-) & M & _). destruct (ancestor_known cf _ _ _ _ wfs Gb M) as (g' & G' & L). rewrite G in G'. injection G' as <-. cbn. lia.
    - destruct (lookup_lt_is_Some_2 (b0 :: l0) (length l0)) as [b L]; [cbn; lia|]. pose proof (seg_heights t a h _ O Sg _ _ L) as Hb. destruct Sg as [_ F].
      rewrite Forall_forall in F. destruct (F b ltac:(by eapply elem_of_list_lookup_2)) as (N & G & M).
      destruct (ancestor_known cf _ _ _ _ wfs Gb M) as (g' & G' & Lg). assert (gs (bi_id b) = Some (Block b)) as Gsb by (by apply get_gen_block). rewrite Gsb in G'. injection G' as <-. cbn [gen_height length] in *. lia.
  Qed.
  Lemma next_seg a limit l : next_blocks cf s a limit l -> seg a l.
  Proof.
    intros (ga & gb & Ga & Gb & M & _ & (z & P & Mz) & F). split; [by exists z|].
    (* every block of the path is below its end *)
    assert (forall a' l', path a' l' z -> Forall (fun b => t_idx s !! bi_id b = Some b) l' -> Forall (on_chain cf s) l' /\ main a') as K.
    { clear - Mz An Gb. intros a' l'. revert a'. induction l' as [|b l' IH]; intros a' P F; [by cbn in P; subst|]. destruct P as [<- P]. apply Forall_cons in F as [Fb F].
      destruct (IH _ P F) as [F' M']. pose proof (wfs _ _ Fb) as (_ & N & _ & (p & Gp & _) & _). split; [constructor; [done|done]|].
      destruct M' as [n Un]. exists (n + 1)%nat. rewrite up_add, Un. cbn [up]. rewrite (proj2 (parent_some cf (t_idx s) (bi_id b) (bi_prev b))); [done|]. exists b. split; [by apply get_gen_block|done]. }
    by apply (K a l P F).
  Qed.
  Lemma next_length t a h limit l : ours t a h -> next_blocks cf s a limit l -> N.of_nat (length l) = N.min limit (top - h).
  Proof.
    intros ((g & G & <-) & _) (ga & gb & Ga & Gb & _ & E & _). destruct best_gen as (gb' & Gb' & Eb). rewrite G in Ga. injection Ga as <-. rewrite Gb in Gb'. injection Gb' as <-. by rewrite <- Eb.
  Qed.
  (** A block of the main chain at the top is the best one *)
  Lemma ours_top t a : ours t a top -> a = t_best s.
  Proof.
    intros ((g & G & E) & M & _). destruct best_gen as (gb & Gb & Eb). apply (ancestor_same_height cf (t_idx s) a (t_best s) (t_best s) g gb gb wfs Gb M (ancestor_refl cf _ _) G Gb). lia.
  Qed.

  (** What the asking node knows to be the best common block; 0 stands for nothing, otherwise one more than its height *)
  Definition pb (t : tree) (p : option N) (h : N) : Prop := match p with None => h = 0 | Some a => exists h', ours t a h' /\ h = h' + 1 end.
  Lemma pb_grows t t' p h : grows t t' -> pb t p h -> pb t' p h.
  Proof. intros G. destruct p as [a|]; [|done]. intros (h' & O & ->). exists h'. split; [|done]. by eapply ours_grows. Qed.
  Lemma pb_low t p h : pb t p h -> h <= top + 1.
  Proof. destruct p as [a|]; [|intros ->; lia]. intros (h' & O & ->). pose proof (seg_low t a h' [] O) as K. cbn in K. enough (h' <= top) by lia. rewrite <- (N.add_0_r h'). apply K. split; [by exists a|constructor]. Qed.

  (** The better of two blocks of the main chain is the higher one *)
  Lemma trust_mono t a h b h' : asking cf s t -> ours t a h -> ours t b h' -> h <= h' -> forall ga gb, get_gen cf (t_idx t) a = Some ga -> get_gen cf (t_idx t) b = Some gb -> gen_trust ga <= gen_trust gb.
  Proof.
    intros A Oa Ob L ga gb Ga Gb. pose proof (built_wf _ _ (as_built _ _ _ A)) as W. destruct Oa as ((g1 & G1 & <-) & M1 & _), Ob as ((g2 & G2 & <-) & M2 & _).
    destruct best_gen as (gt & Gt & _). pose proof (ancestor_linear cf _ a b _ _ _ _ wfs Gt M1 M2 G1 G2 L) as An'.
    apply (consistent_ancestor cf _ _ _ _ W wfs (as_agree _ _ _ A)) in An' as [n U]; [|by eexists|by eexists]. by apply (trust_up cf _ n W _ _ _ _ Gb U Ga).
  Qed.

  Lemma choose_new t p hp b : asking cf s t -> pb t p hp -> on_chain cf s b -> has t (bi_id b) -> hp <= bi_height b -> choose_best cf t p (Some (bi_id b)) = Some (bi_id b).
  Proof.
    intros A P C Hb L. pose proof (on_chain_ours t b C Hb) as Ob. unfold choose_best. destruct (ours_gen _ _ _ A Ob) as (gb & Gb & _ & Pb). pose proof (built_wf _ _ (as_built _ _ _ A)) as W.
    change (Some (bi_id b) ≫= persisted_gen cf t) with (persisted_gen cf t (bi_id b)). rewrite Pb. rewrite (wf_gen_id cf _ _ _ W Gb). destruct p as [a|]; [|done].
    destruct P as (h' & Oa & ->). destruct (ours_gen _ _ _ A Oa) as (ga & Ga & _ & Pa). change (Some a ≫= persisted_gen cf t) with (persisted_gen cf t a). rewrite Pa.
    by rewrite (proj2 (N.leb_le _ _) (trust_mono t a h' (bi_id b) (bi_height b) A Oa Ob ltac:(lia) ga gb Ga Gb)).
  Qed.
  Lemma choose_none t p hp : asking cf s t -> pb t p hp -> choose_best cf t p None = p.
  Proof.
    intros A P. unfold choose_best. cbn [mbind option_bind]. destruct p as [a|]; [|done]. destruct P as (h' & Oa & ->). destruct (ours_gen _ _ _ A Oa) as (ga & Ga & _ & Pa).
    change (Some a ≫= persisted_gen cf t) with (persisted_gen cf t a). rewrite Pa. by rewrite (wf_gen_id cf _ _ _ (built_wf _ _ (as_built _ _ _ A)) Ga).
  Qed.

  Context (HL BL LL : N) (Low : top < 2 ^ 61) (HL1 : 1 <= HL) (HL2 : HL < 2 ^ 61) (BL1 : 1 <= BL) (LL1 : 64 <= LL).
  Notation act := (act cf HL BL LL s).
  (** What a request for headers will be answered with *)
  Definition asks (t : tree) (hp : N) (loc : list N) : Prop :=
    N.of_nat (length loc) <= LL /\ exists a h hs, ours t a h /\ hp <= h + 1 /\ get_mainchain_headers_by_locator cf s loc HL = Ok hs /\ next_blocks cf s a HL hs.
  Lemma request_headers_spec c hp : asking cf s (c_tree c) -> pb (c_tree c) (c_peer_best c) hp -> exists loc, request_headers cf c = Ok (HeaderListRequest loc) /\ asks (c_tree c) hp loc.
  Proof.
    intros A P. set (t := c_tree c) in *. pose proof (as_built _ _ _ A) as Bt. pose proof (built_wf _ _ Bt) as W. destruct (as_listed _ _ _ A) as [[gt Gt] Li].
    destruct best_gen as (gb & Gb & Eb).
    assert (forall id g, get_gen cf (t_idx t) id = Some g -> gen_height g < 2 ^ 61) as LowT. { intros id [|b] G; [by cbn|]. apply get_gen_block in G as [_ G]. by apply (as_low _ _ _ A) in G. }
    assert (forall x g l, get_gen cf (t_idx t) x = Some g -> locates cf (t_idx t) x l -> N.of_nat (length l) <= LL) as Short.
    { intros x g l G Lo. pose proof (C80_locator_is_short cf _ _ _ _ Lo G) as K. pose proof (LowT _ _ G) as K2. assert (N.log2 (gen_height g) <= 61); [|lia]. destruct (N.eq_dec (gen_height g) 0) as [->|]; [cbn; lia|]. apply N.lt_le_incl, N.log2_lt_pow2; lia. }
    assert (exists x g l, get_gen cf (t_idx t) x = Some g /\ request_headers cf c = Ok (HeaderListRequest l) /\ locates cf (t_idx t) x l /\
              (hp <= 1 \/ (exists h', ours t x h' /\ hp = h' + 1))) as (x & g & l & G & E & Lo & Case).
    { unfold request_headers. fold t. destruct (c_peer_best c) as [a|].
      - destruct P as (h' & O & ->). destruct (N.eqb_spec a (genesis_id cf)) as [->|N].
        + destruct (locator_from_best cf t gt W (conj (ex_intro _ gt Gt) Li) Gt (LowT _ _ Gt)) as (l & E & Lo). exists (t_best t), gt, l. split_and!; [done|by rewrite E|done|]. left.
          destruct O as ((g0 & G0 & <-) & _). rewrite get_gen_genesis in G0. injection G0 as <-. by cbn.
        + destruct (ours_gen _ _ _ A O) as (ga & Ga & _). destruct (locator_from_id cf t gt a ga W (conj (ex_intro _ gt Gt) Li) Gt Ga (LowT _ _ Ga)) as (l & E & Lo).
          exists a, ga, l. split_and!; [done|by rewrite E|done|]. right. by exists h'.
      - destruct (locator_from_best cf t gt W (conj (ex_intro _ gt Gt) Li) Gt (LowT _ _ Gt)) as (l & E & Lo). exists (t_best t), gt, l. split_and!; [done|by rewrite E|done|]. left. cbn in P. lia. }
    exists l. split; [done|]. split; [by eapply Short|].
    destruct Case as [Case|(h' & O & ->)].
    - destruct (C80_answer_connects cf t s gb x g l HL Bt (an_built _ _ _ An) (an_listed _ _ _ An) (as_agree _ _ _ A) Gb ltac:(lia) HL2 G Lo) as (a & ga & hs & E' & Nx & Ga & _).
      assert (ours t a (gen_height ga)) as O. { destruct Nx as (ga' & _ & Ga' & _ & M & _). by apply known_ours. }
      exists a, (gen_height ga), hs. split_and!; try done. lia.
    - destruct O as (Ex & M & K) eqn:EO. clear EO.
      destruct (C80_next_answer_continues cf t s gb x g l HL Bt (an_built _ _ _ An) (an_listed _ _ _ An) (as_agree _ _ _ A) Gb ltac:(lia) HL2 G Lo) as (hs & E' & Nx); [by destruct Ex as (? & ? & _); eexists|done|].
      exists x, h', hs. split_and!; try done.
  Qed.
  Lemma asks_grows t t' hp loc : grows t t' -> asks t hp loc -> asks t' hp loc.
  Proof. intros G (L & a & h & hs & O & R). split; [done|]. exists a, h, hs. split; [by eapply ours_grows|done]. Qed.

  (** The best block sent is below the height [h] *)
  Definition sent (v : server) (h : N) : Prop := match v_best_sent v with Some b => bi_height b <= h | None => True end.

  (** The states of a connection, with the number of steps left before the best common block gets higher *)
  Inductive phase (n : conn) (hp : N) : N -> Prop :=
  | ph_headers_asked loc : to_server n = [HeaderListRequest loc] -> to_client n = [] -> v_queue (n_server n) = [] -> c_requested (n_client n) = [] -> c_pending (n_client n) = [] ->
      asks (c_tree (n_client n)) hp loc -> sent (n_server n) (hp - 1) -> phase n hp (BL + 4)
  | ph_headers_given a h hs : to_server n = [] -> to_client n = [HeaderList hs] -> v_queue (n_server n) = [] -> c_requested (n_client n) = [] -> c_pending (n_client n) = [] ->
      ours (c_tree (n_client n)) a h -> hp <= h + 1 -> next_blocks cf s a HL hs -> sent (n_server n) (hp - 1) -> phase n hp (BL + 3)
  | ph_blocks_asked a h l : to_server n = [BlockListRequest (bi_id <$> l)] -> to_client n = [] -> v_queue (n_server n) = [] -> c_requested (n_client n) = (bi_id <$> l) ->
      l <> [] -> N.of_nat (length l) <= BL -> seg a (l ++ c_pending (n_client n)) -> ours (c_tree (n_client n)) a h -> hp <= h + 1 -> sent (n_server n) (hp - 1) -> phase n hp (BL + 2)
  | ph_blocks_given a h l l' : to_server n = [] -> to_client n = (BlockResponse <$> l) -> v_queue (n_server n) = (bi_id <$> l') -> c_requested (n_client n) = (bi_id <$> (l ++ l')) ->
      l ++ l' <> [] -> N.of_nat (length (l ++ l')) <= BL -> seg a ((l ++ l') ++ c_pending (n_client n)) -> ours (c_tree (n_client n)) a h -> hp <= h + 1 -> sent (n_server n) (h + N.of_nat (length l)) ->
      phase n hp (N.of_nat (length l') + 1)
  | ph_done : to_server n = [] -> to_client n = [] -> v_queue (n_server n) = [] -> c_requested (n_client n) = [] -> c_pending (n_client n) = [] ->
      ours (c_tree (n_client n)) (t_best s) top -> phase n hp 0.
  Definition inv (n : conn) (hp k : N) : Prop := asking cf s (c_tree (n_client n)) /\ pb (c_tree (n_client n)) (c_peer_best (n_client n)) hp /\ phase n hp k.
  (** Steps left at most *)
  Definition left (hp k : N) : N := (top + 2 - hp) * (BL + 5) + k.

  Lemma split_spec t hs : exists known rest, split_known t hs = (known, rest) /\ hs = known ++ rest /\ Forall (fun h => has t (bi_id h)) known /\ (forall h, head rest = Some h -> persisted_index t (bi_id h) = None).
  Proof.
    destruct (split_known t hs) as [known rest] eqn:E. destruct (C80_known_headers_split_off _ _ _ _ E) as (-> & F & R). exists known, rest. split_and!; try done. intros h Hh. destruct rest; [done|]. by injection Hh as ->.
  Qed.
  (** The last of the blocks in a part of the chain that the asking node has *)
  Lemma seg_end t a h l : asking cf s t -> ours t a h -> seg a l -> Forall (fun b => has t (bi_id b)) l -> forall z, path a l z -> ours t z (h + N.of_nat (length l)).
  Proof.
    intros A. revert a h. induction l as [|b l IH]; intros a h O Sg F z P; [cbn in P; subst z; cbn; by rewrite N.add_0_r|].
    destruct P as [_ P]. pose proof (seg_height t a h b l O Sg) as Hb. apply seg_cons in Sg as (_ & C & Sg). apply Forall_cons in F as [Hs F].
    pose proof (IH _ _ (on_chain_ours t b C Hs) Sg F z P) as K. cbn [length]. replace (h + N.of_nat (S (length l))) with (bi_height b + N.of_nat (length l)) by lia. done.
  Qed.
  (** Asking for the first blocks of a part of the chain *)
  Lemma request_blocks_spec c v a h l hp : l <> [] -> seg a l -> ours (c_tree c) a h -> hp <= h + 1 -> sent v (hp - 1) -> asking cf s (c_tree c) -> pb (c_tree c) (c_peer_best c) hp ->
    c_pending c = [] -> v_queue v = [] -> exists c' m, request_blocks BL c l = (c', m) /\ inv (Conn c' v [m] []) hp (BL + 2).
  Proof.
    intros NE Sg O L Sv A P Pe Q. unfold request_blocks. rewrite Pe. destruct (N.ltb_spec BL (N.of_nat (length l))) as [K|K]; eexists _, _; (split; [reflexivity|]); (split; [done|]); (split; [done|]); cbn [n_client c_tree c_peer_best].
    - eapply (ph_blocks_asked _ _ a h (take (N.to_nat BL) l)); cbn; try done.
      + intro E. apply (f_equal length) in E. rewrite take_length in E. cbn in E. lia.
      + rewrite take_length. lia.
      + by rewrite take_drop.
    - eapply (ph_blocks_asked _ _ a h l); cbn; try done. by rewrite app_nil_r.
  Qed.

  Lemma check_spec p ids : (forall id, id ∈ ids -> exists b, persisted_index s id = Some b /\ match p with Some b' => bi_height b' < bi_height b | None => True end) -> check_request s p ids = Ok tt.
  Proof.
    induction ids as [|id ids IH]; intro F; [done|]. cbn [check_request]. destruct (F id ltac:(left)) as (b & -> & Hb). cbn [ok_or rbind]. specialize (IH ltac:(intros x X; apply F; by right)).
    destruct p as [b'|]; [|done]. rewrite (proj2 (N.leb_gt _ _) Hb). done.
  Qed.
  Lemma on_chain_stored b : on_chain cf s b -> persisted_index s (bi_id b) = Some b.
  Proof. intros C. apply persisted_some. split; [apply C|by apply (an_stored _ _ _ An)]. Qed.

  Lemma start_inv t : asking cf s t -> exists n, start cf t = Ok n /\ inv n 0 (BL + 4).
  Proof.
    intro A. unfold start. destruct (request_headers_spec (Client t [] [] None) 0 A eq_refl) as (loc & E & K). rewrite E. cbn [rbind]. eexists. split; [reflexivity|]. split; [done|]. split; [done|].
    by eapply ph_headers_asked.
  Qed.

  Lemma elsewhere_inv n hp k t : inv n hp k -> asking cf s t -> grows (c_tree (n_client n)) t ->
    inv (Conn (Client t (c_pending (n_client n)) (c_requested (n_client n)) (c_peer_best (n_client n))) (n_server n) (to_server n) (to_client n)) hp k.
  Proof.
    intros (A & P & Ph) A' G. split; [done|]. split; [by eapply pb_grows|]. destruct Ph.
    - eapply ph_headers_asked; cbn; try done. by eapply asks_grows.
    - eapply ph_headers_given; cbn; try done. by eapply ours_grows.
    - eapply ph_blocks_asked; cbn; try done. by eapply ours_grows.
    - eapply ph_blocks_given; cbn; try done. by eapply ours_grows.
    - eapply ph_done; cbn; try done. by eapply ours_grows.
  Qed.

  (** The answer to a request *)
  Lemma answer_inv n hp k r : inv n hp k -> act Answer n = Some r -> exists n' k', r = Ok n' /\ inv n' hp k' /\ k' < k.
  Proof.
    intros (A & P & Ph) E. destruct n as [c v q1 q2]; cbn [n_client n_server to_server to_client] in *. destruct Ph as [loc E1 E2 Q Rq Pe (Ll & a & h & hs & O & L & Eh & Nx) Sv|a h hs E1 E2 Q Rq Pe O L Nx Sv|a h l E1 E2 Q Rq NE Len Sg O L Sv|a h l l' E1 E2 Q Rq NE Len Sg O L Sv| E1 E2 Q Rq Pe O]; cbn [n_client n_server to_server to_client] in *; subst q1 q2; cbn in E; try done.
    - unfold handle_header_request in E. rewrite (proj2 (N.ltb_ge LL (N.of_nat (length loc))) ltac:(lia)), Eh in E. cbn in E. injection E as <-. eexists _, (BL + 3). split; [reflexivity|]. split; [|lia].
      split; [done|]. split; [done|]. by eapply (ph_headers_given _ _ a h hs).
    - unfold handle_block_request in E. destruct l as [|b0 l0] eqn:El; [done|]. rewrite <- El in *. destruct (bi_id <$> l) as [|i0 r0] eqn:Ef; [by rewrite El in Ef|]. rewrite <- Ef in *. rewrite Q in E. cbn [length] in E.
      rewrite (proj2 (N.ltb_ge _ _)) in E by (rewrite fmap_length; lia).
      replace (existsb (fun id => existsb (N.eqb id) []) (bi_id <$> l)) with false in E by (clear; induction (bi_id <$> l); done).
      rewrite check_spec in E.
      2:{ intros id (b & -> & Hb)%elem_of_list_fmap. destruct Sg as [Pa F]. apply Forall_app in F as Fa. destruct Fa as [Fl _]. exists b. split; [apply on_chain_stored; rewrite Forall_forall in Fl; by apply Fl|].
          unfold sent in Sv. destruct (v_best_sent v) as [b'|]; [|done]. apply elem_of_list_lookup in Hb as [i Hi].
          rewrite (seg_heights _ a h _ O (conj Pa F) i b ltac:(by apply lookup_app_l_Some)). lia. }
      cbn [rbind app] in E. injection E as <-. eexists _, (N.of_nat (length l) + 1). split; [reflexivity|]. split; [|lia]. split; [done|]. split; [done|].
      eapply (ph_blocks_given _ _ a h [] l); cbn; try done. unfold sent in *. cbn. destruct (v_best_sent v); [|done]. lia.
  Qed.

  Lemma send_inv n hp k r : inv n hp k -> act SendBlock n = Some r -> exists n' k', r = Ok n' /\ inv n' hp k' /\ k' < k.
  Proof.
    intros (A & P & Ph) E. destruct n as [c v q1 q2]; cbn [n_client n_server to_server to_client] in *. destruct v as [queue best]. unfold DownloadModel.act in E. cbn [n_server v_queue n_client to_server to_client v_best_sent] in *.
    destruct Ph as [loc E1 E2 E3 Rq Pe As Sv|a h hs E1 E2 E3 Rq Pe O L Nx Sv|a h l E1 E2 E3 Rq NE Len Sg O L Sv|a h l l' E1 E2 E3 Rq NE Len Sg O L Sv| E1 E2 E3 Rq Pe O]; cbn [n_client n_server to_server to_client v_queue] in *; subst q1 q2 queue; try done.
    destruct l' as [|b l']; [done|]. cbn [fmap list_fmap] in E. unfold send_block in E. cbn [v_best_sent] in E.
    assert (on_chain cf s b) as C. { destruct Sg as [_ F]. rewrite Forall_forall in F. apply F. apply elem_of_app. left. apply elem_of_app. right. left. }
    rewrite (on_chain_stored b C) in E. cbn [ok_or rbind] in E. injection E as <-. eexists _, (N.of_nat (length l') + 1). split; [reflexivity|]. split; [|cbn; lia]. split; [done|]. split; [done|].
    assert (bi_height b = h + 1 + N.of_nat (length l)) as Hb. { apply (seg_heights _ a h _ O Sg). rewrite <- app_assoc. rewrite lookup_app_r by lia. by rewrite Nat.sub_diag. }
    eapply (ph_blocks_given _ _ a h (l ++ [b]) l'); cbn; try done.
    - by rewrite fmap_app.
    - by rewrite <- app_assoc.
    - by rewrite <- app_assoc.
    - by rewrite <- app_assoc.
    - by rewrite <- (app_assoc l [b] l').
    - unfold sent in *. cbn [v_best_sent] in *. rewrite app_length. cbn [length]. destruct (decide _); [lia|]. destruct best; [|done]. lia.
  Qed.

  Lemma receive_inv n hp k t r : inv n hp k -> allowed cf s n (Receive t) -> act (Receive t) n = Some r -> exists n' hp' k', r = Ok n' /\ inv n' hp' k' /\ left hp' k' < left hp k.
  Proof.
    intros (A & P & Ph) (At & Gt & Hst) E. destruct n as [c v q1 q2]; cbn [n_client n_server to_server to_client] in *. pose proof (pb_low _ _ _ P) as Plow.
    destruct Ph as [loc E1 E2 Q Rq Pe As Sv|a h hs E1 E2 Q Rq Pe O L Nx Sv|a h l E1 E2 Q Rq NE Len Sg O L Sv|a h l l' E1 E2 Q Rq NE Len Sg O L Sv| E1 E2 Q Rq Pe O]; cbn [n_client n_server to_server to_client] in *; subst q1 q2; try done.
    - (* a list of headers *)
      unfold DownloadModel.act in E. cbn [to_client n_client n_server to_server] in E. unfold handle_header_list in E. pose proof (next_seg _ _ _ Nx) as Sg. pose proof (next_length _ _ _ _ _ O Nx) as Len.
      destruct hs as [|h0 hs0] eqn:Eh.
      { cbn [rbind push] in E. injection E as <-. eexists _, hp, 0. split; [reflexivity|]. split; [|unfold left; lia]. split; [done|]. split; [done|]. apply ph_done; cbn; try done.
        assert (h = top) as ->. { cbn in Len. pose proof (seg_low _ _ _ [] O (conj (ex_intro _ a eq_refl) (Forall_nil_2 _))) as K. cbn in K. lia. } by rewrite <- (ours_top _ _ O). }
      rewrite <- Eh in *. rewrite (proj2 (N.ltb_ge HL (N.of_nat (length hs))) ltac:(lia)) in E. destruct Sg as [[z Pz] F] eqn:ESg. clear ESg. pose proof (conj (ex_intro _ z Pz) F : seg a hs) as Sg'.
      rewrite (path_connected _ _ _ Pz) in E. cbn [negb] in E. assert (bi_prev h0 = a) as Ep by (rewrite Eh in Pz; apply Pz). rewrite Ep in E.
      destruct (ours_gen _ _ _ A O) as (ga & Ga & _). rewrite Ga in E. cbn [ok_or rbind] in E.
      destruct (split_spec (c_tree c) hs) as (known & rest & Es & Eapp & Fk & Hr). rewrite Es in E. cbn [c_tree c_pending c_requested c_peer_best] in E. rewrite Rq in E.
      (* the best common block afterwards *)
      destruct (path_app a known rest z) as [Pz' _]. rewrite <- Eapp in Pz'. destruct (Pz' Pz) as (y & Py & Pyz). clear Pz'.
      assert (seg a known) as Sk by (apply (seg_prefix _ _ rest); by rewrite <- Eapp). pose proof (seg_end _ _ _ _ A O Sk Fk y Py) as Oy.
      assert (exists hp', choose_best cf (c_tree c) (c_peer_best c) (bi_id <$> last known) = (match last known with Some b => Some (bi_id b) | None => c_peer_best c end) /\
                pb (c_tree c) (match last known with Some b => Some (bi_id b) | None => c_peer_best c end) hp' /\ hp <= hp' /\ hp' <= h + N.of_nat (length known) + 1 /\
                (known <> [] -> hp' = h + N.of_nat (length known) + 1)) as (hp' & Ec & P' & L1 & L2 & L3).
      { destruct (last known) as [b|] eqn:El.
        - pose proof (path_last _ _ _ Py) as Ey. rewrite El in Ey. cbn in Ey. subst y. apply last_Some in El as [pre Epre].
          assert (on_chain cf s b) as C. { destruct Sk as [_ Fc]. rewrite Forall_forall in Fc. apply Fc. rewrite Epre. apply elem_of_app. right. left. }
          assert (has (c_tree c) (bi_id b)) as Hb. { rewrite Forall_forall in Fk. apply Fk. rewrite Epre. apply elem_of_app. right. left. }
          assert (bi_height b = h + N.of_nat (length known)) as Hh by (apply (ours_uniq _ _ _ _ _ (on_chain_ours _ _ C Hb) Oy)).
          assert (length known <> 0%nat) as NZ by (rewrite Epre, app_length; cbn; lia).
          exists (h + N.of_nat (length known) + 1). cbn [fmap option_fmap option_map]. rewrite (choose_new _ _ hp b A P C Hb) by lia. split; [done|]. split; [exists (h + N.of_nat (length known)); split; [done|lia]|]. split; [lia|]. split; [lia|done].
        - apply last_None in El as ->. exists hp. cbn [fmap option_fmap option_map]. rewrite (choose_none _ _ _ A P). split; [done|]. split; [done|]. split; [lia|]. split; [cbn; lia|done]. }
      rewrite Ec in E. assert (sent v (hp' - 1)) as Sv' by (unfold sent in *; destruct (v_best_sent v); [lia|done]).
      assert (N.of_nat (length hs) = N.of_nat (length known) + N.of_nat (length rest)) as Lapp by (rewrite Eapp, app_length; lia).
      destruct rest as [|r0 rest].
      + assert (known <> []) as NEk by (intros ->; rewrite Eh in Eapp; done). specialize (L3 NEk). assert (length known <> 0%nat) as NZ by (by destruct known). cbn [length] in Lapp.
        destruct (N.eqb_spec (N.of_nat (length hs)) HL) as [Em|Em].
        * set (c' := Client (c_tree c) (c_pending c) [] (match last known with Some b => Some (bi_id b) | None => c_peer_best c end)) in *.
          destruct (request_headers_spec c' hp' A P') as (loc & Er & As). rewrite Er in E. cbn [rbind push app] in E. injection E as <-. eexists _, hp', (BL + 4). split; [reflexivity|]. split.
          -- split; [done|]. split; [done|]. by eapply (ph_headers_asked _ _ loc).
          -- pose proof (pb_low _ _ _ P') as Pl. unfold left. assert (hp + 1 <= hp') by lia. assert ((top + 2 - hp') * (BL + 5) + (BL + 5) <= (top + 2 - hp) * (BL + 5)) by nia. lia.
        * cbn [rbind push] in E. injection E as <-. eexists _, hp', 0. split; [reflexivity|]. split.
          -- split; [done|]. split; [done|]. apply ph_done; cbn; try done.
             assert (h + N.of_nat (length known) = top) as Et. { pose proof (seg_low _ _ _ _ O Sk). lia. } rewrite Et in Oy. by rewrite <- (ours_top _ _ Oy).
          -- unfold left. assert ((top + 2 - hp') * (BL + 5) <= (top + 2 - hp) * (BL + 5)) by (apply N.mul_le_mono_r; lia). lia.
      + set (c' := Client (c_tree c) (c_pending c) [] (match last known with Some b => Some (bi_id b) | None => c_peer_best c end)) in *.
        assert (seg y (r0 :: rest)) as Sy. { split; [by exists z|]. rewrite Eapp in F. by apply Forall_app in F as [_ F]. }
        destruct (request_blocks_spec c' v y (h + N.of_nat (length known)) (r0 :: rest) hp' ltac:(done) Sy Oy L2 Sv' A P' Pe Q) as (c'' & m & Er & I). rewrite Er in E. cbn [rbind push app] in E.
        injection E as <-. exists (Conn c'' v [m] []), hp', (BL + 2). split; [done|]. split; [done|]. unfold left. assert ((top + 2 - hp') * (BL + 5) <= (top + 2 - hp) * (BL + 5)) by (apply N.mul_le_mono_r; lia). lia.
    - (* a block *)
      destruct l as [|b l]; [done|]. cbn [fmap list_fmap] in E, Hst. unfold DownloadModel.act in E. cbn [to_client n_client n_server to_server] in E. unfold handle_block_response in E. cbn [fmap list_fmap app] in Rq.
      rewrite Rq, N.eqb_refl in E. pose proof (seg_height _ _ _ _ _ O Sg) as Hb. cbn [app] in Sg. pose proof Sg as (Ep & C & Sg')%seg_cons.
      destruct (ours_gen _ _ _ A O) as (ga & Ga & _ & Pa).
      assert (exists t', match persisted_index (c_tree c) (bi_id b) with Some _ => Ok (c_tree c) | None => let? _ := ok_or (persisted_gen cf (c_tree c) (bi_prev b)) ParentNotFound in Ok t end = Ok t' /\
                asking cf s t' /\ grows (c_tree c) t' /\ has t' (bi_id b)) as (t' & Et & A' & G' & Hb').
      { destruct (persisted_index (c_tree c) (bi_id b)) as [x|] eqn:Ex.
        - exists (c_tree c). split; [done|]. split; [done|]. split; [apply grows_refl|by exists x].
        - rewrite Ep, Pa. cbn [ok_or rbind]. exists t. split; [done|]. split; [done|]. split; [done|]. by apply (Hst b (BlockResponse <$> l)). }
      rewrite Et in E. cbn [rbind] in E. clear Et. pose proof (on_chain_ours _ _ C Hb') as Ob. destruct (ours_gen _ _ _ A' Ob) as (gb & Gb & _ & Pb).
      assert (persisted_gen cf t' (bi_id b) = Block <$> persisted_index t' (bi_id b)) as Epb. { unfold persisted_gen. destruct C as (N & _). by rewrite (proj2 (N.eqb_neq _ _) N). }
      rewrite <- Epb, Pb in E.
      assert (match c_peer_best c ≫= persisted_gen cf (c_tree c) with
              | Some g => if gen_trust g <=? gen_trust gb then Some (gen_id cf gb) else Some (gen_id cf g)
              | None => Some (gen_id cf gb) end = Some (bi_id b)) as Ebest.
      { rewrite (wf_gen_id cf _ _ _ (built_wf _ _ (as_built _ _ _ A')) Gb). destruct (c_peer_best c) as [p|]; [|done]. change (Some p ≫= persisted_gen cf (c_tree c)) with (persisted_gen cf (c_tree c) p).
        destruct P as (hp0 & Op & ->). destruct (ours_gen _ _ _ A Op) as (gp & Gp & _ & Pp). rewrite Pp. pose proof (ours_grows _ _ _ _ G' Op) as Op'. destruct (ours_gen _ _ _ A' Op') as (gp' & Gp' & _ & Pp').
        assert (gen_trust gp = gen_trust gp') as ->.
        { unfold persisted_gen in Pp, Pp'. destruct (p =? genesis_id cf); [congruence|]. destruct (persisted_index (c_tree c) p) as [x|] eqn:Ex; [|done]. destruct (G' _ _ Ex) as (x' & Ex' & Sx). rewrite Ex' in Pp'. injection Pp as <-. injection Pp' as <-. symmetry. apply Sx. }
        by rewrite (proj2 (N.leb_le _ _) (trust_mono t' p hp0 (bi_id b) (bi_height b) A' Op' Ob ltac:(lia) gp' gb Gp' Gb)). }
      rewrite Ebest in E. clear Ebest.
      assert (pb t' (Some (bi_id b)) (bi_height b + 1)) as P' by (exists (bi_height b); done). pose proof (pb_low _ _ _ P') as Pl. rewrite Hb in P', Pl, Ob.
      assert (forall k', k' <= BL + 4 -> left (h + 1 + 1) k' < left hp (N.of_nat (length l') + 1)) as Less.
      { intros k' K. unfold left. assert ((top + 2 - (h + 1 + 1)) * (BL + 5) + (BL + 5) <= (top + 2 - hp) * (BL + 5)) by nia. lia. }
      destruct (bi_id <$> l ++ l') as [|i0 rq] eqn:El.
      + apply fmap_nil_inv in El. apply app_eq_nil in El as [-> ->]. cbn [c_pending c_tree] in E. cbn [app] in Sg'.
        assert (sent v (h + 1 + 1 - 1)) as Sv' by (unfold sent in *; cbn [length] in Sv; destruct (v_best_sent v); [lia|done]).
        destruct (split_spec t' (c_pending c)) as (known & rest & Es & Eapp & Fk & Hr). rewrite Es in E. cbn [snd] in E.
        destruct rest as [|r0 rest].
        * destruct (request_headers_spec (Client t' [] [] (Some (bi_id b))) (h + 1 + 1) A' P') as (loc & Er & As). rewrite Er in E. cbn [rbind push app] in E. injection E as <-. eexists _, (h + 1 + 1), (BL + 4). split; [reflexivity|].
          split; [|apply Less; lia]. split; [done|]. split; [done|]. by eapply (ph_headers_asked _ _ loc).
        * rewrite Eapp in Sg'. pose proof (seg_prefix _ _ _ Sg') as Sk. apply seg_suffix in Sg' as (y & Py & Sy). pose proof (seg_end _ _ _ _ A' Ob Sk Fk y Py) as Oy.
          destruct (request_blocks_spec (Client t' [] [] (Some (bi_id b))) v y (h + 1 + N.of_nat (length known)) (r0 :: rest) (h + 1 + 1) ltac:(done) Sy Oy ltac:(lia) Sv' A' P' eq_refl Q) as (c'' & m & Er & I). rewrite Er in E. cbn [rbind push app] in E.
          injection E as <-. exists (Conn c'' v [m] []), (h + 1 + 1), (BL + 2). split; [done|]. split; [done|]. apply Less. lia.
      + cbn [rbind push] in E. injection E as <-. eexists _, (h + 1 + 1), (N.of_nat (length l') + 1). cbn [app length] in Len. rewrite app_length in Len. split; [reflexivity|]. split; [|apply Less; lia]. split; [done|]. split; [done|].
        eapply (ph_blocks_given _ _ (bi_id b) (h + 1) l l'); cbn; try done.
        * by intros EE; rewrite EE in El.
        * rewrite app_length. lia.
        * unfold sent in *. cbn [length] in Sv. destruct (v_best_sent v); [lia|done].
  Qed.
End download.
