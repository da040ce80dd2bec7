(** C80: the questions and answers nodes synchronise their chains with. *)
From Verif Require Import Base StatusModel StatusSpec BlockTreeModel BlockTreeSpec BlockTreeProofs BlockTreeProperties SyncModel SyncSpec SyncProofs.
Local Open Scope N_scope.

(** The locator of the tip, and of any stored block: the block itself and those 1, 2, 4, 8, ... below it on its own chain *)
Theorem C80_locators cf s gb : built cf (t_idx s) -> main_chain_listed cf s -> get_gen cf (t_idx s) (t_best s) = Some gb -> gen_height gb < 2 ^ 61 ->
  (exists l, get_locator_from_best_block cf s = Ok l /\ locates cf (t_idx s) (t_best s) l) /\
  (forall id g, get_gen cf (t_idx s) id = Some g -> gen_height g < 2 ^ 61 -> exists l, get_locator_from_block_id cf s id = Ok l /\ locates cf (t_idx s) id l).
Proof.
  intros Bu M B H. apply built_wf in Bu. split; [by eapply locator_from_best|]. intros id g G Hg. by eapply locator_from_id.
Qed.
(** It is short *)
Theorem C80_locator_is_short cf t id g l : locates cf t id l -> get_gen cf t id = Some g -> N.of_nat (length l) <= N.log2 (gen_height g) + 2.
Proof.
  intros (g' & G' & L) G. rewrite G in G'. injection G' as <-. destruct l as [|x l]; [cbn; lia|].
  destruct (lookup_lt_is_Some_2 (x :: l) (length l)) as [y Y]; [cbn; lia|]. apply L in Y as [D _].
  destruct (length l) as [|n] eqn:E; cbn [length]; rewrite E; [lia|]. cbn [distance] in D.
  assert (0 < gen_height g) as P. { assert (0 < 2 ^ N.of_nat n) by (apply N.neq_0_lt_0, N.pow_nonzero; lia). lia. }
  apply N.log2_le_pow2 in D; lia.
Qed.

(** A node that asks with the locator of one of its blocks [x] gets the headers that follow, on the other's main chain, a block that
    [x] descends from: it can connect them. At most as many of them as [x] is above the fork are at or below the fork. *)
Theorem C80_answer_connects cf c s gb x gx locator limit : built cf (t_idx c) -> built cf (t_idx s) -> main_chain_listed cf s ->
  consistent (t_idx c) (t_idx s) -> get_gen cf (t_idx s) (t_best s) = Some gb -> gen_height gb < 2 ^ 61 -> limit < 2 ^ 61 ->
  get_gen cf (t_idx c) x = Some gx -> locates cf (t_idx c) x locator ->
  exists a ga headers, get_mainchain_headers_by_locator cf s locator limit = Ok headers /\ next_blocks cf s a limit headers /\
    get_gen cf (t_idx c) a = Some ga /\ ancestor cf (t_idx c) a x /\
    forall f gf, ancestor cf (t_idx c) f x -> get_gen cf (t_idx s) f = Some gf -> ancestor cf (t_idx s) f (t_best s) ->
      gen_height gf - gen_height ga <= gen_height gx - gen_height gf.
Proof.
  intros Bc Bs M C B H HL Gx L. apply built_wf in Bc, Bs. unfold get_mainchain_headers_by_locator.
  destruct (anchor_spec cf s gb locator Bs M B) as (a & ga & Ga & <- & Aa & Case).
  destruct (headers_higher_spec cf s gb a ga limit Bs M B H HL Ga Aa) as (hs & E & N).
  destruct (anchor_bound cf c s gb x gx locator a ga Bc Bs M C B Gx L Ga Case) as [A Bound].
  destruct (ancestor_known cf _ _ _ _ Bc Gx A) as (ga' & Ga' & La). exists a, ga', hs. split_and!; try done.
  intros f gf Af Gf Mf. specialize (Bound f gf Af Gf Mf). rewrite (consistent_height cf _ _ _ _ _ C Ga' Ga).
  destruct (ancestor_known cf _ _ _ _ Bc Gx Af) as (gf' & Gf' & Lf). rewrite (consistent_height cf _ _ _ _ _ C Gf' Gf) in Lf. lia.
Qed.
(** Asking with a block of the other's main chain continues exactly there: nothing is skipped and nothing is repeated *)
Theorem C80_next_answer_continues cf c s gb x gx locator limit : built cf (t_idx c) -> built cf (t_idx s) -> main_chain_listed cf s ->
  consistent (t_idx c) (t_idx s) -> get_gen cf (t_idx s) (t_best s) = Some gb -> gen_height gb < 2 ^ 61 -> limit < 2 ^ 61 ->
  get_gen cf (t_idx c) x = Some gx -> locates cf (t_idx c) x locator -> is_Some (get_gen cf (t_idx s) x) -> ancestor cf (t_idx s) x (t_best s) ->
  exists headers, get_mainchain_headers_by_locator cf s locator limit = Ok headers /\ next_blocks cf s x limit headers.
Proof.
  intros Bc Bs M C B H HL Gx L [gs Gs] As.
  destruct (C80_answer_connects cf c s gb x gx locator limit Bc Bs M C B H HL Gx L) as (a & ga & hs & E & N & Ga & A & Bound).
  specialize (Bound x gs (ancestor_refl cf _ x) Gs As). apply built_wf in Bc. pose proof (consistent_height cf _ _ _ _ _ C Gx Gs) as Hx.
  destruct (ancestor_known cf _ _ _ _ Bc Gx A) as (ga' & Ga' & La). rewrite Ga in Ga'. injection Ga' as <-.
  assert (a = x) as ->. { apply (ancestor_same_height cf (t_idx c) a x x ga gx gx Bc Gx A (ancestor_refl cf _ x) Ga Gx). lia. }
  by exists hs.
Qed.

(** Headers announced to a peer known to have some blocks follow the highest fork point between these blocks and the main chain *)
Theorem C80_announcement_connects cf s gb ids limit : built cf (t_idx s) -> main_chain_listed cf s ->
  get_gen cf (t_idx s) (t_best s) = Some gb -> gen_height gb < 2 ^ 61 -> limit < 2 ^ 61 ->
  ids <> [] -> Forall (fun id => is_Some (get_gen cf (t_idx s) id)) ids ->
  exists a ga headers, get_mainchain_headers_since_latest_fork_point cf s ids limit = Ok headers /\ next_blocks cf s a limit headers /\
    get_gen cf (t_idx s) a = Some ga /\ (exists id, id ∈ ids /\ ancestor cf (t_idx s) a id) /\
    forall id f gf, id ∈ ids -> ancestor cf (t_idx s) f id -> ancestor cf (t_idx s) f (t_best s) -> get_gen cf (t_idx s) f = Some gf -> gen_height gf <= gen_height ga.
Proof.
  intros Bs M B H HL NE F. apply built_wf in Bs. unfold get_mainchain_headers_since_latest_fork_point. destruct ids as [|i0 ids0]; [done|]. remember (i0 :: ids0) as ids eqn:Eids.
  unfold latest_fork_height. destruct (latest_fork_spec cf s gb ids Bs B F 0) as (h & -> & _ & U & Ex). cbn [rbind].
  assert (exists id a ga, id ∈ ids /\ ancestor cf (t_idx s) a id /\ ancestor cf (t_idx s) a (t_best s) /\ get_gen cf (t_idx s) a = Some ga /\ gen_height ga = h) as (id & a & ga & I & A1 & A2 & Ga & <-).
  { destruct Ex as [->|Ex]; [|done]. exists i0, (genesis_id cf), Genesis. assert (i0 ∈ ids) as I by (subst; left).
    assert (forall y gy, get_gen cf (t_idx s) y = Some gy -> ancestor cf (t_idx s) (genesis_id cf) y) as K by (intros y gy Gy; exists (N.to_nat (gen_height gy)); by apply up_genesis).
    rewrite Forall_forall in F. destruct (F i0 I) as [g0 G0]. split; [done|]. split; [by eapply K|]. split; [by eapply K|]. split; [apply get_gen_genesis|done]. }
  destruct (headers_higher_spec cf s gb a ga limit Bs M B H HL Ga A2) as (hs & E & N).
  exists a, ga, hs. split_and!; try done. by exists id.
Qed.

(** The headers of known blocks at the front of a list are split off, and only those *)
Theorem C80_known_headers_split_off s headers known rest : split_known s headers = (known, rest) ->
  headers = known ++ rest /\ Forall (fun h => is_Some (persisted_index s (bi_id h))) known /\
  match rest with [] => True | h :: _ => persisted_index s (bi_id h) = None end.
Proof.
  revert known rest. induction headers as [|h headers IH]; intros known rest; cbn [split_known]; [by intros [= <- <-]|].
  destruct (persisted_index s (bi_id h)) as [b|] eqn:P; [|intros [= <- <-]; done].
  destruct (split_known s headers) as [a r] eqn:E. intros [= <- <-]. destruct (IH a r eq_refl) as (-> & F & R). split; [done|]. split; [|done]. constructor; [by exists b|done].
Qed.
(** If the first header left over is of a block the node has never seen, so are the following ones *)
Theorem C80_rest_is_unknown cf s a h rest z : built cf (t_idx s) -> path a (h :: rest) z -> t_idx s !! bi_id h = None -> bi_id h <> genesis_id cf ->
  Forall (fun b => bi_id b <> genesis_id cf) rest -> Forall (fun b => forall b', t_idx s !! bi_id b = Some b' -> bi_prev b' = bi_prev b) rest ->
  Forall (fun b => t_idx s !! bi_id b = None) rest.
Proof.
  intros Bs [_ P] N G FG FP. apply built_wf in Bs. revert h P N G. induction rest as [|b rest IH]; intros h P N G; [constructor|].
  destruct P as [E P]. apply Forall_cons in FG as [G' FG]. apply Forall_cons in FP as [P' FP].
  assert (t_idx s !! bi_id b = None) as N'.
  { destruct (t_idx s !! bi_id b) as [b'|] eqn:L; [|done]. exfalso. pose proof (P' b' eq_refl) as Eb. pose proof (Bs _ _ L) as (_ & _ & _ & (p & Gp & _) & _).
    rewrite Eb, E in Gp. destruct p as [|pb]; [apply get_gen_gen in Gp; done|]. apply get_gen_block in Gp as [_ Gp]. congruence. }
  constructor; [done|]. by apply (IH FG FP b P N').
Qed.

(** Lists of ids for checkpoints: every [step]-th block of the main chain in the range *)
Theorem C80_checkpoint_lists cf s gb start end_ step : built cf (t_idx s) -> main_chain_listed cf s ->
  get_gen cf (t_idx s) (t_best s) = Some gb -> gen_height gb < 2 ^ 61 -> 0 < step -> start <= end_ ->
  exists l, get_block_ids_as_checkpoints cf s start end_ step = Ok l /\
    forall i h id, l !! i = Some (h, id) <-> h = start + N.of_nat i * step /\ h < end_ /\ h <= gen_height gb /\ ancestor_at cf (t_idx s) (t_best s) h id.
Proof.
  intros Bs M B H SP L. apply built_wf in Bs. unfold get_block_ids_as_checkpoints. rewrite (proj2 (N.leb_le _ _) L). cbn [ensure rbind].
  unfold best_index. rewrite B. cbn [ok_or rmap_err rbind]. destruct (N.ltb_spec (gen_height gb) start) as [l1|l1]; cbn [orb].
  { exists []. split; [done|]. intros i h id. split; [done|]. intros (-> & _ & K & _). lia. }
  destruct (N.eqb_spec start end_) as [->|l2]. { exists []. split; [done|]. intros i h id. split; [done|]. intros (-> & K & _). lia. }
  unfold next_height. unfold checked_add. rewrite (proj2 (N.leb_le (gen_height gb + 1) U64_MAX)) by (assert (2 ^ 61 + 1 <= U64_MAX) by done; lia). cbn [expect rmap_err rbind].
  rewrite (N.min_l start (gen_height gb)) by lia.
  destruct (checkpoints_spec cf s gb (N.min end_ (gen_height gb + 1)) step (N.to_nat (N.min end_ (gen_height gb + 1) - start)) Bs M B SP ltac:(lia) start ltac:(lia)) as (l & -> & P).
  exists l. split; [done|]. intros i h id. rewrite P. split.
  - intros (-> & K & A). split_and!; try done; lia.
  - intros (-> & K1 & K2 & A). split_and!; try done; lia.
Qed.

(** A tree with a main chain of 40 blocks and a branch of three leaving it at block 20: the branch's locator, and the answer to it *)
Example C80_example : built ex_cf (t_idx ex_state) /\ main_chain_listed ex_cf ex_state /\
  get_locator_from_block_id ex_cf ex_state 103 = Ok [103; 102; 101; 19; 15; 7] /\
  get_locator_from_best_block ex_cf ex_state = Ok [40; 39; 38; 36; 32; 24; 8] /\
  rmap (map bi_id) (get_mainchain_headers_by_locator ex_cf ex_state [103; 102; 101; 19; 15; 7] 5) = Ok [20; 21; 22; 23; 24] /\
  rmap (map bi_id) (get_mainchain_headers_since_latest_fork_point ex_cf ex_state [103; 18] 3) = Ok [21; 22; 23] /\
  get_block_ids_as_checkpoints ex_cf ex_state 30 100 4 = Ok [(30, 30); (34, 34); (38, 38)].
Proof. split; [exact ex_tree_built|]. split; [exact C36_example_main_chain_listed|]. repeat split; vm_compute; reflexivity. Qed.

Print Assumptions C80_locators.
Print Assumptions C80_locator_is_short.
Print Assumptions C80_answer_connects.
Print Assumptions C80_next_answer_continues.
Print Assumptions C80_announcement_connects.
Print Assumptions C80_known_headers_split_off.
Print Assumptions C80_rest_is_unknown.
Print Assumptions C80_checkpoint_lists.
