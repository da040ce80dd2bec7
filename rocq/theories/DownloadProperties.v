(** C81: a node downloads the whole chain of a peer it is connected to, and neither punishes the other. *)
From Verif Require Import Base StatusModel StatusSpec BlockTreeModel BlockTreeSpec BlockTreeProofs BlockTreeProperties SyncModel SyncSpec SyncProofs DownloadModel DownloadSpec DownloadProofs.
Local Open Scope N_scope.

(** Whoever asks and however often: every block asked for is sent once, in the order they were asked for, and until it is sent it is remembered. *)
Theorem C81_every_request_answered cf block_limit s evs v sent : serve cf block_limit s evs (Server [] None) = Ok (v, sent) ->
  let asked := concat (omap id evs) in
  Forall2 (fun id b => persisted_index s id = Some b) (take (length sent) asked) sent /\ v_queue v = drop (length sent) asked /\ N.of_nat (length (v_queue v)) <= block_limit.
Proof.
  cbn zeta. intros E.
  assert (forall evs v0 v sent, serve cf block_limit s evs v0 = Ok (v, sent) -> N.of_nat (length (v_queue v0)) <= block_limit ->
    Forall2 (fun id b => persisted_index s id = Some b) (take (length sent) (v_queue v0 ++ concat (omap id evs))) sent /\
    v_queue v = drop (length sent) (v_queue v0 ++ concat (omap id evs)) /\ N.of_nat (length (v_queue v)) <= block_limit) as G.
  { clear. intros evs. induction evs as [|[ids|] evs IH]; intros v0 v sent E Q; cbn [serve omap list_omap id concat] in E |- *.
    - injection E as <- <-. cbn. rewrite !app_nil_r. split; [constructor|]. done.
    - destruct (handle_block_request block_limit s v0 ids) as [v1| |] eqn:Eh; cbn in E; try done. unfold handle_block_request in Eh. destruct ids as [|i ids]; [done|].
      destruct (block_limit <? _) eqn:El; [done|]. destruct (existsb _ _); [done|]. destruct (check_request _ _ _); cbn in Eh; try done. injection Eh as <-.
      apply N.ltb_ge in El. specialize (IH _ _ _ E). cbn [v_queue] in IH. rewrite app_length, <- app_assoc in IH. apply IH. clear - El. lia.
    - destruct (v_queue v0) as [|i queue] eqn:Eq; [specialize (IH _ _ _ E); rewrite Eq in IH; by apply IH|].
      unfold send_block in E. destruct (persisted_index s i) as [b|] eqn:Eb; cbn [ok_or rbind] in E; [|done].
      destruct (serve cf block_limit s evs _) as [[v1 sent1]| |] eqn:Es; cbn in E; try done. injection E as <- <-.
      specialize (IH _ _ _ Es). cbn [v_queue] in IH. destruct IH as (I1 & I2 & I3); [cbn in Q; clear - Q; lia|]. cbn. split; [by constructor|]. done. }
  apply (G evs (Server [] None) v sent E). cbn. lia.
Qed.

Section properties.
  Context (cf : tree_cfg) (header_limit block_limit locator_limit : N) (s t : tree) (top : N) (n : conn).
  (** The node answering has a stored main chain of [top] blocks, which does not change; the limits are in the usual ranges; the node
      asking starts with any blocks, and gets any others from elsewhere as it goes *)
  Context (S : answering cf s top) (T : asking cf s t) (Low : top < 2 ^ 61) (H1 : 1 <= header_limit < 2 ^ 61) (B1 : 1 <= block_limit) (L1 : 64 <= locator_limit).
  Context (Start : start cf t = Ok n).

  Lemma run_inv k n' : run cf header_limit block_limit locator_limit s n k n' -> exists hp j, inv cf s top header_limit block_limit locator_limit n' hp j /\
    N.of_nat k + left top block_limit hp j <= (top + 2) * (block_limit + 5) + block_limit + 4.
  Proof.
    destruct (start_inv cf s top S header_limit block_limit locator_limit Low (proj1 H1) (proj2 H1) B1 L1 t T) as (n0 & E & I). rewrite Start in E. injection E as <-.
    induction 1 as [|k n1 a n2 R (hp & j & J & K) Al E]; [exists 0, (block_limit + 4); split; [done|]; unfold left; rewrite N.sub_0_r; lia|].
    destruct a as [| |t'|t'].
    - destruct (answer_inv cf s top S header_limit block_limit locator_limit Low (proj1 H1) (proj2 H1) B1 L1 _ _ _ _ J E) as (n3 & j' & [= <-] & J' & L). exists hp, j'. split; [done|]. unfold left in *. lia.
    - destruct (send_inv cf s top S header_limit block_limit locator_limit Low (proj1 H1) (proj2 H1) B1 L1 _ _ _ _ J E) as (n3 & j' & [= <-] & J' & L). exists hp, j'. split; [done|]. unfold left in *. lia.
    - destruct (receive_inv cf s top S header_limit block_limit locator_limit Low (proj1 H1) (proj2 H1) B1 L1 _ _ _ _ _ J Al E) as (n3 & hp' & j' & [= <-] & J' & L). exists hp', j'. split; [done|]. lia.
    - injection E as <-. destruct Al as [A G]. exists hp, j. split; [by apply elsewhere_inv|done].
  Qed.

  (** Nothing either end does is an offence: whatever they do next, in any order, goes through *)
  Theorem C81_no_offence k n' a r : run cf header_limit block_limit locator_limit s n k n' -> allowed cf s n' a -> act cf header_limit block_limit locator_limit s a n' = Some r ->
    exists n'', r = Ok n''.
  Proof.
    intros (hp & j & J & _)%run_inv Al E. destruct a as [| |t'|t'].
    - destruct (answer_inv cf s top S header_limit block_limit locator_limit Low (proj1 H1) (proj2 H1) B1 L1 _ _ _ _ J E) as (n3 & _ & -> & _). by exists n3.
    - destruct (send_inv cf s top S header_limit block_limit locator_limit Low (proj1 H1) (proj2 H1) B1 L1 _ _ _ _ J E) as (n3 & _ & -> & _). by exists n3.
    - destruct (receive_inv cf s top S header_limit block_limit locator_limit Low (proj1 H1) (proj2 H1) B1 L1 _ _ _ _ _ J Al E) as (n3 & _ & _ & -> & _). by exists n3.
    - injection E as <-. by eexists.
  Qed.
  (** The exchange comes to an end *)
  Theorem C81_ends k n' : run cf header_limit block_limit locator_limit s n k n' -> N.of_nat k <= (top + 2) * (block_limit + 5) + block_limit + 4.
  Proof. intros (hp & j & J & K)%run_inv. unfold left in K. lia. Qed.
  (** and it does not end before the whole chain is downloaded *)
  Theorem C81_whole_chain_downloaded k n' : run cf header_limit block_limit locator_limit s n k n' -> quiet cf header_limit block_limit locator_limit s n' ->
    forall b, on_chain cf s b -> has (c_tree (n_client n')) (bi_id b).
  Proof.
    intros (hp & j & (A & P & Ph) & _)%run_inv (Q1 & Q2 & Q3). destruct n' as [c v q1 q2]. unfold act in Q1, Q2, Q3. cbn [n_client n_server to_server to_client] in *.
    destruct Ph as [loc E1 E2 E3 Rq Pe As Sv|a h hs E1 E2 E3 Rq Pe O L Nx Sv|a h l E1 E2 E3 Rq NE Len Sg O L Sv|a h l l' E1 E2 E3 Rq NE Len Sg O L Sv|E1 E2 E3 Rq Pe O]; cbn [n_client n_server to_server to_client] in *; subst q1 q2.
    - done.
    - by specialize (Q3 s).
    - done.
    - exfalso. destruct l as [|b l]; [|by specialize (Q3 s)]. destruct l' as [|b l']; [done|]. rewrite E3 in Q2. done.
    - by apply (complete_below cf s top S).
  Qed.
End properties.

(** When the answering node changes to another branch, the exchange may go round in circles: if the best common block was on the branch
    it left and has more chain trust than the last of a full list of headers that are all known, the same question is asked again.
    This needs branches longer than the limit on headers. *)
Lemma circle cf HL BL LL s c v p loc hs : c_requested c = [] -> c_peer_best c = Some p -> p <> genesis_id cf ->
  get_locator_from_block_id cf (c_tree c) p = Ok loc -> N.of_nat (length loc) <= LL ->
  get_mainchain_headers_by_locator cf s loc HL = Ok hs -> hs <> [] -> N.of_nat (length hs) = HL -> connected hs = true ->
  (forall h, head hs = Some h -> is_Some (get_gen cf (t_idx (c_tree c)) (bi_prev h))) -> split_known (c_tree c) hs = (hs, []) -> choose_best cf (c_tree c) (Some p) (bi_id <$> last hs) = Some p ->
  forall t, act cf HL BL LL s Answer (Conn c v [HeaderListRequest loc] []) = Some (Ok (Conn c v [] [HeaderList hs])) /\
            act cf HL BL LL s (Receive t) (Conn c v [] [HeaderList hs]) = Some (Ok (Conn c v [HeaderListRequest loc] [])).
Proof.
  intros Rq Pb Np El Ll Eh NE Lh Cn Kn Sp Ch t. unfold act. cbn [to_server to_client n_client n_server]. split.
  - unfold handle_header_request. rewrite (proj2 (N.ltb_ge _ _) Ll), Eh. done.
  - unfold handle_header_list. destruct hs as [|h hs0] eqn:E; [done|]. rewrite <- E in *. rewrite (proj2 (N.ltb_ge HL (N.of_nat (length hs))) ltac:(lia)), Cn. cbn [negb].
    destruct (Kn h ltac:(by rewrite E)) as [g ->]. cbn [ok_or rbind]. rewrite Sp, Pb, Ch, Rq, Lh, N.eqb_refl. cbn [c_requested c_tree c_pending]. unfold request_headers. cbn [c_peer_best c_tree].
    rewrite (proj2 (N.eqb_neq _ _) Np), El. cbn [rmap_err rmap rbind push app]. destruct c; cbn in *. by subst.
Qed.

(** ** Concrete nodes: genesis 1000; the answering node has 1, ..., 6 and a branch 101, 102, 103 leaving at genesis *)
Fixpoint store_all (cf : tree_cfg) (t : index_map) (l : list new_block) : index_map :=
  match l with
  | [] => t
  | blk :: l' =>
      if (nb_id blk =? genesis_id cf) || (match t !! nb_id blk with Some _ => true | None => false end) then t
      else match create_block_index cf t blk (View FullyChecked false false false) with
           | Ok b => store_all cf (<[bi_id b := BIndex (bi_id b) (bi_prev b) (bi_skip b) (bi_height b) (bi_time b) (bi_time_max b) (bi_trust b) (bi_txs b) (bi_status b) true]> t) l'
           | _ => t
           end
  end.
Lemma store_all_built cf l t : built cf t -> built cf (store_all cf t l).
Proof.
  revert t. induction l as [|blk l IH]; intros t Ht; [exact Ht|]. cbn [store_all].
  destruct (nb_id blk =? genesis_id cf) eqn:E1; [exact Ht|]. destruct (t !! nb_id blk) eqn:E2; [exact Ht|]. cbn [orb].
  destruct (create_block_index cf t blk _) as [b| |] eqn:Ec; [|exact Ht|exact Ht]. apply IH.
  eapply (built_add cf t blk _ b); [exact Ht|lia|exact E2|exact Ec|]. unfold same_block. cbn. tauto.
Qed.
(** The main chain ending in [best], by height *)
Definition main_of (cf : tree_cfg) (t : index_map) (best : N) : gmap N N :=
  let hb := match get_gen cf t best with Some g => gen_height g | None => 0 end in
  list_to_map ((fun n => (hb - N.of_nat n, default 0 (up cf t n best))) <$> seq 0 (S (N.to_nat hb))).
Lemma main_of_listed cf t best m : built cf t -> is_Some (get_gen cf t best) -> main_chain_listed cf (Tree t (main_of cf t best) best m).
Proof.
  intros W%built_wf [gb G]. split; [by eexists|]. cbn [t_main t_idx t_best]. intros h id. unfold main_of. rewrite G. rewrite <- elem_of_list_to_map.
  2:{ rewrite <- list_fmap_compose. apply NoDup_fmap_2_strong; [|apply NoDup_ListNoDup, seq_NoDup]. intros x y Hx Hy E. apply elem_of_list_In, in_seq in Hx, Hy. cbn in E. lia. }
  rewrite elem_of_list_fmap. split.
  - intros (n & [= -> ->] & Hn). apply elem_of_list_In, in_seq in Hn. destruct (up_ex cf _ n _ _ W G ltac:(lia)) as [a U]. rewrite U. cbn. destruct (up_height cf _ _ _ _ _ W G U) as (ga & Ga & Ha). exists ga. split; [done|]. split; [lia|]. by exists n.
  - intros (g & Gi & <- & n & U). destruct (up_height cf _ _ _ _ _ W G U) as (ga & Ga & Ha). rewrite Gi in Ga. injection Ga as <-. exists n. rewrite U. split; [cbn; f_equal; lia|]. apply elem_of_list_In, in_seq. lia.
Qed.
Definition node (l : list new_block) (best : N) : tree := let t := store_all ex_cf ∅ l in Tree t (main_of ex_cf t best) best 0.
Definition ex_main_blocks : list new_block := (fun n => let k := N.of_nat n in NewBlock k (if k =? 1 then 1000 else k - 1) (100 + k) 1 (Some 3)) <$> seq 1 6.
Definition ex_branch : list new_block := [NewBlock 101 1000 110 1 (Some 4); NewBlock 102 101 111 1 (Some 4); NewBlock 103 102 112 1 (Some 4)].
(** The answering node, and the asking one that has the branch and the first [k] blocks *)
Definition ex_server : tree := node (ex_main_blocks ++ ex_branch) 6.
Definition ex_client (k : nat) : tree := node (ex_branch ++ take k ex_main_blocks) (if Nat.ltb k 5 then 103 else N.of_nat k).

(** Checks of the conditions by computation *)
Definition node_ok (l : list new_block) (best top : N) : bool :=
  match get_gen ex_cf (store_all ex_cf ∅ l) best with Some g => gen_height g =? top | None => false end &&
  forallb (fun p : N * bindex => bi_persisted (snd p) && (bi_height (snd p) <? 2 ^ 61)) (map_to_list (store_all ex_cf ∅ l)).
Definition agree_b (t t' : index_map) : bool :=
  forallb (fun p : N * bindex => match t' !! fst p with Some b' => (bi_prev (snd p) =? bi_prev b') && (bi_height (snd p) =? bi_height b') | None => true end) (map_to_list t).
Definition grows_b (t t' : tree) : bool := forallb (fun p : N * bindex => bool_decide (t_idx t' !! fst p = Some (snd p))) (map_to_list (t_idx t)).
Lemma node_listed l best top : node_ok l best top = true -> main_chain_listed ex_cf (node l best) /\ (exists g, get_gen ex_cf (t_idx (node l best)) best = Some g /\ gen_height g = top) /\
  (forall id b, t_idx (node l best) !! id = Some b -> bi_persisted b = true /\ bi_height b < 2 ^ 61).
Proof.
  intro K. unfold node_ok in K. apply andb_prop in K as [K1 K2]. unfold node. cbn [t_idx]. destruct (get_gen ex_cf (store_all ex_cf ∅ l) best) as [g|] eqn:G; [|done]. apply N.eqb_eq in K1.
  split; [apply main_of_listed; [apply store_all_built, built_empty|by eexists]|]. split; [by exists g|]. intros id b L. rewrite forallb_forall in K2. specialize (K2 (id, b) ltac:(apply elem_of_list_In; by apply elem_of_map_to_list)). cbn in K2. apply andb_prop in K2 as [P Q]. split; [done|]. by apply N.ltb_lt in Q.
Qed.
Lemma node_answering l best top : node_ok l best top = true -> answering ex_cf (node l best) top.
Proof. intros (L & T & P)%node_listed. split; [apply store_all_built, built_empty|done|done|]. intros b (_ & G & _). apply (P _ _ G). Qed.
Lemma node_asking l best top s : node_ok l best top = true -> agree_b (t_idx (node l best)) (t_idx s) = true -> asking ex_cf s (node l best).
Proof.
  intros (L & T & P)%node_listed A. split; [apply store_all_built, built_empty|done|intros id b G; apply (P _ _ G)| |intros b b' _ G; apply (P _ _ G)].
  intros id b b' G G'. unfold agree_b in A. rewrite forallb_forall in A. specialize (A (id, b) ltac:(apply elem_of_list_In; by apply elem_of_map_to_list)). cbn [fst snd] in A. rewrite G' in A. apply andb_prop in A as [E1 E2]. by apply N.eqb_eq in E1, E2.
Qed.
Lemma grows_b_sound t t' : grows_b t t' = true -> grows t t'.
Proof.
  intros A id b P. unfold grows_b in A. rewrite forallb_forall in A. apply persisted_some in P as [G P]. specialize (A (id, b) ltac:(apply elem_of_list_In; by apply elem_of_map_to_list)). cbn in A. apply bool_decide_eq_true in A.
  exists b. split; [by apply persisted_some|unfold same_block; tauto].
Qed.
Lemma ex_server_answering : answering ex_cf ex_server 6.
Proof. apply node_answering. vm_compute. reflexivity. Qed.
Lemma ex_client_asking k : (k <= 6)%nat -> asking ex_cf ex_server (ex_client k).
Proof.
  intro K. assert (forallb (fun k => node_ok (ex_branch ++ take k ex_main_blocks) (if Nat.ltb k 5 then 103 else N.of_nat k) (if Nat.ltb k 5 then 3 else N.of_nat k) && agree_b (t_idx (ex_client k)) (t_idx ex_server)) (seq 0 7) = true) as F by (vm_compute; reflexivity).
  rewrite forallb_forall in F. specialize (F k ltac:(apply in_seq; lia)). apply andb_prop in F as [F1 F2]. by apply (node_asking _ _ _ _ F1).
Qed.

(** A run that follows the protocol: the asking node stores what it gets *)
Definition play (a : action) (o : option conn) : option conn :=
  match o with
  | Some n => match act ex_cf 2 2 64 ex_server a n with
              | Some (Ok n') =>
                  if match a with
                     | Receive t => grows_b (c_tree (n_client n)) t && (match to_client n with BlockResponse b :: _ => match persisted_index t (bi_id b) with Some _ => true | None => false end | _ => true end)
                     | Elsewhere t => grows_b (c_tree (n_client n)) t
                     | _ => true
                     end then Some n' else None
              | _ => None
              end
  | None => None
  end.
Definition steps (k : nat) : list action := [Answer; SendBlock; SendBlock; Receive (ex_client (S k)); Receive (ex_client (S (S k))); Answer; Receive (ex_client (S (S k)))].
Definition ex_actions : list action := [Answer; Receive (ex_client 0)] ++ steps 0 ++ steps 2 ++ take 6 (steps 4) ++ [Receive (ex_client 6)].
Definition some_b {A} (o : option A) : bool := match o with Some _ => true | None => false end.
Lemma some_b_true {A} (o : option A) : some_b o = true -> is_Some o.
Proof. destruct o as [x|]; [by exists x|done]. Qed.
Lemma some_b_false {A} (o : option A) : some_b o = false -> ~ is_Some o.
Proof. destruct o as [x|]; [done|]. by intros _ [? ?]. Qed.
Definition ex_end : option conn := fold_left (fun o a => play a o) ex_actions (match start ex_cf (ex_client 0) with Ok n => Some n | _ => None end).
Lemma played l : Forall (fun a => match a with Receive t | Elsewhere t => asking ex_cf ex_server t | _ => True end) l -> forall n0 k n, run ex_cf 2 2 64 ex_server n0 k n -> forall n', fold_left (fun o a => play a o) l (Some n) = Some n' ->
  exists k', run ex_cf 2 2 64 ex_server n0 k' n'.
Proof.
  induction l as [|a l IH]; intros F n0 k n R n' E; cbn [fold_left] in E; [injection E as <-; by exists k|]. apply Forall_cons in F as [Fa F].
  destruct (play a (Some n)) as [n1|] eqn:Pl; [|exfalso; clear - E; induction l as [|x l IH]; cbn in E; [done|by apply IH]]. refine (IH F n0 _ n1 _ n' E).
  unfold play in Pl. destruct (act ex_cf 2 2 64 ex_server a n) as [[n2| |]|] eqn:Ac; try done.
  eapply (run_step _ _ _ _ _ n0 k n a n1 R).
  - destruct a as [| |t|t]; try done; cbn [allowed].
    + destruct (grows_b (c_tree (n_client n)) t) eqn:G; cbn [andb] in Pl; [|done]. split; [done|]. split; [by apply grows_b_sound|]. intros b q Q. rewrite Q in Pl. destruct (persisted_index t (bi_id b)) as [x|] eqn:Px; [|done]. by exists x.
    + destruct (grows_b (c_tree (n_client n)) t) eqn:G; [|done]. split; [done|]. by apply grows_b_sound.
  - rewrite Ac. repeat case_match; congruence.
Qed.

(** The asking node has the branch; it takes the headers two at a time and stores block after block until it has all six *)
Example C81_example : answering ex_cf ex_server 6 /\ asking ex_cf ex_server (ex_client 0) /\
  (exists n k n', start ex_cf (ex_client 0) = Ok n /\ run ex_cf 2 2 64 ex_server n k n' /\ ex_end = Some n') /\
  match ex_end with
  | Some n => (c_peer_best (n_client n), c_requested (n_client n), length (c_pending (n_client n)), v_queue (n_server n), length (to_server n), length (to_client n), bi_id <$> v_best_sent (n_server n))
  | None => (None, [], 0%nat, [], 0%nat, 0%nat, None) end = (Some 6, [], 0%nat, [], 0%nat, 0%nat, Some 6).
Proof.
  split; [apply ex_server_answering|]. split; [apply ex_client_asking; lia|]. split.
  - destruct (start ex_cf (ex_client 0)) as [n| |] eqn:E.
    + assert (match ex_end with Some _ => true | None => false end = true) as K by (vm_compute; reflexivity). destruct ex_end as [n'|] eqn:En; [|done]. unfold ex_end in En. rewrite E in En.
      assert (Forall (fun a => match a with Receive t | Elsewhere t => asking ex_cf ex_server t | _ => True end) ex_actions) as F.
      2:{ destruct (played ex_actions F n 0%nat n (run_nil _ _ _ _ _ n) n' En) as [k' R]. exists n, k', n'. split; [reflexivity|]. split; [exact R|reflexivity]. }
      unfold ex_actions, steps. cbn [app take]. repeat (apply List.Forall_cons; [first [exact I|apply ex_client_asking; lia]|]). apply List.Forall_nil.
    + assert (match start ex_cf (ex_client 0) with Ok _ => true | _ => false end = true) as K by (vm_compute; reflexivity). by rewrite E in K.
    + assert (match start ex_cf (ex_client 0) with Ok _ => true | _ => false end = true) as K by (vm_compute; reflexivity). by rewrite E in K.
  - vm_compute. reflexivity.
Qed.

(** The asking node has 1, 2 and the branch; the best common block it knows of is 103, which the answering node has left for its chain of six *)
Theorem C81_whole_chain_after_reorganisation_refuted : exists cf header_limit block_limit locator_limit s c v loc hs b,
  answering cf s 6 /\ asking cf s (c_tree c) /\ 1 <= header_limit < 2 ^ 61 /\ 1 <= block_limit /\ 64 <= locator_limit /\
  (forall p, c_peer_best c = Some p -> has (c_tree c) p /\ has s p) /\ on_chain cf s b /\ ~ has (c_tree c) (bi_id b) /\
  forall t, act cf header_limit block_limit locator_limit s Answer (Conn c v [HeaderListRequest loc] []) = Some (Ok (Conn c v [] [HeaderList hs])) /\
            act cf header_limit block_limit locator_limit s (Receive t) (Conn c v [] [HeaderList hs]) = Some (Ok (Conn c v [HeaderListRequest loc] [])).
Proof.
  set (hs := match get_mainchain_headers_by_locator ex_cf ex_server [103; 102; 101] 2 with Ok l => l | _ => [] end).
  assert (hs = [BIndex 1 1000 1000 1 101 101 3 1 (View FullyChecked false false false) true; BIndex 2 1 1000 2 102 102 6 2 (View FullyChecked false false false) true]) as Eh by (vm_compute; reflexivity).
  assert (persisted_index ex_server 3 = Some (BIndex 3 2 1 3 103 103 9 3 (View FullyChecked false false false) true)) as E3 by (vm_compute; reflexivity).
  assert (some_b (persisted_index ex_server 103) = true) as P1 by (vm_compute; reflexivity).
  assert (some_b (persisted_index (ex_client 2) 103) = true) as P2 by (vm_compute; reflexivity).
  assert (some_b (persisted_index (ex_client 2) 3) = false) as P3 by (vm_compute; reflexivity).
  exists ex_cf, 2, 2, 64, ex_server, (Client (ex_client 2) [] [] (Some 103)), (Server [] None), [103; 102; 101], hs, (BIndex 3 2 1 3 103 103 9 3 (View FullyChecked false false false) true).
  cbn [c_tree c_peer_best bi_id]. split; [apply ex_server_answering|]. split; [apply ex_client_asking; lia|]. split; [lia|]. split; [lia|]. split; [lia|].
  split. { intros p Ep. assert (p = 103) as -> by congruence. split; apply some_b_true; [exact P2|exact P1]. }
  split. { split; [discriminate|]. split; [apply persisted_some in E3 as [E3 _]; exact E3|]. exists 3%nat. vm_compute. reflexivity. }
  split. { exact (some_b_false _ P3). }
  apply (circle ex_cf 2 2 64 ex_server (Client (ex_client 2) [] [] (Some 103)) (Server [] None) 103); cbn [c_tree c_requested c_peer_best]; rewrite ?Eh.
  - done.
  - done.
  - done.
  - vm_compute. reflexivity.
  - cbn. lia.
  - vm_compute. reflexivity.
  - done.
  - done.
  - done.
  - intros h [= <-]. cbn [bi_prev]. by eexists.
  - vm_compute. reflexivity.
  - vm_compute. reflexivity.
Qed.

Print Assumptions C81_no_offence.
Print Assumptions C81_ends.
Print Assumptions C81_whole_chain_downloaded.
Print Assumptions C81_whole_chain_after_reorganisation_refuted.
Print Assumptions C81_every_request_answered.
