(** More of C93: who is punished before being a peer. *)
From Verif Require Import Base PeerTableModel PeerDbModel PeerDbSpec PeerDbProofs PeerDbSteps PeerDbBans PeerDbBook PeerManagerModel PeerManagerSpec PeerManagerProofs PeerManagerSteps PeerManagerRun PeerManagerLedger PeerManagerFinal PeerManagerCalls PeerManagerSpare PeerManagerProperties.

Lemma discouraged_all c now m b : inv c m -> room m 1 ->
  exists m', discourage c now m b = Ok m' /\ is_Some (d_discouraged (m_db m') !! b) /\
    forall j y, m_peers m' !! j = Some y -> ip c (x_address y) = b -> leaving m' j.
Proof.
  intros HI Hroom. destruct (discourage_spec c now m b (inv_nearly _ _ _ HI) Hroom) as (d & Hd & HI' & (_ & He & _)). eexists. split; [exact Hd|].
  destruct (partings_spec c m d (Discourage b now) b) as [H1 H2]. split.
  - rewrite (dc_db _ _ H1). cbn [m_db with_call]. rewrite He. cbn. rewrite decide_True by done. by eexists.
  - intros j y. rewrite (dc_peers _ _ H1). intros Hy Hip. by apply (H2 j y).
Qed.

(** Someone who calls with outdated software is refused; their ip is discouraged, and all peers from there have to go. *)
Theorem C93_outdated c l m now z a bind i m' :
  execution c l m -> room m (calls_for (InboundAccepted a bind i)) -> step c now z m (InboundAccepted a bind i) = Ok m' ->
  m_networking m = true -> i_same_network i = true -> m_peers m !! i_id i = None -> d_banned (m_db m) !! ip c a = None -> i_services i <> 0%N ->
  i_outdated i = true -> ~ trusted c Inbound a -> (p_threshold c <= 100)%N ->
  m_peers m' = m_peers m /\ is_Some (d_discouraged (m_db m') !! ip c a) /\ forall j y, connected m' j y -> ip c (x_address y) = ip c a -> leaving m' j.
Proof.
  intros Hex Hroom Hs H1 H2 H3 H4 H5 H6 Ht Hp. pose proof (execution_inv c l m Hex) as HI. cbn [step] in Hs. unfold accept_inbound, finish_accept, try_accept_connection, validate_connection in Hs.
  rewrite H1, H2 in Hs. cbn [negb] in Hs. rewrite bool_decide_eq_false_2 in Hs by (rewrite H3; by intros [? ?]).
  change (already_connected c m a Inbound) with false in Hs. cbv iota in Hs. unfold is_address_banned in Hs. rewrite bool_decide_eq_false_2 in Hs by (rewrite H4; by intros [? ?]).
  rewrite (proj2 (N.eqb_neq _ _) H5), H6 in Hs. cbn [rbind] in Hs. unfold adjust_on_failed_connection in Hs.
  rewrite (proj2 (N.ltb_ge _ _) Hp) in Hs. destruct (is_whitelisted_node c Inbound a) eqn:Hw; [exfalso; apply Ht; by apply whitelisted_spec|].
  destruct (discourage_spec c now m (ip c a) (inv_nearly _ _ _ HI)) as (d & Hd & _ & _); [unfold room, calls_for in *; lia|].
  destruct (partings_spec c m d (Discourage (ip c a) now) (ip c a)) as [Hdc _].
  destruct (discouraged_all c now m (ip c a) HI) as (m1 & Hm1 & Hdis & Hall); [unfold room, calls_for in *; lia|].
  rewrite Hm1 in Hs, Hd. cbn [rbind is_outbound answer] in Hs. injection Hs as <-. injection Hd as ->. unfold connected. cbn [emit m_peers m_db].
  split; [exact (dc_peers _ _ Hdc)|]. done.
Qed.

(** So is someone who misbehaves before being a peer. *)
Theorem C93_handshake c l m now z a s m' :
  execution c l m -> room m (calls_for (MisbehavedOnHandshake a s)) -> step c now z m (MisbehavedOnHandshake a s) = Ok m' ->
  (p_threshold c <= s)%N -> ~ trusted c (match m_pending m !! a with Some t => role_of t | None => Inbound end) a ->
  is_Some (d_discouraged (m_db m') !! ip c a) /\ forall j y, connected m' j y -> ip c (x_address y) = ip c a -> leaving m' j.
Proof.
  intros Hex Hroom Hs Hp Ht. pose proof (execution_inv c l m Hex) as HI. cbn [step] in Hs. unfold adjust_on_failed_handshake, adjust_on_failed_connection in Hs.
  rewrite (proj2 (N.ltb_ge _ _) Hp) in Hs. destruct (is_whitelisted_node _ _ a) eqn:Hw; [exfalso; apply Ht; by apply whitelisted_spec|].
  destruct (discouraged_all c now m (ip c a) HI) as (m1 & Hm1 & Hdis & Hall); [unfold room, calls_for in *; lia|]. rewrite Hs in Hm1. injection Hm1 as <-. done.
Qed.

Definition before_blame : list (N * event) := [(10, InboundAccepted 20 0 (peer_info 1)); (11, InboundAccepted 101 0 (peer_info 3))]%N.
Example C93_outdated_case : exists m, execution c0 (map snd before_blame) m /\ room m (calls_for (InboundAccepted 21 0 (Info 2 true 7 true))) /\ m_networking m = true /\
  m_peers m !! 2%N = None /\ d_banned (m_db m) !! ip c0 21 = None /\ ~ trusted c0 Inbound 21 /\ (p_threshold c0 <= 100)%N.
Proof.
  destruct (by_play c0 ∅ before_blame (fun m => (length (m_calls m) <? 100)%nat && m_networking m && bool_decide (m_peers m !! 2%N = None :> option ctx) && bool_decide (d_banned (m_db m) !! ip c0 21 = None) &&
    negb (is_whitelisted_node c0 Inbound 21))) as (m & Hex & Ht); [apply db0_good|vm_compute; reflexivity|].
  rewrite !andb_true_iff, negb_true_iff, !bool_decide_eq_true, Nat.ltb_lt in Ht. destruct Ht as ((((H1 & H2) & H3) & H4) & H5). exists m. split_and!; try done.
  - unfold room, U32_MAX, calls_for. lia.
  - rewrite <- whitelisted_spec. congruence.
Qed.
Example C93_outdated_result : exists m, execution c0 (map snd (before_blame ++ [(12%N, InboundAccepted 21 0 (Info 2 true 7 true)); (13%N, MisbehavedOnHandshake 100 100)])) m /\
  waits m 1 && negb (waits m 3) && bool_decide (d_discouraged (m_db m) !! 10%N = Some 1012%N) && bool_decide (d_discouraged (m_db m) !! 50%N = None) = true.
Proof. apply by_play with (boot := ∅); [apply db0_good|]. vm_compute. reflexivity. Qed.

Print Assumptions C93_outdated.
Print Assumptions C93_handshake.
