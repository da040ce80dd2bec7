(** C96, continued: announcements are spread out. *)
From Verif Require Import Base BloomModel TxRelayModel TxRelaySpec TxRelayProofs TxRelayHistory TxRelayProperties.
Local Open Scope N_scope.

Section Pacing.
  Context {Seed : Type} (positions : Seed -> N -> list nat) (service : bool) (max : N).
  Notation lived := (lived positions service max).
  Notation turn := (turn positions service max).

  Lemma handled_not_tells p e ev p1 o1 id : handled positions service max p e ev p1 o1 -> Say (NewTransaction id) ∉ o1.
  Proof.
    intros (_ & _ & H) M. destruct ev as [[j|j|j|j]|j|js|].
    - destruct H as (_ & H). destruct (decide (wanted _ _ _ _ _)); destruct H as (_ & ->); [|destruct (_ || _)]; set_solver.
    - destruct H as (_ & ->). destruct service; [destruct (decide _)|]; set_solver.
    - destruct H as (_ & _ & _ & ->). destruct (t_requested p !! j) as [t|]; [|by apply elem_of_nil in M].
      unfold reaction in M. destruct (e_verdict e j); [| | | |destruct (0 <? score)]; clear - M; set_solver.
    - destruct H as (_ & _ & _ & ->). by apply elem_of_nil in M.
    - destruct H as (_ & ->). by apply elem_of_nil in M.
    - destruct H as (_ & ->). by apply elem_of_nil in M.
    - destruct H as (_ & ->). by apply elem_of_nil in M.
  Qed.
  Lemma turn_next l p x p' : inv positions service max l p -> turn p (h_env x) (h_event x) = Ok (p', h_out x) ->
    t_next p <= t_next p' /\ ((exists id, tells id x) -> t_next p <= e_now (h_env x) /\ t_next p' = e_now (h_env x) + e_delay (h_env x)).
  Proof.
    intros I T. destruct (inv_turn _ _ _ _ _ _ _ I T) as (p1' & o1' & p2' & said & O & H & G & A & K).
    assert (t_next p2' = t_next p) as N2 by (destruct G as (_ & _ & -> & _); destruct H as (_ & -> & _); done).
    assert ((exists id, tells id x) -> t_next p <= e_now (h_env x)) as TL.
    { intros [id B]. unfold tells in B. rewrite O in B. apply elem_of_app in B as [B|B]; [by apply (handled_not_tells _ _ _ _ _ _ H) in B|].
      destruct A as (_ & _ & A). rewrite N2 in A. destruct (N.leb_spec (t_next p) (e_now (h_env x))); [done|]. destruct A as (_ & -> & _). by apply elem_of_nil in B. }
    unfold TxRelayModel.turn in T.
    destruct (handle_ok positions service max p (h_env x) (h_event x) (mentions l) (i_known _ _ _ _ _ I)) as (q1 & o1 & E1 & H1 & _). rewrite E1 in T. cbn [rbind] in T.
    assert (EXPIRY_PERIOD <= t_purge q1) as P1 by (destruct H1 as (-> & _); apply (i_purge _ _ _ _ _ I)).
    destruct (purge_ok positions q1 (e_purge_time (h_env x)) P1) as (q2 & E2 & G2). rewrite E2 in T. cbn [rbind] in T.
    assert (t_next q2 = t_next p) as N3 by (destruct G2 as (_ & _ & -> & _); destruct H1 as (_ & -> & _); done).
    destruct (N.leb_spec (t_next q2) (e_now (h_env x))) as [D|D].
    - destruct (announce_transactions positions q2 (h_env x)) as [[q3 said']| |]; cbn [rbind] in T; [|discriminate..].
      injection T as <- _. cbn [t_next]. split; [lia|]. intros B. apply TL in B. done.
    - injection T as <- _. split; [lia|]. intros B. apply TL in B. lia.
  Qed.

  (** C96, paced: after transactions were announced to the peer, none is announced before the delay chosen then is over. *)
  Theorem C96_paced time l1 x l2 y p id id' : lived time (l1 ++ x :: l2 ++ [y]) p -> tells id x -> tells id' y ->
    e_now (h_env x) + e_delay (h_env x) <= e_now (h_env y).
  Proof.
    intros L X Y.
    assert (forall l2 q, lived time (l1 ++ x :: l2) q -> e_now (h_env x) + e_delay (h_env x) <= t_next q) as K.
    { clear - X. induction l2 as [|z l2 IH] using rev_ind; intros q L.
      - apply lived_snoc in L as (r & _ & I & T). destruct (turn_next _ _ _ _ I T) as [_ B]. destruct B as [_ ->]; [eauto|lia].
      - replace (l1 ++ x :: l2 ++ [z]) with ((l1 ++ x :: l2) ++ [z]) in L by (rewrite <- app_assoc; done).
        apply lived_snoc in L as (r & L & I & T). apply IH in L. destruct (turn_next _ _ _ _ I T) as [B _]. lia. }
    replace (l1 ++ x :: l2 ++ [y]) with ((l1 ++ x :: l2) ++ [y]) in L by (rewrite <- app_assoc; done).
    apply lived_snoc in L as (r & L & I & T). apply K in L. destruct (turn_next _ _ _ _ I T) as [_ B]. destruct B as [B _]; [eauto|lia].
  Qed.
End Pacing.

(** A case: two announcements, six seconds apart; the delay is five *)
Definition paced_steps : list (env unit * event) := [(example_env 1006 [7], RelayableTx 7); (example_env 1008 [7; 8], RelayableTx 8); (example_env 1012 [7; 8], MaintenanceTick)].
Definition paced_outs : list (list output) := [[Say (NewTransaction 7)]; []; [Say (NewTransaction 8)]].
Example C96_case_paced : exists x z y p, lived example_positions true 2 1000000000000 ([] ++ x :: [z] ++ [y]) p /\ tells 7 x /\ tells 8 y.
Proof.
  destruct (play_new_lived example_positions true 2 1000000000000 tt 1000000000000 5000000000 paced_steps paced_outs) as [p L].
  { vm_compute. reflexivity. }
  eexists _, _, _, p. split; [exact L|]. split; left.
Qed.

Print Assumptions C96_paced.
