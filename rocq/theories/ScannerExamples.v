(** Deciding whether a concrete chain is valid, and some chains. *)
From Coq Require Import Zify ZifyN ZifyBool.
From Verif Require Import Base ScannerModel ScannerSpec ScannerTables ScannerChain ScannerProgress.
Local Open Scope N_scope.

Definition may_spendb (l : list made) (spent : list outpoint) (h m : N) (o : outpoint) : bool :=
  existsb (fun e => bool_decide (place e = o) && bool_decide (o ∉ spent) && spendable (what e) && is_open h m e) l.
Definition may_stakeb (l : list made) (spent : list outpoint) (o : outpoint) : bool :=
  existsb (fun e => bool_decide (place e = o) && bool_decide (o ∉ spent) && match what e with CreateStakePool _ _ | ProduceBlockFromStake _ _ => true | _ => false end) l.
Definition proper_rewardb (out : output) : bool := match out with Transfer _ _ | LockThenTransfer _ _ _ | CreateStakePool _ _ | ProduceBlockFromStake _ _ => true | _ => false end.
Definition proper_outputb (out : output) : bool := match out with ProduceBlockFromStake _ _ => false | _ => true end.
Definition valid_blockb (g : genesis) (c : list block) (b : block) : bool :=
  (median_at g c <=? timestamp b) && forallb proper_rewardb (reward b) && forallb (fun x => forallb proper_outputb (outs x)) (txs b) &&
  forallb (fun i => match txs b !! i with
    | Some x => bool_decide (NoDup (spends x)) && forallb (may_spendb (made_on g c ++ made_by_txs (height c + 1) (timestamp b) (take i (txs b)))
        (spent_on c ++ spent_by_txs (take i (txs b))) (height c + 1) (median_at g c)) (spends x)
    | None => true end) (seq 0 (length (txs b))) &&
  bool_decide (NoDup (kernel b)) &&
  forallb (may_stakeb (made_on g c ++ made_by_txs (height c + 1) (timestamp b) (txs b)) (spent_on c ++ spent_by_txs (txs b))) (kernel b).
Definition valid_chainb (g : genesis) (c : list block) : bool :=
  bool_decide (NoDup (map place (made_on g c))) && forallb proper_rewardb (genesis_outs g) &&
  forallb (fun i => match c !! i with Some b => valid_blockb g (take i c) b | None => true end) (seq 0 (length c)).

Lemma forallb_elem {A} (f : A -> bool) l x : forallb f l = true -> x ∈ l -> f x = true.
Proof. intros H Hx. apply elem_of_list_In in Hx. by eapply forallb_forall in H. Qed.
Lemma forallb_Forall {A} (f : A -> bool) (Q : A -> Prop) l : (∀ x, f x = true -> Q x) -> forallb f l = true -> Forall Q l.
Proof. intros HQ H. apply Forall_forall. intros x Hx. by eapply HQ, forallb_elem. Qed.
Lemma may_spendb_ok l s h m o : may_spendb l s h m o = true -> may_spend l s h m o.
Proof.
  intros H. apply existsb_exists in H as (e & He & H). apply elem_of_list_In in He. repeat apply andb_prop in H as [H ?].
  exists e. split_and!; try done; by eapply bool_decide_eq_true.
Qed.
Lemma may_stakeb_ok l s o : may_stakeb l s o = true -> may_stake l s o.
Proof.
  intros H. apply existsb_exists in H as (e & He & H). apply elem_of_list_In in He. repeat apply andb_prop in H as [H ?].
  exists e. split_and!; try done; try (by eapply bool_decide_eq_true). by destruct (what e).
Qed.
Lemma middle {A} (l : list A) l1 x l2 : l = l1 ++ x :: l2 -> l !! length l1 = Some x ∧ take (length l1) l = l1 ∧ length l1 ∈ seq 0 (length l).
Proof.
  intros ->. split_and!; [by rewrite list_lookup_middle|by rewrite take_app|]. apply elem_of_seq. rewrite app_length. cbn. lia.
Qed.
Lemma valid_blockb_ok g c b : valid_blockb g c b = true -> valid_block g c b.
Proof.
  unfold valid_blockb. intros H. apply andb_prop in H as [H H6]. apply andb_prop in H as [H H5]. apply andb_prop in H as [H H4].
  apply andb_prop in H as [H H3]. apply andb_prop in H as [H1 H2]. split.
  - by apply N.leb_le.
  - eapply forallb_Forall; [|exact H2]. by intros [].
  - intros x Hx. eapply forallb_Forall; [|exact (forallb_elem _ _ x H3 Hx)]. by intros [].
  - intros l x l' E. destruct (middle _ _ _ _ E) as (E1 & E2 & E3). pose proof (forallb_elem _ _ _ H4 E3) as Q. cbv beta in Q. rewrite E1, E2 in Q.
    apply andb_prop in Q as [Q1 Q2]. split; [by eapply bool_decide_eq_true|]. intros o Ho. by apply may_spendb_ok, (forallb_elem _ _ o Q2).
  - split; [by eapply bool_decide_eq_true|]. intros o Ho. by apply may_stakeb_ok, (forallb_elem _ _ o H6).
Qed.
Lemma valid_chainb_ok g c : valid_chainb g c = true -> valid_chain g c.
Proof.
  unfold valid_chainb. intros H. apply andb_prop in H as [H H3]. apply andb_prop in H as [H1 H2]. split.
  - by eapply bool_decide_eq_true.
  - eapply forallb_Forall; [|exact H2]. by intros [].
  - intros c1 b c2 E. destruct (middle _ _ _ _ E) as (E1 & E2 & E3). pose proof (forallb_elem _ _ _ H3 E3) as Q. cbv beta in Q. rewrite E1, E2 in Q. by apply valid_blockb_ok.
Qed.

(** When all amounts together fit, every sum of some does *)
Definition amount (out : output) : N := match out with Transfer (_, n) _ | LockThenTransfer (_, n) _ _ => n | IssueNft _ _ => 1 | _ => 0 end.
Lemma value_amount a k out : value a k out <= amount out.
Proof. destruct out as [[]|[]| | | | | | | | | |]; cbn; try lia; case_bool_decide; lia. Qed.
Lemma turnover_amount l s a k : turnover l s a k <= total (fun e => amount (what e)) l.
Proof. apply total_le. intros e _. pose proof (value_amount a k (what e)). destruct (_ || _); lia. Qed.
Lemma amounts_fit_all g c : total (fun e => amount (what e)) (made_on g c) <= U128_MAX -> amounts_fit g c.
Proof.
  intros H. assert (Q : ∀ l l' s a k, made_on g c = l ++ l' -> turnover l s a k <= U128_MAX).
  { intros l l' s a k E. pose proof (turnover_amount l s a k). rewrite E, total_app in H. lia. }
  split.
  - intros c1 c2 a k ->. revert Q. unfold made_on at 1. rewrite imap_app, concat_app, app_assoc. intros Q. by eapply Q.
  - intros c1 b c2 l l' a k -> El. revert Q. rewrite cons_middle, app_assoc. unfold made_on at 1. rewrite imap_app, concat_app, app_assoc. fold (made_on g (c1 ++ [b])).
    rewrite made_on_snoc. unfold made_by_block, made_by_txs at 1. rewrite El, (map_app (made_by_tx (height c1 + 1) (timestamp b))), concat_app. fold (made_by_txs (height c1 + 1) (timestamp b) l).
    intros Q. eapply Q. by rewrite <- !app_assoc.
Qed.

(** Two addresses; genesis pays 100 to the first. *)
Definition gen : genesis := Genesis 0 1000 [Transfer (Coin, 100) 1; CreateStakePool 9 1].
(** The first pays to the second, at once and locked for two blocks, and issues a token; the pool makes the block *)
Definition b1 : block := Block 1 0 1010
  [Tx 11 [(BlockReward 0, 0)] [Transfer (Coin, 60) 2; LockThenTransfer (Coin, 30) 2 (ForBlockCount 2); IssueNft 7 2]] [ProduceBlockFromStake 1 9] [(BlockReward 0, 1)].
(** The second pays on, and locks the token *)
Definition b2 : block := Block 2 1 1020
  [Tx 12 [(Transaction 11, 0)] [Transfer (Coin, 20) 1; Transfer (Coin, 40) 2]; Tx 13 [(Transaction 11, 2)] [LockThenTransfer (TokenId 7, 1) 1 (UntilHeight 3)]] [] [].
(** The locked outputs are open *)
Definition b3 : block := Block 3 2 1030 [Tx 14 [(Transaction 11, 1); (Transaction 12, 1)] [Transfer (Coin, 70) 1]] [Transfer (Coin, 5) 2] [].
(** Another block in the place of [b2] *)
Definition b2' : block := Block 4 1 1021 [Tx 15 [(Transaction 11, 0)] [Transfer (Coin, 60) 3]] [LockThenTransfer (Coin, 5) 3 (ForBlockCount 100)] [].
Definition the_chain : list block := [b1; b2; b3].
Definition the_fork : list block := [b1; b2'].
Lemma the_chain_valid : valid_chain gen the_chain.
Proof. apply valid_chainb_ok. vm_compute. reflexivity. Qed.
Lemma the_fork_valid : valid_chain gen the_fork.
Proof. apply valid_chainb_ok. vm_compute. reflexivity. Qed.
Lemma the_chain_fits : amounts_fit gen the_chain ∧ locks_fit gen the_chain ∧ tokens_unique gen the_chain.
Proof.
  split_and!.
  - apply amounts_fit_all. vm_compute. discriminate.
  - intros e He. assert (Forall (fun e => is_reward e = false -> lock_fits e) (made_on gen the_chain)) as F; [|rewrite Forall_forall in F; by apply F].
    cbn. repeat (apply Forall_cons; split); try (intros _; cbn; try done; vm_compute; discriminate). constructor.
  - apply (bool_decide_eq_true (NoDup (omap nft_of (made_on gen the_chain)))). vm_compute. reflexivity.
Qed.
(** What is shown, if the scan does not fail *)
Definition show {A} (f : db -> A) (r : res unit db) : option A := match r with Ok d => Some (f d) | _ => None end.
Lemma show_ok {A} (f : db -> A) r x : show f r = Some x -> ∃ d, r = Ok d ∧ f d = x.
Proof. destruct r; cbn; [|done|done]. intros [= <-]. eauto. Qed.
