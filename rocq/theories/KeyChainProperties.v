(** C82: the addresses an account hands out are new, stay recognised, survive failures and reopening, and are found again on restoring. *)
From Verif Require Import Base ConstraintsProofs KeyChainModel KeyChainSpec KeyChainProofs.
Local Open Scope N_scope.

Section Properties.
  Context {K H : Type} `{Countable K, Countable H} (key : purpose -> N -> K) (hash : K -> H).
  Notation distinct := (distinct_addresses key hash).
  Notation dest' := (dest (K := K) (H := H)).

  (** A history of an account that was made with this lookahead *)
  Definition history (L : N) (xs : list act) (a : account (K := K) (H := H)) (answers : list (event * answer)) : Prop :=
    ∃ a0, new_account key hash L = Ok a0 ∧ run key hash L xs a0 = Ok (a, answers).

  Lemma history_spec L xs a tr : distinct -> 1 <= L < 2 ^ 31 -> history L xs a tr ->
    ∃ u iss, vrun key hash L fresh fresh tr u iss ∧ goods key hash L u iss a.
  Proof.
    intros D [L1 LB] (a0 & E & R). destruct (new_account_spec key hash L D LB) as (a0' & E' & G). rewrite E in E'. injection E' as <-.
    destruct (run_spec key hash L D LB L1 xs _ _ _ G) as (a1 & rs & u & iss & E1 & V & G1). rewrite R in E1. injection E1 as -> ->. eauto.
  Qed.
  Lemma later_spec L xs a u iss : distinct -> 1 <= L < 2 ^ 31 -> goods key hash L u iss a -> ∀ a' tr', run key hash L xs a = Ok (a', tr') ->
    ∃ u' iss', vrun key hash L u iss tr' u' iss' ∧ goods key hash L u' iss' a'.
  Proof.
    intros D [L1 LB] G a' tr' R. destruct (run_spec key hash L D LB L1 xs _ _ _ G) as (a1 & rs & u' & iss' & E1 & V & G1). rewrite R in E1. injection E1 as -> ->. eauto.
  Qed.

  (** Whatever is asked of an account, it answers *)
  Theorem C82_always_answers L xs : distinct -> 1 <= L < 2 ^ 31 -> ∃ a answers, history L xs a answers.
  Proof.
    intros D [L1 LB]. destruct (new_account_spec key hash L D LB) as (a0 & E & G).
    destruct (run_spec key hash L D LB L1 xs _ _ _ G) as (a & tr & _ & _ & R & _). exists a, tr, a0. done.
  Qed.

  (** An address that was handed out is the account's, and is recognised at all times after *)
  Theorem C82_addresses_stay_recognised L xs a answers p i k : distinct -> 1 <= L < 2 ^ 31 ->
    history L xs a answers -> handed_out answers p i k ->
    k = key p i ∧ ∀ xs' a' answers', run key hash L xs' a = Ok (a', answers') -> is_mine a' (PublicKeyHash (hash k)) = true ∧ is_mine a' (PublicKey k) = true.
  Proof.
    intros D LB Hi Ha. destruct (history_spec _ _ _ _ D LB Hi) as (u & iss & V & G).
    destruct (handed_spec key hash L (proj1 LB) _ _ _ _ _ _ _ _ V Ha) as (-> & Lt & _). split; [done|]. intros xs' a' tr' R.
    destruct (later_spec L xs' a u iss D LB G a' tr' R) as (u' & iss' & V' & G').
    assert (i < cap (limit L (u' p))) as Lt'.
    { pose proof (limit_mono key L _ _ (proj1 (vrun_mono _ _ _ _ _ _ _ _ V' p))). lia. }
    split; apply (is_mine_spec key hash L D _ _ _ _ G'); exists p, i; (split; [done|]); [by left|by right].
  Qed.

  (** A newly issued address comes after every address of its chain that was handed out or paid to before *)
  Theorem C82_issued_addresses_are_new L xs a before p q i k after : distinct -> 1 <= L < 2 ^ 31 ->
    history L xs a (before ++ (Issue p, Address q i k) :: after) ->
    q = p ∧ i < 2 ^ 31 ∧ (∀ j k', handed_out before p j k' -> j < i) ∧ (∀ j, noted key hash before p j -> j < i).
  Proof.
    intros D LB Hi. destruct (history_spec _ _ _ _ D LB Hi) as (u & iss & V & G).
    apply vrun_split in V as (u1 & iss1 & V1 & V2). inversion V2 as [|? ? ? ? u2 iss2 ? ? ? S V3]; subst.
    inversion S; subst. split; [done|]. split; [unfold cap in *; lia|]. split.
    - intros j k' Ha. destruct (handed_spec key hash L (proj1 LB) _ _ _ _ _ _ _ _ V1 Ha) as (_ & _ & O). unfold next. destruct (iss1 q); cbn in O; [lia|done].
    - intros j No. destruct (noted_spec key hash L _ _ _ _ _ _ _ V1 No) as (_ & _ & O). unfold next. destruct (iss1 q); cbn in O; [lia|done].
  Qed.

  (** An unused address comes after every address of its chain that was paid to before *)
  Theorem C82_unused_addresses_are_unused L xs a before p q i k after : distinct -> 1 <= L < 2 ^ 31 ->
    history L xs a (before ++ (NextUnused p, Address q i k) :: after) ->
    q = p ∧ i < 2 ^ 31 ∧ ∀ j, noted key hash before p j -> j < i.
  Proof.
    intros D LB Hi. destruct (history_spec _ _ _ _ D LB Hi) as (u & iss & V & G).
    apply vrun_split in V as (u1 & iss1 & V1 & V2). inversion V2 as [|? ? ? ? u2 iss2 ? ? ? S V3]; subst.
    inversion S; subst. split; [done|]. split; [done|].
    intros j No. destruct (noted_spec key hash L _ _ _ _ _ _ _ V1 No) as (_ & O & _). unfold next. destruct (u2 q); cbn in O; [lia|done].
  Qed.

  (** An operation that fails, and closing and opening the wallet, leave the account as it was *)
  Theorem C82_failures_change_nothing L xs a answers es : distinct -> 1 <= L < 2 ^ 31 -> history L xs a answers ->
    step key hash L (Aborted es) a = Ok (a, []) ∧ step key hash L Reopened a = Ok (a, []).
  Proof.
    intros D LB Hi. destruct (history_spec _ _ _ _ D LB Hi) as (u & iss & V & G). cbn [step].
    destruct (handle_all_spec key hash L D (proj2 LB) (proj1 LB) es _ _ _ G) as (a1 & rs & u1 & iss1 & E & _ & _). rewrite E. cbn [rbind].
    rewrite (reload_spec key hash L D _ _ _ _ _ G), (reload_same key hash L D _ _ _ G). done.
  Qed.

  (** The account recognises keys of its own only, the first [L] of each chain from the start, and [L] more after each that was paid to *)
  Theorem C82_lookahead L xs a answers : distinct -> 1 <= L < 2 ^ 31 -> history L xs a answers ->
    (∀ d, is_mine a d = true -> ∃ p i, i < 2 ^ 31 ∧ pays key hash d p i) ∧
    (∀ d p j, pays key hash d p j -> j < 2 ^ 31 -> j < L -> is_mine a d = true) ∧
    (∀ d p i j, pays key hash d p j -> j < 2 ^ 31 -> noted key hash answers p i -> j <= i + L -> is_mine a d = true).
  Proof.
    intros D LB Hi. destruct (history_spec _ _ _ _ D LB Hi) as (u & iss & V & G). split; [|split].
    - intros d M. apply (is_mine_spec key hash L D _ _ _ _ G) in M as (p & i & Lt & P). exists p, i. split; [unfold cap in Lt; lia|done].
    - intros d p j P J Lt. apply (is_mine_spec key hash L D _ _ _ _ G). exists p, j. split; [|done]. unfold cap, limit. destruct (u p); lia.
    - intros d p i j P J No Le. apply (is_mine_spec key hash L D _ _ _ _ G). exists p, j. split; [|done].
      destruct (noted_spec key hash L _ _ _ _ _ _ _ V No) as (I & O & _). unfold cap, limit. destruct (u p) as [x|]; cbn in O; [lia|done].
  Qed.

  (** An output is found to be the account's exactly when it pays to something the account recognises, unless anyone can spend it *)
  Theorem C82_payments_noticed L xs a answers l : distinct -> 1 <= L < 2 ^ 31 -> history L xs a answers -> AnyoneCanSpend ∉ l ->
    ∃ a', handle key hash L (Seen l) a = Ok (a', Found (existsb (is_mine a) l)).
  Proof.
    intros D LB Hi A. destruct (history_spec _ _ _ _ D LB Hi) as (u & iss & V & G).
    destruct (handle_spec key hash L D (proj2 LB) (proj1 LB) u iss (Seen l) a G) as (a1 & r & u1 & iss1 & E & S & _).
    exists a1. rewrite E. do 2 f_equal. inversion S as [| | | |? p i M|? M]; subst; f_equal; symmetry.
    - apply existsb_exists. destruct (marks_known _ _ _ _ _ _ _ M) as (d & I & Kn). exists d. split; [by apply elem_of_list_In|].
      apply (is_mine_spec key hash L D _ _ _ _ G). eauto.
    - apply not_true_is_false. intros F. apply existsb_exists in F as (d & I & F). apply (is_mine_spec key hash L D _ _ _ _ G) in F as (p & i & Kn).
      apply elem_of_list_In in I. by apply (marks_none _ _ _ _ _ M A d p i).
  Qed.

  Lemma all_seen L ls : ∀ a a' rs, handle_all key hash L (map Seen ls) a = Ok (a', rs) -> shown rs = ls ∧ ∀ e r, (e, r) ∈ rs -> ∃ l, e = Seen l.
  Proof.
    induction ls as [|l ls IH]; intros a a' rs E.
    - cbn in E. injection E as <- <-. split; [done|]. intros e r I. by apply elem_of_nil in I.
    - cbn [map handle_all] in E. apply rbind_ok in E as ([a1 r] & E1 & E). apply rbind_ok in E as ([a2 rs2] & E2 & E). injection E as <- <-.
      destruct (IH _ _ _ E2) as [Sh Al]. split; [unfold shown in *; cbn; by rewrite Sh|].
      intros e r' I. apply elem_of_cons in I as [[= -> ->]|I]; [eauto|]. by apply (Al e r').
  Qed.
  Lemma all_seen_run L ls a a' rs : run key hash L [Committed (map Seen ls)] a = Ok (a', rs) -> shown rs = ls ∧ ∀ e r, (e, r) ∈ rs -> ∃ l, e = Seen l.
  Proof.
    intros E. cbn [run step] in E. apply rbind_ok in E as ([a1 r] & E1 & E). cbn [rbind] in E. injection E as <- <-.
    rewrite app_nil_r. by apply (all_seen L ls a a1).
  Qed.

  (** An account made again from the same seed, or reset, that is shown the same outputs in the same order says the same of them and ends up
      recognising the same keys, whatever else the first one was asked *)
  Theorem C82_restored L xs a answers b answers' : distinct -> 1 <= L < 2 ^ 31 ->
    history L xs a answers -> history L [Committed (map Seen (shown answers))] b answers' ->
    (∀ d, is_mine b d = is_mine a d) ∧ said answers' = said answers ∧ reset key hash L = new_account key hash L.
  Proof.
    intros D LB Ha Hb. destruct (history_spec _ _ _ _ D LB Ha) as (u & iss & V & G). destruct (history_spec _ _ _ _ D LB Hb) as (v & viss & W & F).
    destruct Hb as (b0 & _ & Eb). destruct (all_seen_run _ _ _ _ _ Eb) as [Sh Al].
    destruct (vrun_shown key hash L D _ _ _ _ _ V _ _ _ _ _ (fun _ => eq_refl) W (eq_sym Sh) Al) as [E Sa].
    split; [|split; [done|apply reset_spec]]. intros d. apply eq_true_iff_eq.
    rewrite (is_mine_spec key hash L D _ _ _ _ G), (is_mine_spec key hash L D _ _ _ _ F). unfold known. by setoid_rewrite E.
  Qed.

  (** With a larger lookahead it recognises at least as much, if each output pays to one destination *)
  Theorem C82_restored_with_larger_lookahead L L' xs a answers b answers' : distinct -> 1 <= L -> L <= L' -> L' < 2 ^ 31 ->
    history L xs a answers -> history L' [Committed (map Seen (shown answers))] b answers' ->
    (∀ l, l ∈ shown answers -> (length l <= 1)%nat) ->
    ∀ d, is_mine a d = true -> is_mine b d = true.
  Proof.
    intros D L1 Le LB Ha Hb One d M. assert (1 <= L < 2 ^ 31) as B1 by lia. assert (1 <= L' < 2 ^ 31) as B2 by lia.
    destruct (history_spec _ _ _ _ D B1 Ha) as (u & iss & V & G). destruct (history_spec _ _ _ _ D B2 Hb) as (v & viss & W & F).
    destruct Hb as (b0 & _ & Eb). destruct (all_seen_run _ _ _ _ _ Eb) as [Sh Al].
    pose proof (vrun_bigger key hash L L' D _ _ _ _ _ Le V _ _ _ _ _ (fun p => ole_refl (fresh p)) W (eq_sym Sh) Al One) as O.
    apply (is_mine_spec key hash L D _ _ _ _ G) in M as (p & i & Kn). apply (is_mine_spec key hash L' D _ _ _ _ F). exists p, i.
    exact (known_bigger key hash L L' _ _ _ _ _ Le O Kn).
  Qed.
End Properties.

(** * Refuted, and examples *)
(** Keys that are numbers and their own hashes *)
Definition ex_key (p : purpose) (i : N) : N := match p with ReceiveFunds => 2 * i | Change => 2 * i + 1 end.
Definition ex_hash (k : N) : N := k.
Lemma ex_distinct : distinct_addresses ex_key ex_hash.
Proof. intros p i q j _ _ E. unfold ex_hash, ex_key in E. destruct p, q; split; lia || done. Qed.
Definition ex_pay (p : purpose) (i : N) : list (dest (K := N) (H := N)) := [PublicKeyHash (ex_key p i)].

(** What an account with this history recognises among these *)
Definition ex_mine (L : N) (xs : list act) (l : list (dest (K := N) (H := N))) : option (list bool) :=
  match new_account ex_key ex_hash L with
  | Ok a0 => match run ex_key ex_hash L xs a0 with Ok (a, _) => Some (map (is_mine a) l) | _ => None end
  | _ => None
  end.
Definition ex_answers (L : N) (xs : list act) : option (list (event (K := N) (H := N) * answer (K := N))) :=
  match new_account ex_key ex_hash L with
  | Ok a0 => match run ex_key ex_hash L xs a0 with Ok (_, r) => Some r | _ => None end
  | _ => None
  end.
Lemma ex_mine_history L xs d b : ex_mine L xs [d] = Some [b] -> ∃ a tr, history ex_key ex_hash L xs a tr ∧ is_mine a d = b.
Proof.
  unfold ex_mine, history. destruct (new_account ex_key ex_hash L) as [a0| |]; [|discriminate|discriminate].
  destruct (run ex_key ex_hash L xs a0) as [[a tr]| |] eqn:E; [|discriminate|discriminate]. intros [= F]. exists a, tr. split; [|exact F]. exists a0. done.
Qed.

(** Shown the same outputs in another order (as a wallet is that saw them unconfirmed and is restored from the blocks), it may miss payments *)
Theorem C82_restored_in_another_order_refuted :
  ¬ (∀ (ls ls' : list (list (dest (K := N) (H := N)))) a answers b answers' d, ls ≡ₚ ls' ->
     history ex_key ex_hash 20 [Committed (map Seen ls)] a answers -> history ex_key ex_hash 20 [Committed (map Seen ls')] b answers' ->
     is_mine b d = is_mine a d).
Proof.
  intros T.
  destruct (ex_mine_history 20 [Committed (map Seen [ex_pay ReceiveFunds 19; ex_pay ReceiveFunds 39])] (PublicKeyHash (ex_key ReceiveFunds 59)) true) as (a & tr & Ha & Ma).
  { vm_compute. reflexivity. }
  destruct (ex_mine_history 20 [Committed (map Seen [ex_pay ReceiveFunds 39; ex_pay ReceiveFunds 19])] (PublicKeyHash (ex_key ReceiveFunds 59)) false) as (b & tr' & Hb & Mb).
  { vm_compute. reflexivity. }
  rewrite (T _ _ _ _ _ _ (PublicKeyHash (ex_key ReceiveFunds 59)) (Permutation_swap _ _ _) Ha Hb) in Mb. rewrite Ma in Mb. discriminate.
Qed.

(** An output whose first destination anyone can spend is not noticed, though another of its destinations is the account's *)
Theorem C82_payments_noticed_refuted :
  ¬ (∀ L xs a answers l, 1 <= L < 2 ^ 31 -> history ex_key ex_hash L xs a answers ->
     ∃ a', handle ex_key ex_hash L (Seen l) a = Ok (a', Found (existsb (is_mine a) l))).
Proof.
  intros T. destruct (ex_mine_history 1 [] (PublicKeyHash (ex_key ReceiveFunds 0)) true) as (a & tr & Ha & Ma); [vm_compute; reflexivity|].
  destruct (T 1 [] a tr [AnyoneCanSpend; PublicKeyHash (ex_key ReceiveFunds 0)] ltac:(lia) Ha) as (a' & E).
  assert (existsb (is_mine a) [AnyoneCanSpend; PublicKeyHash (ex_key ReceiveFunds 0)] = true) as F.
  { cbn [existsb]. rewrite Ma. apply orb_true_r. }
  rewrite F in E. cbn [handle mark_seen rbind] in E. injection E as _ E. discriminate.
Qed.

(** Of the destinations of an output only the first that is the account's counts as paid to: the next unused address may be one that was *)
Theorem C82_unused_address_after_two_destinations_refuted :
  ¬ (∀ L xs a before p q i k after l, 1 <= L < 2 ^ 31 -> history ex_key ex_hash L xs a (before ++ (NextUnused p, Address q i k) :: after) ->
     (Seen l, Found true) ∈ before -> (PublicKeyHash (ex_hash k) : dest (K := N) (H := N)) ∉ l).
Proof.
  intros T.
  assert (∃ a, history ex_key ex_hash 20 [Committed [Seen [PublicKeyHash (ex_key Change 0); PublicKeyHash (ex_key ReceiveFunds 0)]; NextUnused ReceiveFunds]] a
    [(Seen [PublicKeyHash (ex_key Change 0); PublicKeyHash (ex_key ReceiveFunds 0)], Found true); (NextUnused ReceiveFunds, Address ReceiveFunds 0 (ex_key ReceiveFunds 0))]) as (a & Ha).
  { assert (ex_answers 20 [Committed [Seen [PublicKeyHash (ex_key Change 0); PublicKeyHash (ex_key ReceiveFunds 0)]; NextUnused ReceiveFunds]] =
      Some [(Seen [PublicKeyHash (ex_key Change 0); PublicKeyHash (ex_key ReceiveFunds 0)], Found true); (NextUnused ReceiveFunds, Address ReceiveFunds 0 (ex_key ReceiveFunds 0))]) as E by (vm_compute; reflexivity).
    unfold ex_answers in E. unfold history. destruct (new_account ex_key ex_hash 20) as [a0| |]; [|discriminate|discriminate].
    destruct (run ex_key ex_hash 20 _ a0) as [[a tr]| |] eqn:R; [|discriminate|discriminate]. injection E as ->. exists a, a0. done. }
  refine (T 20 _ a [_] ReceiveFunds ReceiveFunds 0 (ex_key ReceiveFunds 0) [] _ ltac:(lia) Ha ltac:(constructor) _).
  by right; left.
Qed.

Example C82_example :
  (* five keys ahead: an output to key 3 is noticed, and key 8 is recognised from then on; key 9 is not *)
  ex_mine 5 [Committed [Seen (ex_pay ReceiveFunds 3)]] [PublicKeyHash (ex_key ReceiveFunds 8); PublicKeyHash (ex_key ReceiveFunds 9); PublicKey (ex_key Change 4); PublicKey (ex_key Change 5)]
    = Some [true; false; true; false] ∧
  (* addresses are issued in order, after the one paid to, up to the lookahead; a failed operation issues none *)
  ex_answers 2 [Committed [Issue ReceiveFunds; NextUnused ReceiveFunds; Issue ReceiveFunds; Issue ReceiveFunds]; Aborted [Seen (ex_pay ReceiveFunds 1); Issue ReceiveFunds]; Reopened;
                Committed [Issue ReceiveFunds; Seen (ex_pay ReceiveFunds 1); NextUnused ReceiveFunds; Issue ReceiveFunds; NextUnused Change]] =
    Some [(Issue ReceiveFunds, Address ReceiveFunds 0 0); (NextUnused ReceiveFunds, Address ReceiveFunds 0 0); (Issue ReceiveFunds, Address ReceiveFunds 1 2); (Issue ReceiveFunds, Refused LookAheadExceeded);
          (Issue ReceiveFunds, Refused LookAheadExceeded); (Seen (ex_pay ReceiveFunds 1), Found true); (NextUnused ReceiveFunds, Address ReceiveFunds 2 4); (Issue ReceiveFunds, Address ReceiveFunds 3 6); (NextUnused Change, Address Change 0 1)] ∧
  distinct_addresses ex_key ex_hash.
Proof. split; [vm_compute; reflexivity|]. split; [vm_compute; reflexivity|]. exact ex_distinct. Qed.

Print Assumptions C82_always_answers.
Print Assumptions C82_addresses_stay_recognised.
Print Assumptions C82_issued_addresses_are_new.
Print Assumptions C82_unused_addresses_are_unused.
Print Assumptions C82_failures_change_nothing.
Print Assumptions C82_lookahead.
Print Assumptions C82_payments_noticed.
Print Assumptions C82_restored.
Print Assumptions C82_restored_with_larger_lookahead.
Print Assumptions C82_restored_in_another_order_refuted.
Print Assumptions C82_payments_noticed_refuted.
Print Assumptions C82_unused_address_after_two_destinations_refuted.
