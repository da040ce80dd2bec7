(** What is shown for an address, from the ledger. *)
From Coq Require Import Zify ZifyN ZifyBool.
From Verif Require Import Base ScannerModel ScannerSpec ScannerTables ScannerLedger ScannerSteps ScannerProofs ScannerChain ScannerProgress.
Local Open Scope N_scope.

Lemma history_scan g c d : Forall proper_reward (genesis_outs g) -> NoDup (map place (made_on g [])) -> history g c d -> valid_chain g c ∧ scan_chain g c = Ok d.
Proof.
  intros G1 G2. induction 1 as [d H|c d k bs d' H [IH1 IH2] Hk V Hd].
  - assert (V : valid_chain g []). { split; try done. intros c1 b c2 E. by destruct c1. }
    split; [done|]. unfold scan_chain. rewrite H. cbn [rbind]. destruct (genesis_step g d G2 G1 H) as (w & CI). unfold scan_blocks. cbn. f_equal. exact (disconnect_id g [] w d CI).
  - split; [done|]. assert (E : c = take k c ++ drop k c) by (by rewrite take_drop). assert (Ek : N.of_nat k = height (take k c)). { unfold height. rewrite take_length. lia. }
    rewrite Ek, (reorganised g (take k c) (drop k c)) in Hd; [done| |]; by rewrite <- E.
Qed.
Lemma history_inv g c d : Forall proper_reward (genesis_outs g) -> NoDup (map place (made_on g [])) -> history g c d -> ∃ w, chain_inv g c w d.
Proof. intros G1 G2 H. destruct (history_scan g c d G1 G2 H) as [V E]. by eapply scan_chain_inv. Qed.

Section Shown.
  Context (g : genesis) (c : list block) (w : ledger) (d : db) (CI : chain_inv g c w d).
  Notation open e := (is_open (height c) (median_at g c) e).
  Lemma spent_iff o : o ∈ spent_ w ↔ o ∈ spent_on c.
  Proof using CI. destruct CI as (_ & _ & _ & _ & -> & _). by rewrite elem_of_list_to_set. Qed.
  Lemma spent_bool e : bool_decide (place e ∉ spent_ w) = bool_decide (place e ∉ spent_on c).
  Proof using CI. apply bool_decide_ext. by rewrite spent_iff. Qed.
  Lemma open_bool e : e ∈ made_on g c -> bool_decide (place e ∈ open_ w) = is_reward e || open e.
  Proof using CI.
    destruct CI as (_ & _ & O & M & _). intros He. rewrite <- M in He. destruct (is_reward e || open e) eqn:E.
    - apply bool_decide_eq_true. by apply O.
    - apply bool_decide_eq_false. rewrite (O e He), E. done.
  Qed.
  (** A locked output is not spent *)
  Lemma locked_unspent e : e ∈ made_on g c -> is_reward e = false -> open e = false -> place e ∉ spent_on c.
  Proof using CI.
    intros He Hr Hop Hs. pose proof (open_bool e He) as B. rewrite Hr, Hop in B. apply bool_decide_eq_false in B. apply B. destruct CI as (I & _). apply (i_spent _ _ I). by apply spent_iff.
  Qed.
  Lemma shown_balance a k : default 0 (get_address_balance a k d) = funds g c a k + excess g c a k.
  Proof using CI.
    pose proof CI as (I & _ & _ & M & _). rewrite (i_bal _ _ I), M. apply total_split. intros e He. unfold shown, counted. rewrite (open_bool e He), spent_bool.
    destruct (is_reward e), (open e), (bool_decide (place e ∉ spent_on c)); cbn; lia.
  Qed.
  Lemma shown_locked a k : default 0 (get_address_locked_balance a k d) + locked_rewards g c a k = locked_funds g c a k.
  Proof using CI.
    pose proof CI as (I & _ & _ & M & _). rewrite (i_lock _ _ I), M. symmetry. apply total_split. intros e He. unfold held. rewrite (open_bool e He).
    destruct (is_reward e) eqn:Er; [cbn; destruct (_ && _); lia|]. cbn. destruct (open e) eqn:Eo; cbn; [rewrite andb_false_r; lia|].
    rewrite bool_decide_eq_true_2; [cbn; lia|]. by apply locked_unspent.
  Qed.

  Lemma fold_available a l : (∀ p, p ∈ l -> p ∈ utxo_of d) -> NoDup l ->
    ∃ r, foldr (fun (p : N * outpoint) r => let? l := r in
      if p.1 =? a then let? u := expect (get_utxo p.2 d) in Ok (match u.2 with None => (p.2, u.1) :: l | Some _ => l end) else Ok l) (Ok (E := unit) []) l = Ok r ∧
      NoDup (map fst r) ∧ ∀ o out, (o, out) ∈ r ↔ (a, o) ∈ l ∧ get_utxo o d = Some (out, None).
  Proof using CI.
    pose proof CI as (I & _). induction l as [|[a' o'] l IH]; intros Hl ND.
    - exists []. split_and!; [done|constructor|]. intros o out. rewrite !elem_of_nil. tauto.
    - apply NoDup_cons in ND as [Hn ND]. destruct IH as (r & Er & Nr & Hr); [intros p Hp; apply Hl; by right|done|]. cbn [foldr]. rewrite Er. cbn [rbind fst snd].
      destruct (N.eqb_spec a' a) as [->|Ha].
      + destruct (proj1 (i_of _ _ I a o') (Hl (a, o') (elem_of_list_here _ _))) as (e & He & <- & Ho & Hown).
        destruct (i_utxo2 _ _ I e He Ho (owners_spendable _ _ Hown)) as [[out' s'] Eu]. rewrite Eu. cbn [expect rbind fst snd]. destruct s' as [h'|].
        * exists r. split_and!; try done. intros o out. rewrite Hr, elem_of_cons. split; [naive_solver|]. intros [[Q|Q] E']; [|done]. injection Q as ->. congruence.
        * exists ((place e, out') :: r). split_and!; [done| |].
          { cbn. apply NoDup_cons. split; [|done]. intros Q. apply elem_of_list_fmap in Q as ([o out] & Q & Hin). cbn in Q. subst o. apply Hr in Hin as [Hin _]. done. }
          intros o out. rewrite !elem_of_cons, Hr. split.
          -- intros [[= -> ->]|]; [|naive_solver]. split; [by left|done].
          -- intros [[Q|Q] E']; [|by right]. injection Q as ->. left. congruence.
      + exists r. split_and!; try done. intros o out. rewrite Hr, elem_of_cons. naive_solver.
  Qed.
  Lemma available a : ∃ l, get_address_available_utxos a d = Ok l ∧ NoDup (map fst l) ∧ ∀ o out, (o, out) ∈ l ↔
    ∃ e, e ∈ made_on g c ∧ place e = o ∧ what e = out ∧ o ∉ spent_on c ∧ (is_reward e || open e = true) ∧ a ∈ owners out.
  Proof using CI.
    pose proof CI as (I & _ & O & M & _). destruct (fold_available a (elements (utxo_of d))) as (l & El & Nl & Hl).
    { intros p. by rewrite elem_of_elements. } { apply NoDup_elements. }
    exists l. split_and!; try done. intros o out. rewrite Hl, elem_of_elements. split.
    - intros [Ho Eu]. destruct (i_utxo _ _ I _ _ Eu) as (e & He & Hp & Hw & Hop & Hs & _). cbn in Hw, Hs. exists e. rewrite <- M. split_and!; try done.
      + rewrite <- spent_iff. by apply Hs.
      + apply (O e He). by rewrite Hp.
      + apply (i_of _ _ I) in Ho as (e' & He' & Hp' & _ & Ha). rewrite Hw. by rewrite <- (place_inj _ _ _ (i_nodup _ _ I) He' He ltac:(congruence)).
    - intros (e & He & <- & <- & Hs & Hop & Ha). rewrite <- M in He. apply (O e He) in Hop. split.
      + apply (i_of _ _ I). by exists e.
      + destruct (i_utxo2 _ _ I e He Hop (owners_spendable _ _ Ha)) as [[out s] Eu]. destruct (i_utxo _ _ I _ _ Eu) as (e' & He' & Hp & Hw & _ & Hs' & _). cbn in Hw, Hs'.
        rewrite (place_inj _ _ _ (i_nodup _ _ I) He' He Hp) in Hw. subst out. rewrite Eu. f_equal. f_equal. apply Hs'. by rewrite spent_iff.
  Qed.

  Lemma fold_all a l : (∀ p, p ∈ l -> p ∈ utxo_of d ∪ locked_utxo_of d) -> NoDup l ->
    ∃ r, foldr (fun (p : N * outpoint) r => let? l := r in
      if p.1 =? a then match get_utxo p.2 d with
      | Some u => Ok (match u.2 with None => (p.2, u.1) :: l | Some _ => l end)
      | None => let? u := expect (latest p.2 (locked_utxo d)) in Ok ((p.2, u.1) :: l) end else Ok l) (Ok (E := unit) []) l = Ok r ∧
      NoDup (map fst r) ∧ ∀ o out, (o, out) ∈ r ↔ (a, o) ∈ l ∧ (get_utxo o d = Some (out, None) ∨ get_utxo o d = None ∧ fst <$> latest o (locked_utxo d) = Some out).
  Proof using CI.
    pose proof CI as (I & _). induction l as [|[a' o'] l IH]; intros Hl ND.
    - exists []. split_and!; [done|constructor|]. intros o out. rewrite !elem_of_nil. tauto.
    - apply NoDup_cons in ND as [Hn ND]. destruct IH as (r & Er & Nr & Hr); [intros p Hp; apply Hl; by right|done|]. cbn [foldr]. rewrite Er. cbn [rbind fst snd].
      destruct (N.eqb_spec a' a) as [->|Ha].
      + assert (New : ∀ out', ((get_utxo o' d = Some (out', None) ∨ get_utxo o' d = None ∧ fst <$> latest o' (locked_utxo d) = Some out')) ->
          NoDup (map fst ((o', out') :: r)) ∧ ∀ o out, (o, out) ∈ (o', out') :: r ↔ (a, o) ∈ (a, o') :: l ∧ (get_utxo o d = Some (out, None) ∨ get_utxo o d = None ∧ fst <$> latest o (locked_utxo d) = Some out)).
        { intros out' HE. split.
          { cbn. apply NoDup_cons. split; [|done]. intros Q. apply elem_of_list_fmap in Q as ([o out] & Q & Hin). cbn in Q. subst o. apply Hr in Hin as [Hin _]. done. }
          intros o out. rewrite !elem_of_cons, Hr. split.
          - intros [[= -> ->]|[Hin He]]; [split; [by left|done]|split; [by right|done]].
          - intros [[Q|Q] E']; [|by right]. injection Q as ->. left. f_equal. destruct HE as [HE|[HE1 HE2]], E' as [E'|[E1 E2]]; congruence. }
        destruct (get_utxo o' d) as [[out' s']|] eqn:Eu.
        * cbn [fst snd]. destruct s' as [h'|].
          { exists r. split_and!; try done. intros o out. rewrite Hr, elem_of_cons. split; [naive_solver|]. intros [[Q|Q] E']; [|done]. injection Q as ->. destruct E' as [E'|[E' _]]; congruence. }
          exists ((o', out') :: r). split; [done|]. apply New. by left.
        * assert (∃ x, latest o' (locked_utxo d) = Some x) as [x Ex].
          { pose proof (Hl (a, o') (elem_of_list_here _ _)) as Q. apply elem_of_union in Q as [Q|Q].
            - apply (i_of _ _ I) in Q as (e & He & <- & Ho & Hown). destruct (i_utxo2 _ _ I e He Ho (owners_spendable _ _ Hown)) as [u Q]. congruence.
            - apply (i_luof _ _ I) in Q as (e & He & <- & Hk & Hown). destruct (i_kind _ _ I e He Hk) as [[u Hu] _]. exists (what e, u). apply (i_lu _ _ I). by exists e. }
          rewrite Ex. cbn [expect rbind]. exists ((o', x.1) :: r). split; [done|]. apply New. right. by rewrite Ex.
      + exists r. split_and!; try done. intros o out. rewrite Hr, elem_of_cons. naive_solver.
  Qed.
  Lemma all_listed a : ∃ l, get_address_all_utxos a d = Ok l ∧ NoDup (map fst l) ∧ ∀ o out, (o, out) ∈ l ↔
    ∃ e, e ∈ made_on g c ∧ place e = o ∧ what e = out ∧ o ∉ spent_on c ∧ a ∈ owners out.
  Proof using CI.
    pose proof CI as (I & _ & O & M & _). destruct (fold_all a (elements (utxo_of d ∪ locked_utxo_of d))) as (l & El & Nl & Hl).
    { intros p. by rewrite elem_of_elements. } { apply NoDup_elements. }
    exists l. split_and!; try done. intros o out. rewrite Hl, elem_of_elements, elem_of_union. split.
    - intros [Ho Eu].
      assert (∃ e, e ∈ made_ w ∧ place e = o ∧ a ∈ owners (what e)) as (e & He & Hp & Ha).
      { destruct Ho as [Ho|Ho]; [apply (i_of _ _ I) in Ho as (e & He & Hp & _ & Ha)|apply (i_luof _ _ I) in Ho as (e & He & Hp & _ & Ha)]; by exists e. }
      exists e. rewrite <- M. destruct Eu as [Eu|[Eu1 Eu2]].
      + destruct (i_utxo _ _ I _ _ Eu) as (e' & He' & Hp' & Hw & Hop & Hs & _). cbn in Hw, Hs. rewrite (place_inj _ _ _ (i_nodup _ _ I) He' He ltac:(congruence)) in Hw.
        split_and!; try done; [rewrite <- spent_iff; by apply Hs|by rewrite Hw].
      + destruct (latest o (locked_utxo d)) as [x|] eqn:Ex; [|done]. cbn in Eu2. injection Eu2 as <-. apply (i_lu _ _ I) in Ex as (e' & He' & Hp' & Hk & Hw & Hu).
        rewrite (place_inj _ _ _ (i_nodup _ _ I) He' He ltac:(congruence)) in *. split_and!; try done; [|by rewrite Hw].
        rewrite <- spent_iff. intros Hs. apply (i_spent _ _ I) in Hs. rewrite <- Hp in Hs. destruct (i_utxo2 _ _ I e He Hs (owners_spendable _ _ Ha)) as [u Q]. congruence.
    - intros (e & He & <- & <- & Hs & Ha). rewrite <- M in He. destruct (decide (place e ∈ open_ w)) as [Hop|Hop].
      + split; [left; apply (i_of _ _ I); by exists e|]. left. destruct (i_utxo2 _ _ I e He Hop (owners_spendable _ _ Ha)) as [[out s] Eu].
        destruct (i_utxo _ _ I _ _ Eu) as (e' & He' & Hp & Hw & _ & Hs' & _). cbn in Hw, Hs'. rewrite (place_inj _ _ _ (i_nodup _ _ I) He' He Hp) in Hw. subst out. rewrite Eu. f_equal. f_equal.
        apply Hs'. by rewrite spent_iff.
      + pose proof (i_kept _ _ I e He Hop) as Hk. split; [right; apply (i_luof _ _ I); by exists e|]. right. split.
        * destruct (get_utxo (place e) d) eqn:Eu; [|done]. destruct (i_utxo _ _ I _ _ Eu) as (_ & _ & _ & _ & Q & _). done.
        * destruct (i_kind _ _ I e He Hk) as [[u Hu] _]. assert (latest (place e) (locked_utxo d) = Some (what e, u)) as ->; [|done]. apply (i_lu _ _ I). by exists e.
  Qed.
End Shown.
