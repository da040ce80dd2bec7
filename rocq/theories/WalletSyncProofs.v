(** Proofs about the synchronisation of a wallet. *)
From Verif Require Import Base WalletSyncModel WalletSyncSpec.

Lemma sbind_inv {S E A C} (m : S * res E A) (k : S -> A -> S * res E C) s' r :
  sbind m k = (s', r) ->
  (∃ s a, m = (s, Ok a) ∧ k s a = (s', r)) ∨ (∃ e, m = (s', Err e) ∧ r = Err e) ∨ (m = (s', Panic) ∧ r = Panic).
Proof. destruct m as [s [a|e|]]; simpl; intros Heq; simplify_eq; eauto 10. Qed.

Section Chains.
  Context {B : Type} (bid prev : B -> N) (genesis : N).
  Notation chain := (list B).
  Notation tip := (tip bid genesis).
  Notation linked := (linked bid prev genesis).
  Notation stands_on := (stands_on bid prev genesis).

  (** ** Chains *)
  Lemma linked_from_app id (p q : chain) :
    linked_from bid prev id (p ++ q) ↔ linked_from bid prev id p ∧ linked_from bid prev (match last p with Some b => bid b | None => id end) q.
  Proof.
    revert id; induction p as [|b p IH]; intros id; simpl; [tauto|].
    rewrite IH. destruct p as [|b' p]; [simpl; tauto|].
    change (last (b :: b' :: p)) with (last (b' :: p)).
    destruct (last (b' :: p)) as [x|] eqn:El; [tauto|]. by apply last_None in El.
  Qed.
  Lemma linked_app (p q : chain) : linked (p ++ q) ↔ linked p ∧ linked_from bid prev (tip p) q.
  Proof. apply linked_from_app. Qed.
  Lemma linked_prefix (p c : chain) : p `prefix_of` c -> linked c -> linked p.
  Proof. intros [q ->] [Hp _]%linked_app. done. Qed.
  Lemma linked_take h (c : chain) : linked c -> linked (take h c).
  Proof. apply linked_prefix. exists (drop h c). by rewrite take_drop. Qed.
  Lemma tip_snoc (p : chain) b : tip (p ++ [b]) = bid b.
  Proof. unfold WalletSyncModel.tip. by rewrite last_snoc. Qed.

  Lemma chain_unique (Hn : no_collisions bid genesis) (p q : chain) : linked p -> linked q -> tip p = tip q -> p = q.
  Proof.
    destruct Hn as [Hinj Hgen].
    revert q; induction p as [|b p IH] using rev_ind; intros q Hp Hq Ht; destruct q as [|b' q _] using rev_ind.
    - done.
    - rewrite tip_snoc in Ht. by destruct (Hgen b').
    - rewrite tip_snoc in Ht. by destruct (Hgen b).
    - rewrite !tip_snoc in Ht. apply Hinj in Ht as ->.
      apply linked_app in Hp as [Hp [Hpb _]]. apply linked_app in Hq as [Hq [Hqb _]].
      rewrite (IH q); [done|done|done|congruence].
  Qed.
  Lemma stands_unique (Hn : no_collisions bid genesis) a c c' : stands_on a c -> stands_on a c' -> c = c'.
  Proof. intros (Hc & Hb & _) (Hc' & Hb' & _). apply chain_unique; [done..|]. congruence. Qed.

  (** ** The node *)
  Lemma prefix_to_spec id (c p : chain) : prefix_to bid id c = Some p -> p `prefix_of` c ∧ ∃ b, last p = Some b ∧ bid b = id.
  Proof.
    revert p; induction c as [|b c IH]; intros p; simpl; [done|].
    destruct (N.eqb_spec (bid b) id) as [<-|Hne].
    - intros [= <-]. split; [|by exists b]. apply (prefix_app_r [b] [b] c). done.
    - destruct (prefix_to bid id c) as [p'|]; simpl; [|done]. intros [= <-].
      destruct (IH p') as (Hp & x & Hx & Hid); [done|]. split; [by apply prefix_cons|].
      exists x. split; [|done]. destruct p'; done.
  Qed.
  Lemma prefix_to_complete (Hn : no_collisions bid genesis) (c p : chain) : linked c -> p `prefix_of` c -> p ≠ [] -> prefix_to bid (tip p) c = Some p.
  Proof.
    intros Hc Hp Hne. destruct (prefix_to bid (tip p) c) as [p'|] eqn:E.
    - apply prefix_to_spec in E as (Hp' & b & Hl & Hid). f_equal. apply (chain_unique Hn).
      + by eapply linked_prefix.
      + by eapply linked_prefix.
      + unfold WalletSyncModel.tip at 1. by rewrite Hl.
    - exfalso. destruct Hp as [q ->]. destruct p as [|b p _] using rev_ind; [done|].
      rewrite tip_snoc in E. revert E. rewrite <- app_assoc. change ([b] ++ q) with (b :: q). clear.
      induction p as [|x p IH]; simpl.
      + by rewrite N.eqb_refl.
      + destruct (bid x =? bid b)%N; [done|]. intros E. destruct (prefix_to bid (bid b) (p ++ b :: q)); [done|]. by apply IH.
  Qed.
  Lemma known_chain_spec id n p : good_node bid prev genesis n -> known_chain bid genesis id n = Some p -> linked p ∧ tip p = id.
  Proof.
    intros [Hm Ho]. unfold known_chain. destruct (N.eqb_spec id genesis) as [->|Hne].
    { intros [= <-]. done. }
    assert (∀ cs, (∀ c, c ∈ cs -> linked c) ->
      foldr (fun c o => match prefix_to bid id c with Some p => Some p | None => o end) None cs = Some p -> linked p ∧ tip p = id) as Hg.
    { induction cs as [|c cs IH]; simpl; intros Hcs; [done|]. destruct (prefix_to bid id c) as [p'|] eqn:E.
      - intros [= ->]. apply prefix_to_spec in E as (Hp & b & Hl & Hid). split.
        + eapply linked_prefix; [exact Hp|]. apply Hcs. constructor.
        + unfold WalletSyncModel.tip. by rewrite Hl.
      - apply IH. intros c' Hc'. apply Hcs. by constructor. }
    apply (Hg (main n :: others n)). intros c Hc. apply elem_of_cons in Hc as [->|Hc]; auto.
  Qed.
  Lemma known_chain_main (Hn : no_collisions bid genesis) n p : good_node bid prev genesis n -> p `prefix_of` main n -> known_chain bid genesis (tip p) n = Some p.
  Proof.
    intros [Hm Ho] Hp. unfold known_chain. destruct p as [|b p _] using rev_ind.
    { by rewrite N.eqb_refl. }
    destruct (N.eqb_spec (tip (p ++ [b])) genesis) as [Heq|_].
    { rewrite tip_snoc in Heq. by destruct (proj2 Hn b). }
    simpl. rewrite prefix_to_complete; [done|done|done|done|]. by destruct p.
  Qed.
  Lemma in_lockstep_spec h (p q : chain) : (in_lockstep bid genesis h p q <= h)%nat ∧ tip (take (in_lockstep bid genesis h p q) p) = tip (take (in_lockstep bid genesis h p q) q).
  Proof.
    induction h as [|h [IH1 IH2]]; cbn [in_lockstep].
    { destruct (N.eqb_spec (tip (take 0 p)) (tip (take 0 q))); auto. }
    destruct (N.eqb_spec (tip (take (S h) p)) (tip (take (S h) q))); auto with lia.
  Qed.
  Lemma common_height_spec (Hn : no_collisions bid genesis) (p q : chain) :
    linked p -> linked q ->
    (common_height bid genesis p q <= length p)%nat ∧ (common_height bid genesis p q <= length q)%nat ∧
    take (common_height bid genesis p q) p = take (common_height bid genesis p q) q.
  Proof.
    intros Hp Hq. unfold common_height. destruct (in_lockstep_spec (Nat.min (length p) (length q)) p q) as [H1 H2].
    split; [lia|]. split; [lia|]. apply (chain_unique Hn); [by apply linked_take..|done].
  Qed.
  Lemma common_height_prefix (p q : chain) : p `prefix_of` q -> common_height bid genesis p q = length p.
  Proof.
    intros [r ->]. unfold common_height. rewrite app_length. rewrite Nat.min_l by lia.
    destruct (length p) eqn:E; cbn [in_lockstep]; rewrite <- E, take_app, firstn_all, N.eqb_refl; done.
  Qed.
End Chains.

(** ** Records *)
Section Records.
  Context {B : Type} (concerns : nat -> list (nat * B) -> B -> bool).
  Notation chain := (list B).
  Lemma concerning_app i h r (p q : chain) : concerning concerns i h r (p ++ q) = concerning concerns i (h + length p) (concerning concerns i h r p) q.
  Proof.
    revert h r; induction p as [|b p IH]; intros h r; simpl; [by rewrite Nat.add_0_r|].
    rewrite IH. f_equal. lia.
  Qed.
  Lemma concerning_more i h r (c : chain) :
    ∃ e, concerning concerns i h r c = r ++ e ∧ ∀ x, x ∈ e -> ∃ k, x.1 = (h + k)%nat ∧ c !! k = Some x.2.
  Proof.
    revert h r; induction c as [|b c IH]; intros h r; simpl.
    { exists []. rewrite app_nil_r. split; [done|]. intros x Hx. by apply elem_of_nil in Hx. }
    destruct (IH (S h) (if concerns i r b then r ++ [(h, b)] else r)) as (e & -> & He).
    exists (if concerns i r b then (h, b) :: e else e). split.
    - destruct (concerns i r b); [by rewrite <- app_assoc|done].
    - intros x Hx. assert (x = (h, b) ∨ x ∈ e) as [->|Hx'].
      { destruct (concerns i r b); [by apply elem_of_cons|by right]. }
      + exists O. simpl. split; [lia|done].
      + destruct (He x Hx') as (k & Hk & Hl). exists (S k). split; [lia|done].
  Qed.
  Lemma all_concerning_on i (c : chain) h b : (h, b) ∈ all_concerning concerns i c -> ∃ k, h = S k ∧ c !! k = Some b.
  Proof.
    unfold all_concerning. destruct (concerning_more i 1 [] c) as (e & -> & He). simpl. intros Hx.
    destruct (He _ Hx) as (k & Hk & Hl). simpl in *. eauto.
  Qed.
  Lemma reset_none h (r : list (nat * B)) : (∀ x, x ∈ r -> (x.1 <= h)%nat) -> reset_to_height h r = r.
  Proof.
    unfold reset_to_height. induction r as [|x r IH]; intros Hr; [done|]. rewrite filter_cons_True.
    - rewrite IH; [done|]. intros y Hy. apply Hr. by constructor.
    - apply Hr. constructor.
  Qed.
  Lemma reset_concerning i (p c : chain) : p `prefix_of` c -> reset_to_height (length p) (all_concerning concerns i c) = all_concerning concerns i p.
  Proof.
    intros [q ->]. unfold all_concerning. rewrite concerning_app.
    destruct (concerning_more i (1 + length p) (concerning concerns i 1 [] p) q) as (e & -> & He).
    unfold reset_to_height. rewrite filter_app.
    replace (filter (fun x : nat * B => (x.1 <= length p)%nat) e) with (@nil (nat * B)).
    - rewrite app_nil_r. apply reset_none. intros [h b] Hx. apply all_concerning_on in Hx as (k & -> & Hk).
      apply lookup_lt_Some in Hk. simpl. lia.
    - symmetry. destruct (filter _ e) as [|x l] eqn:E; [done|].
      assert (x ∈ filter (fun x : nat * B => (x.1 <= length p)%nat) e) as Hx by (rewrite E; constructor).
      apply elem_of_list_filter in Hx as [Hle Hx]. destruct (He x Hx) as (k & Hk & _). lia.
  Qed.
  Lemma concerning_prefix_nil i (p c : chain) : p `prefix_of` c -> all_concerning concerns i c = [] -> all_concerning concerns i p = [].
  Proof. intros Hp Hc. rewrite <- (reset_concerning i p c Hp), Hc. done. Qed.
  Lemma take_in_spec i h r (bs : list B) :
    (take_in concerns i h r bs).1 = concerning concerns i h r bs ∧ ((take_in concerns i h r bs).2 = false -> concerning concerns i h r bs = r) ∧
    ((take_in concerns i h r bs).2 = true -> concerning concerns i h r bs ≠ []).
  Proof.
    revert h r; induction bs as [|b bs IH]; intros h r; simpl; [done|].
    destruct (concerns i r b) eqn:E; simpl.
    - destruct (IH (S h) (r ++ [(h, b)])) as (H1 & _ & _). split; [done|]. split; [done|]. intros _.
      destruct (concerning_more i (S h) (r ++ [(h, b)]) bs) as (e & -> & _). by destruct r.
    - apply IH.
  Qed.

End Records.

Section Accounts.
  Context {B : Type} (bid prev : B -> N) (genesis : N) (concerns : nat -> list (nat * B) -> B -> bool).
  Notation chain := (list B).
  Notation tip := (tip bid genesis).
  Notation linked := (linked bid prev genesis).
  Notation stands_on := (stands_on bid prev genesis).
  Notation follows := (follows bid prev genesis concerns).

  Lemma tip_app (p bs : chain) b : last bs = Some b -> tip (p ++ bs) = bid b.
  Proof. intros Hl. unfold WalletSyncModel.tip. by rewrite last_app, Hl. Qed.

  (** The records that are left when the account goes back to [p] *)
  Definition kept (p : chain) (a : @account B) : list (nat * B) :=
    if (length p <? (best a).2)%nat then reset_to_height (length p) (records a) else records a.
  Lemma kept_is_reset (p : chain) a c : stands_on a c -> p `prefix_of` c -> kept p a = reset_to_height (length p) (records a).
  Proof.
    intros (Hc & Hb & Hr) Hp. unfold kept. rewrite Hb. simpl. destruct (Nat.ltb_spec (length p) (length c)) as [_|Hge]; [done|].
    symmetry. apply reset_none. intros [h b] Hx. apply Hr in Hx as (k & -> & Hk). apply lookup_lt_Some in Hk. simpl.
    apply prefix_length in Hp. lia.
  Qed.
  Lemma account_scan_spec i (p bs : chain) a c :
    stands_on a c -> p `prefix_of` c -> linked (p ++ bs) -> bs ≠ [] ->
    ∃ a' added, account_scan bid concerns i (length p) bs a = Ok (a', added) ∧ stands_on a' (p ++ bs) ∧
      records a' = concerning concerns i (S (length p)) (kept p a) bs ∧ (added = false -> records a' = kept p a) ∧ (added = true -> records a' ≠ []).
  Proof.
    intros Hs Hp Hl Hne. pose proof (kept_is_reset p a c Hs Hp) as Hk. destruct Hs as (Hc & Hb & Hr).
    unfold account_scan. destruct (last bs) as [b|] eqn:El; [|by apply last_None in El].
    rewrite Hb. simpl. pose proof (prefix_length _ _ Hp) as Hlen. rewrite (proj2 (Nat.leb_le _ _) Hlen).
    unfold kept in *. rewrite Hb in *. simpl in *. set (r := if (length p <? length c)%nat then _ else _) in *.
    destruct (take_in_spec concerns i (S (length p)) r bs) as (H1 & H2 & H3).
    eexists _, _. split; [reflexivity|]. simpl. rewrite H1.
    split; [|split; [done|split; done]].
    split; [done|]. split; [simpl; by rewrite (tip_app _ _ _ El), app_length|].
    simpl. intros h x Hx. destruct (concerning_more concerns i (S (length p)) r bs) as (e & He & Hex). rewrite He in Hx.
    apply elem_of_app in Hx as [Hx|Hx].
    - rewrite Hk in Hx. apply elem_of_list_filter in Hx as [Hle Hx]. simpl in Hle. apply Hr in Hx as (k & -> & Hkk).
      exists k. split; [done|]. rewrite lookup_app_l by lia. destruct Hp as [q ->]. rewrite lookup_app_l in Hkk by lia. done.
    - destruct (Hex _ Hx) as (k & Hkk & Hlk). simpl in *. exists (length p + k)%nat. split; [lia|].
      rewrite lookup_app_r by lia. rewrite <- Hlk. f_equal. lia.
  Qed.
  Lemma account_scan_follows i (p bs : chain) a c a' added :
    follows i a c -> p `prefix_of` c -> linked (p ++ bs) -> bs ≠ [] ->
    account_scan bid concerns i (length p) bs a = Ok (a', added) -> follows i a' (p ++ bs).
  Proof.
    intros [Hs Hr] Hp Hl Hne Hscan. destruct (account_scan_spec i p bs a c) as (a1 & d1 & H1 & H2 & H3 & _); [done..|].
    rewrite Hscan in H1. simplify_eq. split; [done|]. rewrite H3. rewrite (kept_is_reset p a c) by done. rewrite Hr, reset_concerning by done.
    unfold all_concerning. by rewrite concerning_app.
  Qed.
End Accounts.
