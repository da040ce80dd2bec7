(** Proofs about the rolling filter. *)
From Verif Require Import Base BloomModel BloomSpec.

Section BloomProofs.
  Context {T Seed : Type} (positions : Seed -> T -> list nat).
  Local Notation insert := (rolling_insert positions).
  Local Notation contains := (rolling_contains positions).

  (** The filter has been given these items *)
  Definition holds (f : filter Seed) (l : list T) : Prop := forall p, p ∈ f_bits f <-> exists x, x ∈ l /\ p ∈ positions (f_seed f) x.
  Lemma holds_nil s : holds {| f_seed := s; f_bits := [] |} [].
  Proof. intros p. cbn. split; [by intros ?%elem_of_nil|intros (x & H & _); by apply elem_of_nil in H]. Qed.
  Lemma holds_snoc f l x : holds f l -> holds (filter_insert positions f x) (l ++ [x]).
  Proof.
    intros H p. cbn. rewrite elem_of_app, (H p). split.
    - intros [P|(y & Y & P)]; [exists x|exists y]; (split; [|done]); apply elem_of_app; [right; by left|by left].
    - intros (y & [Y|Y%elem_of_list_singleton]%elem_of_app & P); [right; by exists y|left; by subst].
  Qed.
  Lemma contains_iff f x : filter_contains positions f x = true <-> forall p, p ∈ positions (f_seed f) x -> p ∈ f_bits f.
  Proof.
    unfold filter_contains. rewrite forallb_forall. split; intros H p P.
    - apply elem_of_list_In in P. apply H in P. apply existsb_exists in P as (q & Q & E). apply Nat.eqb_eq in E as ->. by apply elem_of_list_In.
    - apply existsb_exists. exists p. split; [|apply Nat.eqb_refl]. apply elem_of_list_In, H, elem_of_list_In, P.
  Qed.
  Lemma holds_contains f l x : holds f l -> x ∈ l -> filter_contains positions f x = true.
  Proof. intros H X. apply contains_iff. intros p P. apply H. by exists x. Qed.

  (** Three filters in a circle, the one after the current one the oldest *)
  Definition circle (i : nat) (fa fb fc : filter Seed) : list (filter Seed) :=
    match i with 0 => [fc; fa; fb] | 1 => [fb; fc; fa] | _ => [fa; fb; fc] end.
  Definition ok (size : nat) (seeds : list Seed) (r : rolling Seed) (h : list T) : Prop := exists fa fb fc old la lb lc,
    (r_index r < 3)%nat /\ r_list r = circle (r_index r) fa fb fc /\ holds fa la /\ holds fb lb /\ holds fc lc /\
    h = old ++ la ++ lb ++ lc /\ length lc = r_count r /\ (r_count r < r_max r)%nat /\ (length la <= r_max r)%nat /\ (length lb <= r_max r)%nat /\
    (length lb = r_max r \/ old ++ la = []) /\ (length la = r_max r \/ old = []) /\
    r_max r = Nat.max 1 ((size + 1) / 2) /\ f_seed fa ∈ seeds /\ f_seed fb ∈ seeds /\ f_seed fc ∈ seeds.

  Lemma new_ok size s0 s1 s2 : (0 < size)%nat -> exists r, rolling_new size s0 s1 s2 = Ok r /\ ok size [s0; s1; s2] r [].
  Proof.
    intros S. unfold rolling_new. rewrite (proj2 (Nat.ltb_lt 0 size) S). unfold filter_new.
    rewrite (proj2 (Nat.ltb_lt 0 (Nat.max 1 ((size + 1) / (SUBFILTER_COUNT - 1))))) by lia. cbn [rbind]. eexists. split; [reflexivity|].
    exists {| f_seed := s0; f_bits := [] |}, {| f_seed := s1; f_bits := [] |}, {| f_seed := s2; f_bits := [] |}, [], [], [], [].
    cbn [r_index r_list r_count r_max]. split_and!; try apply holds_nil; cbn; try lia; auto; set_solver.
  Qed.
  Lemma insert_ok size seeds r h x s : ok size seeds r h -> exists r', insert r x s = Ok r' /\ ok size (seeds ++ [s]) r' (h ++ [x]).
  Proof.
    intros (fa & fb & fc & old & la & lb & lc & I & L & HA & HB & HC & -> & C & CM & LA & LB & FB & FA & M & SA & SB & SC).
    unfold rolling_insert. rewrite (proj2 (Nat.ltb_lt _ _) CM). rewrite L.
    assert (circle (r_index r) fa fb fc !! r_index r = Some fc) as ->. { by destruct (r_index r) as [|[|[|n]]]; [..|lia]. }
    assert (<[r_index r := filter_insert positions fc x]> (circle (r_index r) fa fb fc) = circle (r_index r) fa fb (filter_insert positions fc x)) as ->.
    { by destruct (r_index r) as [|[|[|n]]]; [..|lia]. }
    apply (holds_snoc _ _ x) in HC. destruct (Nat.eqb_spec (r_count r + 1) (r_max r)) as [E|E].
    - unfold filter_new. rewrite (proj2 (Nat.ltb_lt 0 (r_max r))) by lia. cbn [rbind].
      assert ((r_index r + 1) mod SUBFILTER_COUNT < length (circle (r_index r) fa fb (filter_insert positions fc x)))%nat as I'.
      { destruct (r_index r) as [|[|[|n]]]; cbn; lia. }
      rewrite (proj2 (Nat.ltb_lt _ _) I'). eexists. split; [reflexivity|]. set (n := {| f_seed := s; f_bits := [] |}).
      exists fb, (filter_insert positions fc x), n, (old ++ la), lb, (lc ++ [x]), []. cbn [r_index r_list r_count r_max].
      split_and!; try done; try lia; try (apply elem_of_app; by left).
      + unfold SUBFILTER_COUNT. apply Nat.mod_upper_bound. lia.
      + by destruct (r_index r) as [|[|[|k]]]; [..|lia].
      + apply holds_nil.
      + by rewrite app_nil_r, <- !app_assoc.
      + rewrite app_length. cbn. lia.
      + left. rewrite app_length. cbn. lia.
      + apply elem_of_app. right. by left.
    - eexists. split; [reflexivity|]. exists fa, fb, (filter_insert positions fc x), old, la, lb, (lc ++ [x]). cbn [r_index r_list r_count r_max].
      split_and!; try done; try lia; try (apply elem_of_app; by left); [by rewrite <- !app_assoc|rewrite app_length; cbn; lia].
  Qed.
  Lemma fill_ok size items : forall seeds r h, ok size seeds r h ->
    exists r', rfold (fun r xs => insert r xs.1 xs.2) items r = Ok r' /\ ok size (seeds ++ map snd items) r' (h ++ map fst items).
  Proof.
    induction items as [|[x s] items IH]; intros seeds r h O; cbn [rfold map fst snd].
    - exists r. by rewrite !app_nil_r.
    - destruct (insert_ok size seeds r h x s O) as (r1 & -> & O1). destruct (IH _ r1 _ O1) as (r2 & -> & O2). exists r2. split; [done|]. by rewrite <- !app_assoc in O2.
  Qed.
  Lemma filled_ok size s0 s1 s2 items : (0 < size)%nat -> exists r, filled positions size s0 s1 s2 items = Ok r /\ ok size ([s0; s1; s2] ++ map snd items) r (map fst items).
  Proof.
    intros S. unfold filled. destruct (new_ok size s0 s1 s2 S) as (r & -> & O). cbn [rbind]. apply (fill_ok size items _ _ _ O).
  Qed.

  Lemma circle_contains i fa fb fc x r : r_list r = circle i fa fb fc ->
    contains r x = true <-> filter_contains positions fa x = true \/ filter_contains positions fb x = true \/ filter_contains positions fc x = true.
  Proof.
    unfold rolling_contains. intros ->. destruct i as [|[|i]]; cbn [circle existsb]; rewrite !orb_true_iff; intuition discriminate.
  Qed.
End BloomProofs.
