(** C101: the answers of the dns server. *)
From Verif Require Import Base DnsAnswerModel.

(** What a random choice of at most [n] elements may be *)
Definition sampler (pick : nat -> list N -> list N) : Prop :=
  forall n l, NoDup l -> NoDup (pick n l) /\ (forall x, x ∈ pick n l -> x ∈ l) /\ length (pick n l) = Nat.min n (length l).
(** How many of a list run the version [v] *)
Definition running (addrs : gmap N N) (v : N) (l : list N) : nat := length (filter (fun a => addrs !! a = Some v) l).
(** The addresses whose nodes run the version [v], and the others *)
Definition same_count (addrs : gmap N N) (v : N) : nat := size (filter (fun av : N * N => av.2 = v) addrs).
Definition other_count (addrs : gmap N N) (v : N) : nat := size (filter (fun av : N * N => av.2 <> v) addrs).

Lemma filter_none (P : N -> Prop) `{forall x, Decision (P x)} (l : list N) : (forall x, x ∈ l -> ~ P x) -> filter P l = [].
Proof. induction l as [|x l IH]; intros K; [done|]. rewrite filter_cons_False by (apply K; left). apply IH. intros y Y. apply K. by right. Qed.
Lemma filter_all (P : N -> Prop) `{forall x, Decision (P x)} (l : list N) : (forall x, x ∈ l -> P x) -> filter P l = l.
Proof. induction l as [|x l IH]; intros K; [done|]. rewrite filter_cons_True by (apply K; left). f_equal. apply IH. intros y Y. apply K. by right. Qed.
Lemma part_spec (addrs : gmap N N) (P : N * N -> Prop) `{forall x, Decision (P x)} :
  NoDup (filter P (map_to_list addrs)).*1 /\ (forall a, a ∈ (filter P (map_to_list addrs)).*1 <-> exists v, addrs !! a = Some v /\ P (a, v)) /\
  length (filter P (map_to_list addrs)).*1 = size (filter P addrs).
Proof.
  split_and!.
  - apply (NoDup_fmap_2_strong fst).
    + intros [a v] [b w] A B E. cbn in E. subst b. apply elem_of_list_filter in A as [_ A], B as [_ B]. apply elem_of_map_to_list in A, B. congruence.
    + apply NoDup_filter, NoDup_map_to_list.
  - intros a. rewrite elem_of_list_fmap. split.
    + intros ([b v] & -> & A). apply elem_of_list_filter in A as [A B]. apply elem_of_map_to_list in B. eauto.
    + intros (v & A & B). exists (a, v). split; [done|]. apply elem_of_list_filter. split; [done|]. by apply elem_of_map_to_list.
  - rewrite fmap_length. change (size (filter P addrs)) with (length (map_to_list (filter P addrs))). apply Permutation_length, NoDup_Permutation; [apply NoDup_filter, NoDup_map_to_list|apply NoDup_map_to_list|].
    intros [a v]. rewrite elem_of_list_filter, !elem_of_map_to_list, map_filter_lookup_Some. tauto.
Qed.
Lemma parts_size (addrs : gmap N N) (v : N) : size addrs = same_count addrs v + other_count addrs v.
Proof.
  unfold same_count, other_count. rewrite <- map_size_disj_union.
  - f_equal. symmetry. apply map_filter_union_complement.
  - apply map_disjoint_filter_complement.
Qed.

(** C101: an answer has as many addresses as may be in it, or all there are; each once, and only served ones. Of the preferred number of
    nodes of the own version there are as many as exist and fit, and more only when there are not enough others. *)
Theorem C101_answer (pick_same pick_other : nat -> list N -> list N) (addrs : gmap N N) (own_version : N) (count preferred : nat) :
  sampler pick_same -> sampler pick_other ->
  exists l, select_addresses pick_same pick_other addrs own_version count preferred = Some l /\
    NoDup l /\ (forall a, a ∈ l -> is_Some (addrs !! a)) /\ length l = Nat.min count (size addrs) /\
    Nat.min (Nat.min preferred count) (same_count addrs own_version) <= running addrs own_version l /\
    (count <= preferred + other_count addrs own_version -> running addrs own_version l <= preferred).
Proof.
  intros S1 S2. unfold select_addresses.
  destruct (part_spec addrs (fun av : N * N => av.2 = own_version)) as (D1 & E1 & L1), (part_spec addrs (fun av : N * N => av.2 <> own_version)) as (D2 & E2 & L2).
  fold (same_count addrs own_version) in L1. fold (other_count addrs own_version) in L2. pose proof (parts_size addrs own_version) as SZ.
  set (same := (filter (fun av : N * N => av.2 = own_version) (map_to_list addrs)).*1) in *. set (other := (filter (fun av : N * N => av.2 <> own_version) (map_to_list addrs)).*1) in *.
  destruct (S1 count same D1) as (ND1 & I1 & N1), (S2 count other D2) as (ND2 & I2 & N2). rewrite L1 in N1. rewrite L2 in N2.
  set (s := pick_same count same) in *. set (o := pick_other count other) in *.
  assert (forall l, (forall a, a ∈ l -> a ∈ s) -> running addrs own_version l = length l) as RS.
  { intros l H. unfold running. rewrite filter_all; [done|]. intros a A. apply H, I1, E1 in A as (v & A & B). cbn in B. subst v. done. }
  assert (forall l, (forall a, a ∈ l -> a ∈ o) -> running addrs own_version l = 0) as RO.
  { intros l H. unfold running. rewrite filter_none; [done|]. intros a A. apply H, I2, E2 in A as (v & A & B). cbn in B. congruence. }
  assert (forall l1 l2, running addrs own_version (l1 ++ l2) = running addrs own_version l1 + running addrs own_version l2) as RA.
  { intros l1 l2. unfold running. by rewrite filter_app, app_length. }
  assert (forall a, a ∈ s -> a ∈ o -> False) as DJ.
  { intros a A B. apply I1, E1 in A as (v & A & VA). apply I2, E2 in B as (w & B & VB). cbn in *. congruence. }
  assert (forall n (l : list N) a, a ∈ take n l -> a ∈ l) as TI by (intros n l a A; rewrite <- (take_drop n l); apply elem_of_app; by left).
  assert (forall n (l : list N) a, a ∈ drop n l -> a ∈ l) as TD by (intros n l a A; rewrite <- (take_drop n l); apply elem_of_app; by right).
  assert (forall n (l : list N), NoDup l -> NoDup (take n l)) as TN by (intros n l A; rewrite <- (take_drop n l) in A; by apply NoDup_app in A as [A _]).
  set (n1 := Nat.min preferred (length s)). cbv zeta. rewrite decide_False by (rewrite take_length; lia).
  rewrite take_length. replace (Nat.min n1 (length s)) with n1 by lia. set (n2 := Nat.min (count - n1) (length o)).
  assert (length (take n1 s ++ take n2 o) = n1 + n2) as LN by (rewrite app_length, !take_length; lia).
  assert (NoDup (take n1 s ++ take n2 o)) as NDD.
  { apply NoDup_app. split_and!; [by apply TN| |by apply TN]. intros a A B. apply (DJ a); [by eapply TI|by eapply TI]. }
  assert (forall a, a ∈ s \/ a ∈ o -> is_Some (addrs !! a)) as KN.
  { intros a [A|A]; [apply I1, E1 in A as (v & A & _)|apply I2, E2 in A as (v & A & _)]; eauto. }
  assert (running addrs own_version (take n1 s ++ take n2 o) = n1) as RR.
  { rewrite RA, RS, RO by (intros a A; by eapply TI). rewrite take_length. lia. }
  destruct (decide (length (take n1 s ++ take n2 o) < count)) as [C|C].
  - set (n3 := Nat.min (count - length (take n1 s ++ take n2 o)) (length (drop n1 s))). eexists. split; [reflexivity|].
    assert (length (drop n1 s) = length s - n1) as LD by apply drop_length. split_and!.
    + apply NoDup_app. split_and!; [done| |].
      * intros a A B. apply TI in B. apply elem_of_app in A as [A|A].
        -- rewrite <- (take_drop n1 s) in ND1. apply NoDup_app in ND1 as (_ & ND1 & _). by apply (ND1 a).
        -- apply (DJ a); [by eapply TD|by eapply TI].
      * apply TN. rewrite <- (take_drop n1 s) in ND1. by apply NoDup_app in ND1 as (_ & _ & ND1).
    + intros a [[A|A]%elem_of_app|A]%elem_of_app; apply KN; [left; by eapply TI|right; by eapply TI|left]. apply TI in A. by eapply TD.
    + rewrite app_length, take_length, LN. lia.
    + rewrite RA, RR. lia.
    + intros Q. rewrite RA, RR, RS by (intros a A; apply TI in A; by eapply TD). rewrite take_length. lia.
  - eexists. split; [reflexivity|]. split_and!; [done| | | |].
    + intros a [A|A]%elem_of_app; apply KN; [left|right]; by eapply TI.
    + rewrite LN in *. lia.
    + rewrite RR. lia.
    + intros _. rewrite RR. lia.
Qed.

(** A case: three nodes of version 1 and two of version 2; four places, three of them preferred for version 1; the sampler takes the first ones *)
Lemma take_sampler : sampler take.
Proof.
  intros n l ND. split_and!.
  - rewrite <- (take_drop n l) in ND. by apply NoDup_app in ND as [ND _].
  - intros x X. rewrite <- (take_drop n l). apply elem_of_app. by left.
  - apply take_length.
Qed.
Example C101_case : sampler take /\
  exists l, select_addresses take take (list_to_map [(1, 1); (2, 2); (3, 1); (4, 2); (5, 1)]%N) 1 4 3 = Some l /\ length l = 4 /\ running (list_to_map [(1, 1); (2, 2); (3, 1); (4, 2); (5, 1)]%N) 1 l = 3.
Proof. split; [apply take_sampler|]. eexists. split; [vm_compute; reflexivity|]. split; vm_compute; reflexivity. Qed.

Print Assumptions C101_answer.
