(** Generic lemmas about the loops of [Base]. *)
From Verif Require Import Base.

Lemma fst_pair_eq {A B} (a : A) (b : B) : (a, b).1 = a. Proof. reflexivity. Qed.

(** A loop whose step on [(k,x)] only rewrites key [k] to the value computed by [g]. *)
Section keyed.
Context {K : Type} {EqK : EqDecision K} {CntK : Countable K} {V X E : Type}.
Variable f : gmap K V -> K * X -> gmap K V * res E unit.
Variable g : K -> option V -> X -> res E (option V).
Hypothesis f_ok : forall m k x o, g k (m !! k) x = Ok o -> f m (k, x) = (partial_alter (fun _ => o) k m, Ok tt).
Hypothesis f_fail : forall m k x m', f m (k, x) = (m', Ok tt) -> exists o, g k (m !! k) x = Ok o.

Definition keyed_result (l : list (K * X)) (m m' : gmap K V) : Prop :=
  forall k, match (list_to_map l : gmap K X) !! k with
            | None => m' !! k = m !! k
            | Some x => g k (m !! k) x = Ok (m' !! k)
            end.

Lemma try_fold_keyed_ok l m m' :
  NoDup l.*1 -> try_fold f l m = (m', Ok tt) -> keyed_result l m m'.
Proof.
  revert m. induction l as [|[k x] l IH]; intros m Hnd Hf k'.
  - cbn in Hf |- *. injection Hf as <-. reflexivity.
  - cbn [fmap list_fmap fst] in Hnd. apply NoDup_cons in Hnd as [Hk Hnd].
    cbn [try_fold] in Hf. destruct (f m (k, x)) as [m1 [[]| |]] eqn:Hs; try discriminate Hf.
    destruct (f_fail _ _ _ _ Hs) as [o Ho].
    rewrite (f_ok _ _ _ _ Ho) in Hs. injection Hs as <-.
    specialize (IH _ Hnd Hf k'). cbn.
    destruct (decide (k = k')) as [<-|Hne].
    + rewrite lookup_insert.
      assert ((list_to_map l : gmap K X) !! k = None) as Hn by (apply not_elem_of_list_to_map_1; exact Hk).
      rewrite Hn in IH. rewrite IH, lookup_partial_alter. exact Ho.
    + rewrite lookup_insert_ne by exact Hne.
      rewrite lookup_partial_alter_ne in IH by exact Hne. exact IH.
Qed.

Lemma try_fold_keyed_succeeds l m :
  NoDup l.*1 -> (forall k x, (k, x) ∈ l -> is_ok (g k (m !! k) x)) -> exists m', try_fold f l m = (m', Ok tt).
Proof.
  revert m. induction l as [|[k x] l IH]; intros m Hnd Hall.
  - exists m. reflexivity.
  - cbn [fmap list_fmap fst] in Hnd. apply NoDup_cons in Hnd as [Hk Hnd].
    destruct (Hall k x) as [o Ho]; [left|].
    cbn [try_fold]. rewrite (f_ok _ _ _ _ Ho). apply IH; [exact Hnd|].
    intros k' x' Hin. assert (k <> k') as Hne.
    { intros ->. apply Hk. apply elem_of_list_fmap. exists (k', x'). split; [reflexivity|exact Hin]. }
    rewrite lookup_partial_alter_ne by exact Hne. apply Hall. right. exact Hin.
Qed.
End keyed.

Lemma keyed_result_unique {K} {EqK : EqDecision K} {CntK : Countable K} {V X E : Type}
  (g : K -> option V -> X -> res E (option V)) l1 l2 (m m1 m2 : gmap K V) :
  (list_to_map l1 : gmap K X) = list_to_map l2 ->
  keyed_result g l1 m m1 -> keyed_result g l2 m m2 -> m1 = m2.
Proof.
  intros Hl H1 H2. apply map_eq. intros k. specialize (H1 k). specialize (H2 k). rewrite Hl in H1.
  destruct ((list_to_map l2 : gmap K X) !! k) as [x|].
  - congruence.
  - congruence.
Qed.
