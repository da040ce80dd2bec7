(** The two traversals of the pool: relatives of a set of transactions, and descendants with children first. *)
From stdpp Require Import relations sorting.
From Verif Require Import Base AmountModel DeltaModel LayeredModel TokensModel OrdersModel PosModel PrimModel ChainModel MempoolModel MempoolSpec MempoolGraph.
From Coq Require Import Lia.
Local Open Scope N_scope.

(** ** Relatives *)
Section visit.
Context (limit : N -> res pool_err unit).
Hypothesis Hlim : forall n, limit n <> Panic.
Lemma visit_all_spec (C : gset N) is stack seen :
  (forall i, i ∈ is -> i ∈ C) ->
  match visit_all limit is stack seen with
  | Ok (stack', seen') =>
      seen' = seen ∪ list_to_set is /\
      (forall i, i ∈ stack' <-> i ∈ stack \/ (i ∈ is /\ i ∉ seen)) /\
      (length stack' + size (C ∖ seen') = length stack + size (C ∖ seen))%nat /\
      (seen' = seen \/ limit (N.of_nat (size seen')) = Ok tt)
  | Err e => exists x : gset N, (forall i, i ∈ x -> i ∈ seen \/ i ∈ is) /\ limit (N.of_nat (size x)) = Err e
  | Panic => False
  end.
Proof using Hlim.
  revert stack seen. induction is as [|i is IH]; intros stack seen HC; cbn [visit_all].
  - split; [set_solver|]. split; [set_solver|]. split; [reflexivity|]. by left.
  - destruct (decide (i ∈ seen)) as [Hi|Hi].
    + specialize (IH stack seen ltac:(set_solver)). destruct (visit_all limit is stack seen) as [[stack' seen']|e|]; [| |exact IH].
      * destruct IH as (-> & H2 & H3 & H4). split; [set_solver|]. split; [set_solver|]. auto.
      * destruct IH as (x & Hx & E). exists x. split; [set_solver|exact E].
    + destruct (limit (N.of_nat (size ({[i]} ∪ seen)))) as [[]|e|] eqn:El; cbn; [| |by apply Hlim in El].
      * specialize (IH (i :: stack) ({[i]} ∪ seen) ltac:(set_solver)).
        destruct (visit_all limit is (i :: stack) ({[i]} ∪ seen)) as [[stack' seen']|e|]; [| |exact IH].
        -- destruct IH as (-> & H2 & H3 & H4). split; [set_solver|]. split; [|split].
           ++ intros j. rewrite H2, !elem_of_cons, elem_of_union, elem_of_singleton. destruct (decide (j = i)) as [->|]; tauto.
           ++ rewrite H3. cbn. assert (E : C ∖ seen = {[i]} ∪ C ∖ ({[i]} ∪ seen)).
              { apply set_eq. intros j. specialize (HC i). destruct (decide (j = i)) as [->|]; set_solver. }
              pose proof (size_union ({[i]} : gset N) (C ∖ ({[i]} ∪ seen)) ltac:(set_solver)) as Hsz. rewrite <- E, size_singleton in Hsz. lia.
           ++ right. destruct H4 as [->|H4]; [exact El|]. exact H4.
        -- destruct IH as (x & Hx & E). exists x. split; [set_solver|exact E].
      * exists ({[i]} ∪ seen). split; [set_solver|exact El].
Qed.
End visit.

Section collect.
Context (iter : gset N -> list N) (s : store) (k : relatives) (limit : N -> res pool_err unit) (C : gset N).
Hypothesis Hlim : forall n, limit n <> Panic.
Definition link (i j : N) : Prop := exists m, st_txs s !! i = Some m /\ j ∈ neighbours iter k m.
Hypothesis HC : forall i, i ∈ C -> exists m, st_txs s !! i = Some m /\ forall j, j ∈ neighbours iter k m -> j ∈ C.
Context (init : list N).
Hypothesis Hinit : forall i, i ∈ init -> i ∈ C.
Definition reached (x : N) : Prop := exists i, i ∈ init /\ rtc link i x.
Lemma collect_loop_spec fuel stack seen :
  (length stack + size (C ∖ seen) <= fuel)%nat ->
  (forall i, i ∈ stack -> i ∈ seen) -> (forall i, i ∈ seen -> i ∈ C) -> (forall i, i ∈ init -> i ∈ seen) ->
  (forall i, i ∈ seen -> reached i) -> (forall i j, i ∈ seen -> i ∉ stack -> link i j -> j ∈ seen) ->
  (seen = ∅ \/ limit (N.of_nat (size seen)) = Ok tt) ->
  match collect_loop iter s k limit fuel stack seen with
  | Ok r => (forall x, x ∈ r <-> reached x) /\ (r = ∅ \/ limit (N.of_nat (size r)) = Ok tt)
  | Err e => exists x : gset N, (forall i, i ∈ x -> reached i) /\ limit (N.of_nat (size x)) = Err e
  | Panic => False
  end.
Proof using Hlim HC Hinit.
  revert stack seen. induction fuel as [|fuel IH]; intros stack seen Hf H1 H2 H3 H4 H5 H6.
  - destruct stack; [|cbn in Hf; lia]. cbn. split; [|exact H6]. intros x. split; [apply H4|].
    intros (i & Hi & Hx). apply H3 in Hi. induction Hx as [|i j x Hl _ IH']; [exact Hi|].
    apply IH'. apply (H5 i j Hi); [intros H; inversion H|exact Hl].
  - destruct stack as [|i stack]; cbn [collect_loop].
    { split; [|exact H6]. intros x. split; [apply H4|].
      intros (i & Hi & Hx). apply H3 in Hi. induction Hx as [|i j x Hl _ IH']; [exact Hi|].
      apply IH'. apply (H5 i j Hi); [intros H; inversion H|exact Hl]. }
    assert (His : i ∈ seen) by (apply H1; left).
    destruct (HC i (H2 i His)) as (m & Em & Hm). rewrite Em. cbn [ok_or rbind].
    pose proof (visit_all_spec limit Hlim C (neighbours iter k m) stack seen Hm) as HV.
    destruct (visit_all limit (neighbours iter k m) stack seen) as [[stack' seen']|e|]; cbn [rbind fst snd]; [| |exact HV].
    + destruct HV as (-> & V2 & V3 & V4). apply IH.
      * cbn in Hf. lia.
      * intros j Hj. apply V2 in Hj as [Hj|[Hj _]]; [apply elem_of_union_l, H1; by right|].
        apply elem_of_union_r. by apply elem_of_list_to_set.
      * intros j Hj. apply elem_of_union in Hj as [Hj|Hj]; [by apply H2|]. apply elem_of_list_to_set in Hj. by apply Hm.
      * intros j Hj. apply elem_of_union_l. by apply H3.
      * intros j Hj. apply elem_of_union in Hj as [Hj|Hj]; [by apply H4|]. apply elem_of_list_to_set in Hj.
        destruct (H4 i His) as (i0 & Hi0 & Hr). exists i0. split; [exact Hi0|]. eapply rtc_r; [exact Hr|]. by exists m.
      * intros a b Ha Hna Hl. destruct (decide (a = i)) as [->|Hai].
        -- destruct Hl as (m' & Em' & Hb). rewrite Em in Em'. injection Em' as <-. apply elem_of_union_r. by apply elem_of_list_to_set.
        -- apply elem_of_union_l. destruct (decide (a ∈ seen)) as [Has|Has].
           ++ apply (H5 a b Has); [|exact Hl]. intros Hin. apply elem_of_cons in Hin as [->|Hin]; [contradiction|].
              apply Hna. apply V2. by left.
           ++ exfalso. apply Hna. apply V2. right. apply elem_of_union in Ha as [Ha|Ha]; [contradiction|].
              apply elem_of_list_to_set in Ha. auto.
      * destruct V4 as [E|V4]; [|by right]. rewrite E. exact H6.
    + destruct HV as (x & Hx & E). exists x. split; [|exact E]. intros j Hj. apply Hx in Hj as [Hj|Hj]; [by apply H4|].
      destruct (H4 i His) as (i0 & Hi0 & Hr). exists i0. split; [exact Hi0|]. eapply rtc_r; [exact Hr|]. by exists m.
Qed.
Lemma collect_relatives_spec :
  match collect_relatives iter s init k limit with
  | Ok r => (forall x, x ∈ r <-> reached x) /\ (r = ∅ \/ limit (N.of_nat (size r)) = Ok tt)
  | Err e => exists x : gset N, (forall i, i ∈ x -> reached i) /\ limit (N.of_nat (size x)) = Err e
  | Panic => False
  end.
Proof using Hlim HC Hinit.
  unfold collect_relatives. pose proof (visit_all_spec limit Hlim C init [] ∅ Hinit) as HV.
  destruct (visit_all limit init [] ∅) as [[stack seen]|e|]; cbn [rbind fst snd]; [| |exact HV].
  - destruct HV as (-> & V2 & V3 & V4). apply collect_loop_spec.
    + rewrite V3. cbn [length]. assert (size (C ∖ ∅) <= size (dom (st_txs s)))%nat.
      { apply subseteq_size. intros x Hx. apply elem_of_difference in Hx as [Hx _]. apply HC in Hx as (m & E & _).
        apply elem_of_dom. eauto. }
      rewrite size_dom in H. lia.
    + intros i Hi. apply V2 in Hi as [Hi|[Hi _]]; [inversion Hi|]. apply elem_of_union_r. by apply elem_of_list_to_set.
    + intros i Hi. apply elem_of_union in Hi as [Hi|Hi]; [set_solver|]. apply elem_of_list_to_set in Hi. by apply Hinit.
    + intros i Hi. apply elem_of_union_r. by apply elem_of_list_to_set.
    + intros i Hi. apply elem_of_union in Hi as [Hi|Hi]; [set_solver|]. apply elem_of_list_to_set in Hi. exists i. split; [exact Hi|reflexivity].
    + intros i j Hi Hn _. exfalso. apply Hn. apply V2. right. apply elem_of_union in Hi as [Hi|Hi]; [set_solver|].
      apply elem_of_list_to_set in Hi. split; [exact Hi|set_solver].
    + destruct V4 as [E|V4]; [left; rewrite E; reflexivity|by right].
  - destruct HV as (x & Hx & E). exists x. split; [|exact E]. intros i Hi. apply Hx in Hi as [Hi|Hi]; [set_solver|].
    exists i. split; [exact Hi|reflexivity].
Qed.
End collect.
Lemma collect_unlimited iter s k (C : gset N) (init : list N) :
  (forall i, i ∈ C -> exists m, st_txs s !! i = Some m /\ forall j, j ∈ neighbours iter k m -> j ∈ C) ->
  (forall i, i ∈ init -> i ∈ C) ->
  exists r, collect_relatives iter s init k no_limit = Ok r /\ forall x, x ∈ r <-> reached iter s k init x.
Proof.
  intros HC Hi. pose proof (collect_relatives_spec iter s k no_limit C ltac:(discriminate) HC init Hi) as H.
  destruct (collect_relatives iter s init k no_limit) as [r|e|]; [|destruct H as (x & _ & H); discriminate|contradiction].
  exists r. split; [reflexivity|]. by destruct H as [H _].
Qed.

(** ** Children first *)
Lemma sum_list_with_perm {A} (f : A -> nat) (l l' : list A) : l ≡ₚ l' -> sum_list_with f l = sum_list_with f l'.
Proof. induction 1; cbn; lia. Qed.
Definition weight (f : N -> nat) (X : gset N) : nat := sum_list_with f (elements X).
Lemma weight_take f (X : gset N) c : c ∈ X -> weight f X = (f c + weight f (X ∖ {[c]}))%nat.
Proof.
  intros Hc. unfold weight. assert (E : elements X ≡ₚ c :: elements (X ∖ {[c]})).
  { rewrite <- elements_union_singleton by set_solver. f_equiv. intros x. destruct (decide (x = c)) as [->|]; set_solver. }
  rewrite (sum_list_with_perm f _ _ E). reflexivity.
Qed.
Section postorder.
Context (ch : N -> list N) (C : gset N).
Hypothesis Hclosed : forall x c, x ∈ C -> c ∈ ch x -> c ∈ C.
Notation child := (fun x c => c ∈ ch x).
Hypothesis Hacyclic : forall x, x ∈ C -> ~ tc child x x.
Definition children_first (l : list N) : Prop := forall a x b, l = a ++ x :: b -> forall c, c ∈ ch x -> c ∈ a.
Lemma children_first_snoc l x : children_first l -> (forall c, c ∈ ch x -> c ∈ l) -> children_first (l ++ [x]).
Proof.
  intros H Hx a y b E c Hc. destruct b as [|z b' _] using rev_ind.
  - apply app_inj_tail in E as [-> ->]. by apply Hx.
  - rewrite app_comm_cons, app_assoc in E. apply app_inj_tail in E as [E _]. by apply (H a y b' E).
Qed.
(** the items on the stack form a path; what is not left to do below is done or on the way *)
Fixpoint stack_ok (done : list N) (above : option N) (stack : list (list N * N)) : Prop :=
  match stack with
  | [] => True
  | (cs, x) :: stack' =>
      x ∈ C /\ (forall c, c ∈ cs -> c ∈ ch x) /\ (forall c, c ∈ ch x -> c ∈ cs \/ c ∈ done \/ Some c = above) /\
      match above with Some y => y ∈ ch x | None => True end /\
      match above with Some _ => True | None => True end /\ stack_ok done (Some x) stack'
  end.
Lemma stack_ok_more done done' above stack : (forall x, x ∈ done -> x ∈ done') -> stack_ok done above stack -> stack_ok done' above stack.
Proof.
  intros Hd. revert above. induction stack as [|[cs x] stack IH]; intros above; cbn; [auto|].
  intros (H1 & H2 & H3 & H4 & H5 & H6). split; [exact H1|]. split; [exact H2|]. split; [|split; [exact H4|split; [exact H5|by apply IH]]].
  intros c Hc. destruct (H3 c Hc) as [|[|]]; auto.
Qed.
Lemma stack_path done above stack x : stack_ok done (Some above) stack -> x ∈ map snd stack -> tc child x above.
Proof.
  revert above. induction stack as [|[cs y] stack IH]; intros above; cbn; [intros _ H; inversion H|].
  intros (H1 & H2 & H3 & H4 & H5 & H6) Hx. apply elem_of_cons in Hx as [->|Hx]; [by apply tc_once|].
  eapply tc_r; [by apply (IH y)|]. exact H4.
Qed.
Notation wt := (fun x => S (length (ch x))).
Definition todo (stack : list (list N * N)) : nat := sum_list_with (fun p => S (length (fst p))) stack.
Lemma postorder_run_spec fuel stack visited done root :
  (todo stack + weight wt (C ∖ visited) <= fuel)%nat ->
  stack_ok done None stack ->
  (forall x, x ∈ visited <-> x ∈ done \/ x ∈ map snd stack) ->
  NoDup (done ++ map snd stack) -> children_first done -> (forall x, x ∈ done -> x ∈ C) ->
  (forall x, x ∈ map snd stack -> rtc child root x) ->
  exists out, postorder_run ch fuel stack visited = Some out /\
    NoDup (done ++ out) /\ children_first (done ++ out) /\ (forall x, x ∈ map snd stack -> x ∈ out) /\
    (forall x, x ∈ out -> rtc child root x).
Proof using Hclosed Hacyclic.
  revert stack visited done. induction fuel as [|fuel IH]; intros stack visited done Hf Hs Hv HN Hcf HdC Hr.
  { destruct stack as [|[cs x] stack]; [|unfold todo in Hf; cbn in Hf; lia].
    cbn in *. exists []. split; [reflexivity|]. rewrite app_nil_r in *. split; [exact HN|]. split; [exact Hcf|].
    split; [intros x H; inversion H|intros x H; inversion H]. }
  destruct stack as [|[cs x] stack].
  { cbn in *. exists []. split; [reflexivity|]. rewrite app_nil_r in *. split; [exact HN|]. split; [exact Hcf|].
    split; [intros x H; inversion H|intros x H; inversion H]. }
  cbn [stack_ok] in Hs. destruct Hs as (S1 & S2 & S3 & _ & _ & S4).
  destruct cs as [|c cs]; cbn [postorder_run].
  - (* the item is done *)
    assert (Hch : forall c, c ∈ ch x -> c ∈ done).
    { intros c Hc. destruct (S3 c Hc) as [H|[H|H]]; [inversion H|exact H|discriminate]. }
    cbn [map snd] in HN.
    destruct (IH stack visited (done ++ [x])) as (out & E & O1 & O2 & O3 & O4).
    + unfold todo in *. cbn in Hf. lia.
    + destruct stack as [|[cs y] stack]; [exact Logic.I|]. cbn [stack_ok] in *. destruct S4 as (T1 & T2 & T3 & T4 & _ & T5).
      split; [exact T1|]. split; [exact T2|]. split; [|split; [exact Logic.I|split; [exact Logic.I|]]].
      * intros c Hc. destruct (T3 c Hc) as [H|[H|H]]; [by left|right; left; apply elem_of_app; by left|].
        injection H as ->. right. left. apply elem_of_app. right. left.
      * eapply stack_ok_more; [|exact T5]. intros z Hz. apply elem_of_app. by left.
    + intros z. rewrite Hv. cbn. rewrite elem_of_app, elem_of_list_singleton, elem_of_cons. tauto.
    + rewrite <- app_assoc. exact HN.
    + by apply children_first_snoc.
    + intros z Hz. apply elem_of_app in Hz as [Hz|Hz]; [by apply HdC|]. by apply elem_of_list_singleton in Hz as ->.
    + intros z Hz. apply Hr. cbn. by right.
    + rewrite E. exists (x :: out). split; [reflexivity|]. rewrite <- app_assoc in O1, O2. split; [exact O1|]. split; [exact O2|].
      split.
      * intros z Hz. cbn in Hz. apply elem_of_cons in Hz as [->|Hz]; [left|right; by apply O3].
      * intros z Hz. apply elem_of_cons in Hz as [->|Hz]; [apply Hr; cbn; left|by apply O4].
  - assert (Hcx : c ∈ ch x) by (apply S2; left).
    destruct (decide (c ∈ visited)) as [Hc|Hc].
    + (* already done: it cannot be on the stack *)
      assert (Hcd : c ∈ done).
      { apply Hv in Hc as [Hc|Hc]; [exact Hc|]. exfalso. cbn in Hc. apply elem_of_cons in Hc as [->|Hc].
        - apply (Hacyclic x S1). by apply tc_once.
        - apply (Hacyclic x S1). eapply tc_l; [exact Hcx|]. eapply stack_path; [exact S4|exact Hc]. }
      destruct (IH ((cs, x) :: stack) visited done) as (out & E & O); auto.
      * unfold todo in *. cbn in *. lia.
      * cbn [stack_ok]. split; [exact S1|]. split; [intros z Hz; apply S2; by right|].
        split; [|auto]. intros z Hz. destruct (S3 z Hz) as [H|[H|H]]; [|auto|discriminate].
        apply elem_of_cons in H as [->|H]; auto.
      * exists out. auto.
    + destruct (IH ((ch c, c) :: (cs, x) :: stack) ({[c]} ∪ visited) done) as (out & E & O1 & O2 & O3 & O4); auto.
      * assert (HcC : c ∈ C ∖ visited) by (apply elem_of_difference; split; [by eapply Hclosed|exact Hc]).
        rewrite (weight_take _ _ c HcC) in Hf. replace (C ∖ ({[c]} ∪ visited)) with (C ∖ visited ∖ {[c]}) by set_solver.
        unfold todo in *. cbn in *. lia.
      * cbn [stack_ok]. split; [by eapply Hclosed|]. split; [auto|]. split; [auto|]. split; [exact Logic.I|]. split; [exact Logic.I|].
        split; [exact S1|]. split; [intros z Hz; apply S2; by right|]. split; [|auto].
        intros z Hz. destruct (S3 z Hz) as [H|[H|H]]; [|auto|discriminate]. apply elem_of_cons in H as [->|H]; auto.
      * intros z. rewrite elem_of_union, elem_of_singleton, Hv. cbn. rewrite !elem_of_cons. tauto.
      * cbn in HN |- *. rewrite <- (Permutation_middle done (x :: map snd stack) c).
        apply NoDup_cons. split; [|exact HN]. intros H. apply Hc. apply Hv. cbn. by apply elem_of_app in H.
      * intros z Hz. cbn in Hz. apply elem_of_cons in Hz as [->|Hz]; [|by apply Hr].
        eapply rtc_r; [apply (Hr x); cbn; left|]. exact Hcx.
      * exists out. split; [exact E|]. split; [exact O1|]. split; [exact O2|]. split; [|exact O4].
        intros z Hz. apply O3. cbn in *. by right.
Qed.
Lemma postorder_spec fuel root :
  (S (weight wt C) <= fuel)%nat -> root ∈ C ->
  exists out, postorder ch fuel [root] = Some out /\ NoDup out /\ children_first out /\ forall x, x ∈ out <-> rtc child root x.
Proof using Hclosed Hacyclic.
  intros Hf Hr. unfold postorder. cbn [map].
  destruct (postorder_run_spec fuel [(ch root, root)] (list_to_set [root]) [] root) as (out & E & O1 & O2 & O3 & O4).
  - assert (HrC : root ∈ C) by exact Hr. rewrite (weight_take _ _ root HrC) in Hf.
    replace (C ∖ list_to_set [root]) with (C ∖ {[root]}) by (cbn; set_solver).
    unfold todo. cbn in *. lia.
  - cbn. auto 10.
  - intros x. cbn. rewrite elem_of_union, elem_of_singleton, elem_of_list_singleton. set_solver.
  - cbn. apply NoDup_singleton.
  - intros a x b Eq. destruct a; discriminate.
  - intros x H; inversion H.
  - intros x Hx. cbn in Hx. apply elem_of_list_singleton in Hx as ->. reflexivity.
  - exists out. split; [exact E|]. cbn [app] in *. split; [exact O1|]. split; [exact O2|]. intros x. split; [apply O4|].
    intros H. assert (Hro : root ∈ out) by (apply O3; cbn; left).
    clear -O2 Hro H. induction H as [|x y z Hxy H IH]; [exact Hro|]. apply IH.
    apply elem_of_list_split in Hro as (a & b & E). rewrite E. apply elem_of_app. left. by apply (O2 a x b E).
Qed.
End postorder.
