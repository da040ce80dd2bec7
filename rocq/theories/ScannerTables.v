(** The tables of the scanner: reading after writing, and taking back. *)
From Verif Require Import Base ScannerModel ScannerSpec.
Local Open Scope N_scope.

Global Arguments del_above : simpl never.
Global Arguments set_at : simpl never.
Section Tables.
  Context {K V : Type} `{Countable K}.
  Implicit Types (t : table K V) (l : list (N * V)).
  (** No version above the height, and none is empty *)
  Definition upto (h : N) t : Prop := ∀ k l, t !! k = Some l -> l ≠ [] ∧ Forall (fun x => x.1 <= h) l.

  Lemma upto_mono h h' t : h <= h' -> upto h t -> upto h' t.
  Proof. intros Hh U k l E. destruct (U k l E) as [Hn F]. split; [done|]. eapply Forall_impl; [exact F|]. intros x Hx. cbv beta in *. lia. Qed.
  Lemma put_upto h v l : Forall (fun x => x.1 <= h) l -> Forall (fun x => x.1 <= h) (put h v l) ∧ head (put h v l) = Some (h, v).
  Proof.
    intros F. destruct l as [|[h' v'] l]; cbn; [by split; [constructor; [cbn; lia|constructor]|]|].
    pose proof (Forall_inv F) as F1. pose proof (Forall_inv_tail F) as F2. cbn in F1.
    destruct (h' <? h) eqn:E1; cbn; [by split; [constructor; [cbn; lia|done]|]|].
    destruct (h' =? h) eqn:E2; cbn; [by split; [constructor; [cbn; lia|done]|]|].
    apply N.ltb_ge in E1. apply N.eqb_neq in E2. lia.
  Qed.
  Lemma upto_default h t k : upto h t -> Forall (fun x => x.1 <= h) (default [] (t !! k)).
  Proof. intros U. destruct (t !! k) eqn:E; [by apply (U k)|constructor]. Qed.
  Lemma upto_set h k v t : upto h t -> upto h (set_at h k v t).
  Proof.
    intros U k' l. unfold set_at. destruct (decide (k = k')) as [->|n].
    - rewrite lookup_insert. intros [= <-]. destruct (put_upto h v _ (upto_default h t k' U)) as [F Hd]. split; [|done]. intros E. by rewrite E in Hd.
    - rewrite lookup_insert_ne by done. apply U.
  Qed.
  Lemma latest_set h k v t : upto h t -> latest k (set_at h k v t) = Some v.
  Proof. intros U. unfold latest, set_at. rewrite lookup_insert. cbn. by rewrite (proj2 (put_upto h v _ (upto_default h t k U))). Qed.
  Lemma latest_set_ne h k k' v t : k ≠ k' -> latest k' (set_at h k v t) = latest k' t.
  Proof. intros n. unfold latest, set_at. by rewrite lookup_insert_ne. Qed.
  Lemma latest_none h k t : upto h t -> latest k t = None -> t !! k = None.
  Proof.
    intros U. unfold latest. destruct (t !! k) as [l|] eqn:E; [|done]. destruct (U k l E) as [Hn _]. destruct l; [done|]. done.
  Qed.
  Lemma latest_some h k t x : upto h t -> t !! k = Some x -> is_Some (latest k t).
  Proof. intros U E. unfold latest. rewrite E. destruct (U k x E) as [Hn _]. destruct x; [done|]. cbn. eauto. Qed.

  Lemma filter_put n h v l : n < h -> filter (fun x => x.1 <= n) (put h v l) = filter (fun x => x.1 <= n) l.
  Proof.
    intros Hn. induction l as [|[h' v'] l IH]; cbn [put].
    - rewrite filter_cons_False; [done|cbn; lia].
    - destruct (h' <? h) eqn:E1; [rewrite filter_cons_False; [done|cbn; lia]|].
      destruct (h' =? h) eqn:E2.
      + apply N.eqb_eq in E2. rewrite !filter_cons_False; [done|cbn; lia|cbn; lia].
      + destruct (decide (h' <= n)) as [L|L]; [rewrite !filter_cons_True by done; by rewrite IH|rewrite !filter_cons_False by done; apply IH].
  Qed.
  Lemma del_above_lookup n t k : del_above n t !! k = t !! k ≫= versions_up_to n.
  Proof. unfold del_above. apply lookup_omap. Qed.
  Lemma del_above_set n h k v t : n < h -> del_above n (set_at h k v t) = del_above n t.
  Proof.
    intros Hn. apply map_eq. intros k'. rewrite !del_above_lookup. unfold set_at. destruct (decide (k = k')) as [->|ne].
    - rewrite lookup_insert. cbn. unfold versions_up_to. rewrite filter_put by done. destruct (t !! k'); done.
    - by rewrite lookup_insert_ne.
  Qed.
  Lemma del_above_fresh n h k v t : n < h -> t !! k = None -> del_above n (<[k := [(h, v)]]> t) = del_above n t.
  Proof.
    intros Hn E. apply map_eq. intros k'. rewrite !del_above_lookup. destruct (decide (k = k')) as [->|ne].
    - rewrite lookup_insert, E. cbn. unfold versions_up_to. rewrite filter_cons_False; [done|cbn; lia].
    - by rewrite lookup_insert_ne.
  Qed.
  Lemma filter_upto n l : Forall (fun x => x.1 <= n) l -> filter (fun x => x.1 <= n) l = l.
  Proof. induction 1; [done|]. rewrite filter_cons_True by done. by f_equal. Qed.
  Lemma del_above_id n t : upto n t -> del_above n t = t.
  Proof.
    intros U. apply map_eq. intros k. rewrite del_above_lookup. destruct (t !! k) as [l|] eqn:E; [|done]. cbn.
    destruct (U k l E) as [Hn F]. unfold versions_up_to. rewrite (filter_upto _ _ F). by destruct l.
  Qed.
End Tables.

(** * Sums *)
Lemma total_cons {A} (f : A -> N) e l : total f (e :: l) = f e + total f l.
Proof. done. Qed.
Lemma total_nil {A} (f : A -> N) : total f [] = 0.
Proof. done. Qed.
Global Arguments total : simpl never.
Lemma total_app {A} (f : A -> N) l1 l2 : total f (l1 ++ l2) = total f l1 + total f l2.
Proof. induction l1 as [|e l1 IH]; cbn [app]; rewrite ?total_cons, ?total_nil; [lia|]. rewrite IH. lia. Qed.
Lemma total_ext {A} (f f' : A -> N) l : (∀ e, e ∈ l -> f e = f' e) -> total f l = total f' l.
Proof. induction l as [|e l IH]; intros E; rewrite ?total_cons, ?total_nil; [done|]. rewrite (E e) by left. rewrite IH; [done|]. intros x Hx. apply E. by right. Qed.
Lemma total_le {A} (f f' : A -> N) l : (∀ e, e ∈ l -> f e <= f' e) -> total f l <= total f' l.
Proof.
  induction l as [|e l IH]; intros E; rewrite ?total_cons, ?total_nil; [lia|]. pose proof (E e (elem_of_list_here _ _)). assert (total f l <= total f' l); [|lia].
  apply IH. intros x Hx. apply E. by right.
Qed.
Lemma total_0 {A} (l : list A) : total (fun _ => 0) l = 0.
Proof. induction l; rewrite ?total_cons, ?total_nil; lia. Qed.
Lemma total_split {A} (f f1 f2 : A -> N) l : (∀ e, e ∈ l -> f e = f1 e + f2 e) -> total f l = total f1 l + total f2 l.
Proof. induction l as [|e l IH]; intros E; rewrite ?total_cons, ?total_nil; [done|]. rewrite (E e) by left. rewrite IH; [lia|]. intros x Hx. apply E. by right. Qed.
Lemma total_elem {A} (f : A -> N) l e : e ∈ l -> f e <= total f l.
Proof. induction 1; rewrite total_cons; lia. Qed.
(** A sum where one element counts differently *)
Lemma total_change (f f' : made -> N) l e : NoDup (map place l) -> e ∈ l -> (∀ x, x ∈ l -> place x ≠ place e -> f' x = f x) ->
  total f' l + f e = total f l + f' e.
Proof.
  intros ND He. induction l as [|x l IH]; intros E; [by apply elem_of_nil in He|]. rewrite !total_cons. cbn [map] in ND. apply NoDup_cons in ND as [Hx ND].
  apply elem_of_cons in He as [->|He].
  - rewrite (total_ext f' f l); [lia|]. intros y Hy. apply E; [by right|]. intros Q. apply Hx. rewrite <- Q. by apply elem_of_list_fmap_1.
  - rewrite (E x) by (first [by left | intros Q; apply Hx; rewrite Q; by apply elem_of_list_fmap_1]).
    specialize (IH ND He (fun y Hy => E y (elem_of_list_further _ _ _ Hy))). lia.
Qed.
Lemma place_inj (l : list made) e e' : NoDup (map place l) -> e ∈ l -> e' ∈ l -> place e = place e' -> e = e'.
Proof.
  intros ND H1 H2 E. apply elem_of_list_lookup in H1 as [i Hi]. apply elem_of_list_lookup in H2 as [j Hj].
  assert (i = j) as ->; [|congruence].
  apply (NoDup_lookup _ i j (place e) ND); rewrite <- ?list_fmap_map, ?list_lookup_fmap; [by rewrite Hi|by rewrite Hj, E].
Qed.
