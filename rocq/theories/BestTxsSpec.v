From Verif Require Import Base BestTxsModel.

Section BestTxsSpec.
  Context (pool : gmap N txe).
  (** [p] is a parent of [t]: [t] spends what [p] makes. *)
  Definition parent (p t : N) : Prop := exists e, pool !! t = Some e /\ p ∈ b_parents e.
  (** [a] is an ancestor of [t]. *)
  Definition ancestor : N -> N -> Prop := tc parent.
  (** The parents of what is in the mempool are in the mempool, and nothing is its own ancestor: some height grows from parent to child. *)
  Definition sound_pool : Prop := (forall p t, parent p t -> is_Some (pool !! p)) /\ exists h : N -> nat, forall p t, parent p t -> h p < h t.
  (** [a] is not worth more than [b]: by score, and by id among equals *)
  Definition worth_at_most (a b : N) : Prop :=
    exists ea eb, pool !! a = Some ea /\ pool !! b = Some eb /\ (b_score ea < b_score eb \/ (b_score ea = b_score eb /\ a <= b))%N.
End BestTxsSpec.
