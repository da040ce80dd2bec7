(** What account nonces are supposed to do: for every account, the numbers used so far, in order. *)
From Verif Require Import Base ChainModel UndoCacheModel NonceModel.
Local Open Scope N_scope.

(** The numbers used by an account: a list of nonces, last first. A copy for every open verifier, and one for what is
    stored. *)
Notation used := (account_type -> list N) (only parsing).
Definition set_used (u : used) (a : account_type) (l : list N) : used := fun a' => if decide (a' = a) then l else u a'.

(** What the history of calls has left in use; [None]: no verifier to make the call on. *)
Fixpoint history (ks : list nonce_call) : option (list used * used) :=
  match ks with
  | [] => Some ([], fun _ => [])
  | k :: ks' =>
      match history ks' with
      | None => None
      | Some (ls, db) =>
          match k, ls with
          | NDerive, [] => Some ([db], db)
          | NDerive, u :: _ => Some (u :: ls, db)
          | _, [] => None
          | NSpend a n, u :: ls' => Some (set_used u a (n :: u a) :: ls', db)
          | NUnspend a, u :: ls' => match u a with [] => None | _ :: l => Some (set_used u a l :: ls', db) end
          | NFlush, [u] => Some ([], u)
          | NFlush, u :: _ :: ls' => Some (u :: ls', db)
          | NDrop, _ :: ls' => Some (ls', db)
          end
      end
  end.

(** The state after calls that were all accepted, last call first, from an empty database *)
Fixpoint accepted (ks : list nonce_call) (st : nonce_stack) : Prop :=
  match ks with
  | [] => st = NonceStack [] ∅
  | k :: ks' => exists st0, accepted ks' st0 /\ nonce_run st0 k = Ok st
  end.

(** The numbers in use, first first, are 0, 1, 2, ... *)
Definition sequential (l : list N) : Prop := reverse l = N.of_nat <$> seq 0 (length l).
