(** What downloading a chain should achieve. *)
From Verif Require Import Base StatusModel StatusSpec BlockTreeModel BlockTreeSpec SyncModel SyncSpec DownloadModel.
Local Open Scope N_scope.

(** A block of the main chain of [s], other than genesis *)
Definition on_chain (cf : tree_cfg) (s : tree) (b : bindex) : Prop := bi_id b <> genesis_id cf /\ t_idx s !! bi_id b = Some b /\ ancestor cf (t_idx s) (bi_id b) (t_best s).
(** A node that answers: its main chain is listed and all of it is stored *)
Record answering (cf : tree_cfg) (s : tree) (top : N) : Prop := {
  an_built : built cf (t_idx s);
  an_listed : main_chain_listed cf s;
  an_top : exists g, get_gen cf (t_idx s) (t_best s) = Some g /\ gen_height g = top;
  an_stored : forall b, on_chain cf s b -> bi_persisted b = true }.
(** A node that asks: it agrees with the other one on the blocks they both know, and it has the data of those of the other's main chain *)
Record asking (cf : tree_cfg) (s t : tree) : Prop := {
  as_built : built cf (t_idx t);
  as_listed : main_chain_listed cf t;
  as_low : forall id b, t_idx t !! id = Some b -> bi_height b < 2 ^ 61;
  as_agree : consistent (t_idx t) (t_idx s);
  as_stored : forall b b', on_chain cf s b -> t_idx t !! bi_id b = Some b' -> bi_persisted b' = true }.
(** The block's data is stored *)
Definition has (t : tree) (id : N) : Prop := is_Some (persisted_index t id).
(** Nothing stored gets lost *)
Definition grows (t t' : tree) : Prop := forall id b, persisted_index t id = Some b -> exists b', persisted_index t' id = Some b' /\ same_block b b'.

(** What may happen: a block that is taken gets stored, and so may others *)
Definition allowed (cf : tree_cfg) (s : tree) (n : conn) (a : action) : Prop :=
  match a with
  | Receive t => asking cf s t /\ grows (c_tree (n_client n)) t /\ forall b q, to_client n = BlockResponse b :: q -> has t (bi_id b)
  | Elsewhere t => asking cf s t /\ grows (c_tree (n_client n)) t
  | _ => True
  end.

Section runs.
  Context (cf : tree_cfg) (header_limit block_limit locator_limit : N) (s : tree).
  Notation act := (act cf header_limit block_limit locator_limit s).
  (** Any run of the two ends; [k] counts the messages taken and the blocks sent *)
  Inductive run (n : conn) : nat -> conn -> Prop :=
  | run_nil : run n 0 n
  | run_step k n1 a n2 : run n k n1 -> allowed cf s n1 a -> act a n1 = Some (Ok n2) -> run n (match a with Elsewhere _ => k | _ => S k end) n2.
  (** Neither end has anything left to do *)
  Definition quiet (n : conn) : Prop := act Answer n = None /\ act SendBlock n = None /\ forall t, act (Receive t) n = None.
End runs.

(** The answering end of a connection with anyone: it is asked for blocks ([Some]) and sends one ([None]) *)
Fixpoint serve (cf : tree_cfg) (block_limit : N) (s : tree) (evs : list (option (list N))) (v : server) : res p2p_err (server * list bindex) :=
  match evs with
  | [] => Ok (v, [])
  | Some ids :: evs => let? v := handle_block_request block_limit s v ids in serve cf block_limit s evs v
  | None :: evs =>
      match v_queue v with
      | [] => serve cf block_limit s evs v
      | id :: queue =>
          let? (v, m) := send_block cf s v id queue in let? (v, sent) := serve cf block_limit s evs v in
          Ok (v, match m with BlockResponse b => b :: sent | _ => sent end)
      end
  end.
