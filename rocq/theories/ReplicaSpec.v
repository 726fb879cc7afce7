(** * ReplicaSpec: two nodes of one chain; the vocabulary of C91. *)
From Verif Require Import Base Hex Types FixedCodec StateAdapter Executor ExecSpec Mempool Merkle ConsMsg Proto Wire Storage Consensus ConsSpec LedgerSpec.
Local Open Scope N_scope.

(** Nodes of one chain share its identifier, genesis file and cycles price;
    their address, pool, block limit, interval and validator list may differ. *)
Definition same_rules (cf cf' : config) : Prop :=
  cf_chain_id cf = cf_chain_id cf' /\ cf_genesis cf = cf_genesis cf' /\ cf_price cf = cf_price cf'.

(** Calls of the API, of the engine for the current epoch, of peers about the
    pool; no crash, restart or synchronisation. *)
Definition plain_event (e : event) : Prop :=
  match e with
  | EvCall (CallSync _ _) | EvCall (CallSyncEpoch _ _ _) => False
  | EvCall _ => True
  | _ => False
  end.

(** A block as it is handed to the executor: number, epoch, proof, and the
    transactions the node found for the ordered hashes. *)
Notation block := (u64 * epoch * proof * list signed_tx)%type.

Section ReplicaSpec.
  Context (digest : bytes -> hash) (root_of : gmap bytes bytes -> hash) (show : exec_err -> rstring)
          (verify : bytes -> bytes -> bytes -> bool) (shapes : nat -> shape) (cf : config).
  Notation happens := (happens digest root_of show verify shapes cf).

  Definition handed_at (m : machine) (e : event) : list block :=
    match m, e with
    | Up n, EvCall (CallCommitRest _ _) =>
        match nd_busy n with Committing id p pf txs => [(id, pl_epoch p, pf, txs)] | _ => [] end
    | _, _ => []
    end.
  Fixpoint handed (m : machine) (l : list event) : list block :=
    match l with [] => [] | e :: r => handed_at m e ++ handed (happens m e) r end.

  (** The executions of the history use enumerations and no two of the three
      tries one of them writes collide. *)
  Record runs_ok (l : list event) : Prop := {
    ro_orders : along digest root_of show verify shapes cf orders_ok (Down (∅, ∅)) l;
    ro_roots : Forall (fun x => clash_free root_of (tries_of x)) (execs_seen digest root_of show verify shapes cf (Down (∅, ∅)) l) }.
End ReplicaSpec.

(** Two nodes agree: on where the chain stands and what the next header will
    say, on every stored epoch, transaction and receipt, on every state. *)
Record agree (digest : bytes -> hash) (n n' : node) : Prop := {
  ag_number : cs_epoch_id (nd_status n) = cs_epoch_id (nd_status n');
  ag_prev : cs_prev_hash (nd_status n) = cs_prev_hash (nd_status n');
  ag_state_root : cs_state_root (nd_status n) = cs_state_root (nd_status n');
  ag_receipt_root : cs_receipt_root (nd_status n) = cs_receipt_root (nd_status n');
  ag_order_root : cs_order_root (nd_status n) = cs_order_root (nd_status n');
  ag_proof : cs_proof (nd_status n) = cs_proof (nd_status n');
  ag_latest : get_latest_epoch rocks_col digest (nd_disk n).1 = get_latest_epoch rocks_col digest (nd_disk n').1;
  ag_epochs : forall i, get_epoch_by_epoch_id rocks_col (nd_disk n).1 i = get_epoch_by_epoch_id rocks_col (nd_disk n').1 i;
  ag_txs : forall h, get_transaction_by_hash rocks_col (nd_disk n).1 h = get_transaction_by_hash rocks_col (nd_disk n').1 h;
  ag_receipts : forall h, get_receipt rocks_col (nd_disk n).1 h = get_receipt rocks_col (nd_disk n').1 h;
  ag_states : forall chain r e p cb, Executor.from_root digest chain r (nd_disk n).2 e p cb = Executor.from_root digest chain r (nd_disk n').2 e p cb }.
