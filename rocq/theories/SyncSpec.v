(** * SyncSpec: a node synchronising from one peer; the vocabulary of C89. *)
From Verif Require Import Base Types FixedCodec StateAdapter Executor Mempool Merkle Bincode ConsMsg Proto Wire Storage StorageSpec
  Consensus ConsSpec.
From Coq Require Strings.String.
Import String.StringSyntax.
Delimit Scope string_scope with string.
Local Open Scope N_scope.

(** [pull_epoch], [pull_txs], core/consensus/src/adapter.rs:153-197, with the
    peer's [RpcHandler::process], message.rs:134-171, and the messages in
    between (fixed_types.rs:15-141).  A handler that fails sends no answer,
    and the call does not return: there is no timeout (TwoNodes.v, C111). *)
Definition ask (peer : durable) (rq : rpc_request) : res cn_err rpc_response :=
  match dec_request (enc_request rq) with
  | Ok rq' =>
      match rpc_serve peer rq' with
      | Ok rp => map_err CMessage (dec_response (enc_response rp))
      | _ => Err (CNetwork 1)
      end
  | _ => Err (CNetwork 1)
  end.

(** The answers an iteration of the synchronisation loop gets,
    consensus.rs:119-141: the epoch of the loop's number, then the
    transactions ordered in that epoch. *)
Definition next_epoch (peer : durable) (n : node) : res cn_err rpc_response :=
  match nd_busy n with
  | Syncing id _ _ _ => ask peer (RqEpoch (wrap64 id))
  | _ => Err CNotRunning
  end.
Definition next_txs (peer : durable) (n : node) : res cn_err rpc_response :=
  match next_epoch peer n with
  | Ok (RpEpoch e) => ask peer (RqTxs (ep_ordered_tx_hashes e))
  | _ => Err CNotRunning
  end.

Section Pull.
  Context (digest : bytes -> hash) (root_of : gmap bytes bytes -> hash) (show : exec_err -> rstring)
          (verify : bytes -> bytes -> bytes -> bool) (shapes : nat -> shape) (cf : config).
  Notation run_call := (run_call digest root_of show verify shapes cf).

  Definition pull (peer : durable) (n : node) (os : nat -> iter_order) : res cn_err reply * node * list durable :=
    run_call (CallSyncEpoch os (next_epoch peer n) (next_txs peer n)) n.
  Definition after_pull (peer : durable) (n : node) (os : nat -> iter_order) : node := (pull peer n os).1.2.
  Definition after_pulls (peer : durable) (n : node) (oss : list (nat -> iter_order)) : node :=
    fold_left (after_pull peer) oss n.
  (** Every pull of the list succeeds. *)
  Fixpoint pulls_ok (peer : durable) (n : node) (oss : list (nat -> iter_order)) : Prop :=
    match oss with
    | [] => True
    | os :: r => is_ok (pull peer n os).1.1 = true /\ pulls_ok peer (after_pull peer n os) r
    end.
  (** The durable states gone through. *)
  Fixpoint pulls_disks (peer : durable) (n : node) (oss : list (nat -> iter_order)) : list durable :=
    match oss with
    | [] => []
    | os :: r => (pull peer n os).2 ++ pulls_disks peer (after_pull peer n os) r
    end.

  (** A peer storing the chain [c], with its transactions (which execute:
      transfers and asset deployments). *)
  Record good_peer (peer : durable) (c : list epoch) : Prop := {
    gp_chain : stored_chain digest peer.1 c;
    gp_txs : forall e h, e ∈ c -> h ∈ ep_ordered_tx_hashes e ->
      exists t, get_transaction_by_hash rocks_col peer.1 h = Ok t /\ st_tx_hash t = h /\ tx_plain t }.
  (** Its requests and answers fit in memory. *)
  Definition answers_fit (peer : durable) (c : list epoch) : Prop :=
    forall e, e ∈ c -> fits (enc_epoch e) /\ fits (wenc_epoch e) /\ fits (enc_request (RqTxs (ep_ordered_tx_hashes e))) /\
      forall l, map_res (get_transaction_by_hash rocks_col peer.1) (ep_ordered_tx_hashes e) = Ok l -> fits (enc_txs l).
  (** The digest does not collide on the headers of [c] and the storage's two
      fixed texts. *)
  Definition headers_distinct (c : list epoch) : Prop :=
    no_collision digest (ascii "latest_hash"%string :: ascii "latest_proof"%string :: map (fun e => wenc_header (ep_header e)) c).

  (** The disk [d] has the epochs of [c] after the [k]th up to the [j]th, with
      their transactions, and says that the [j]th is the latest. *)
  Definition has_copied (peer : durable) (c : list epoch) (k j : nat) (d : durable) : Prop :=
    (exists e, c !! j = Some e /\ get_latest_epoch rocks_col digest d.1 = Ok e) /\
    forall i e, (k < i <= j)%nat -> c !! i = Some e ->
      get_epoch_by_epoch_id rocks_col d.1 (wrap64 (N.of_nat i)) = Ok e /\
      forall h, h ∈ ep_ordered_tx_hashes e ->
        get_transaction_by_hash rocks_col d.1 h = get_transaction_by_hash rocks_col peer.1 h.
  (** Nothing else changed in the epochs by number and the transactions. *)
  Definition only_copied (c : list epoch) (k j : nat) (d0 d : durable) : Prop :=
    (forall i : u64, (i <= N.of_nat k \/ N.of_nat j < i) ->
      get_epoch_by_epoch_id rocks_col d.1 i = get_epoch_by_epoch_id rocks_col d0.1 i) /\
    (forall h, (forall i e, (k < i <= j)%nat -> c !! i = Some e -> h ∉ ep_ordered_tx_hashes e) ->
      get_transaction_by_hash rocks_col d.1 h = get_transaction_by_hash rocks_col d0.1 h).
End Pull.
