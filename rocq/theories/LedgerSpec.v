(** * LedgerSpec: what a node's disk says about money; the vocabulary of C90. *)
From Verif Require Import Base Hex Types FixedCodec StateAdapter Executor ExecSpec Mempool Merkle ConsMsg Proto Wire Storage Consensus ConsSpec.
Local Open Scope N_scope.

Section LedgerSpec.
  Context (digest : bytes -> hash) (root_of : gmap bytes bytes -> hash) (show : exec_err -> rstring)
          (verify : bytes -> bytes -> bytes -> bool) (shapes : nat -> shape) (cf : config).
  Notation happens := (happens digest root_of show verify shapes cf).
  Notation along := (along digest root_of show verify shapes cf).

  (** ** The executions of a history, by the executor each of them leaves *)
  Definition run_block (os : nat -> iter_order) (root : hash) (id price : u64) (cb : address) (txs : list signed_tx)
    (tr : trie_db) : list executor :=
    match Executor.from_root digest (cf_chain_id cf) root tr id price cb with
    | Ok x => match exec digest root_of show os x txs with Ok (_, x') => [x'] | _ => [] end
    | _ => []
    end.
  Definition run_genesis (o1 o2 : iter_order) (tr : trie_db) : list executor :=
    match Executor.from_root digest (cf_chain_id cf) (hash_from_empty digest) tr (wrap64 0) (cf_price cf) (AUser (cf_self cf)) with
    | Ok x => match create_genesis digest root_of o1 o2 x (cf_genesis cf) with Ok (_, x') => [x'] | _ => [] end
    | _ => []
    end.
  Definition call_execs (n : node) (c : call) : list executor :=
    match c, nd_busy n with
    | CallCommitRest os _, Committing id p _ txs =>
        run_block os (cs_state_root (nd_status n)) id (cs_price (nd_status n)) (AUser (eh_proposer (ep_header (pl_epoch p)))) txs
          (nd_disk n).2
    | CallSyncEpoch os (Ok (RpEpoch e)) (Ok (RpTxs txs)), Syncing _ _ _ sr =>
        run_block os sr (eh_epoch_id (ep_header e)) (cs_price (nd_status n)) (AUser (eh_proposer (ep_header e))) txs (nd_disk n).2
    | _, _ => []
    end.
  Definition event_execs (m : machine) (e : event) : list executor :=
    match e, m with
    | EvCall c, Up n | EvCrash c _, Up n => call_execs n c
    | EvBoot o1 o2, Down d | EvBootCrash o1 o2 _, Down d => run_genesis o1 o2 d.2
    | _, _ => []
    end.
  Fixpoint execs_seen (m : machine) (l : list event) : list executor :=
    match l with
    | [] => []
    | e :: r => event_execs m e ++ execs_seen (happens m e) r
    end.

  (** The iteration orders of an event enumerate. *)
  Definition orders_ok (m : machine) (e : event) : Prop :=
    match e with
    | EvCall (CallCommitRest os _) | EvCrash (CallCommitRest os _) _
    | EvCall (CallSyncEpoch os _ _) | EvCrash (CallSyncEpoch os _ _) _ => forall i, order_ok (os i)
    | EvBoot o1 o2 | EvBootCrash o1 o2 _ => order_ok o1 /\ order_ok o2
    | _ => True
    end.

  (** What is asked of a history: the maps iterated over are enumerated, the
      states fit in memory, the Merkle root does not collide on the tries
      written. *)
  Record states_ok (l : list event) : Prop := {
    so_orders : along orders_ok (Down (∅, ∅)) l;
    so_fits : Forall state_fits (execs_seen (Down (∅, ∅)) l);
    so_roots : clash_free root_of (∅ :: concat (map tries_of (execs_seen (Down (∅, ∅)) l))) }.

  (** ** Ledgers *)
  (** Nothing was minted or burnt since the genesis, whose token is [code]
      and whose allocation is [qs]; the system token is registered. *)
  Record full_ledger (code : bytes) (qs : list (address * list (hash * N))) (y : executor) : Prop := {
    fl_kinds : wf_accounts (committed y);
    fl_total : forall id, total id (committed y) = allocated_total id qs;
    fl_token : exists c, contract_from_code digest code (wrap64 0) CtAsset = Ok c /\
      committed_assets y !! digest (sbytes (cf_chain_id cf) ++ ca c) =
        Some (system_asset digest (cf_chain_id cf) c (gn_system_token (cf_genesis cf))) }.
  Definition no_ledger (y : executor) : Prop := committed y = ∅ /\ committed_assets y = ∅.

  Definition never_syncs (m : machine) (e : event) : Prop :=
    match event_call e with Some (CallSync _ _) | Some (CallSyncEpoch _ _ _) => False | _ => True end.
  (** The engine hands over headers carrying the node's own state root. *)
  Definition roots_agree (m : machine) (e : event) : Prop :=
    match m, event_call e with
    | Up n, Some (CallCommit _ c) => eh_state_root (ep_header (pl_epoch (cm_pill c))) = cs_state_root (nd_status n)
    | _, _ => True
    end.
End LedgerSpec.
