(** * Specification: a node and the bytes of its state database (C106).

    The node of Consensus.v keeps its states as maps.  Here every execution the
    node does along a history -- the genesis when it boots on an empty disk, a
    block it commits, a block it synchronises -- is also a use of the one trie
    database of bytes (DbSpec.v), in the same order, dying where the node dies:
    [uses] lists them; [results] lists what the node's own executor, on maps and
    with the iteration orders of the history, returned. *)
From Verif Require Import Base Hex Types FixedCodec StateAdapter Executor ExecSpec Mempool Merkle ConsMsg Proto Wire Storage Mpt Consensus ConsSpec DbExec DbSpec Api.
Local Open Scope N_scope.

Section NodeDb.
  Context (digest : bytes -> hash) (show : exec_err -> rstring)
          (verify : bytes -> bytes -> bytes -> bool) (shapes : nat -> shape) (cf : config).
  Notation root_of := (mpt_root digest).
  Notation happens := (happens digest root_of show verify shapes cf).

  (** The block a call executes: state root, parameters, transactions
      (engine.rs:163-176 for [commit]; consensus.rs:118-150 for [update_epoch],
      which gets there if the pulled epoch links to the one before). *)
  Definition call_block (n : node) (c : call) : option (hash * params * list signed_tx) :=
    match c, nd_busy n with
    | CallCommitRest _ _, Committing id p _ txs =>
        Some (cs_state_root (nd_status n),
              MkParams (cf_chain_id cf) id (cs_price (nd_status n)) (AUser (eh_proposer (ep_header (pl_epoch p)))), txs)
    | CallSyncEpoch _ (Ok (RpEpoch e)) (Ok (RpTxs txs)), Syncing id rich before sr =>
        if id <=? rich then
          if decide (id <> 1 /\ before <> eh_pre_hash (ep_header e)) then None
          else Some (sr, MkParams (cf_chain_id cf) (eh_epoch_id (ep_header e)) (cs_price (nd_status n)) (AUser (eh_proposer (ep_header e))), txs)
        else None
    | _, _ => None
    end.
  Definition call_orders (c : call) : nat -> iter_order :=
    match c with CallCommitRest os _ | CallSyncEpoch os _ _ => os | _ => fun _ => canon_order end.
  (** How many durable changes of the call include its new state: a
      synchronisation saves the proof first. *)
  Definition state_at (c : call) : nat := match c with CallSyncEpoch _ _ _ => 2 | _ => 1 end.

  (** The genesis: only if there is no latest epoch, main.rs:68-117. *)
  Definition boots_new (d : durable) : bool := match get_latest_epoch rocks_col digest d.1 with Err GetNone => true | _ => false end.
  Definition genesis_params : params := MkParams (cf_chain_id cf) (wrap64 0) (cf_price cf) (AUser (cf_self cf)).

  (** [batches]: if the node dies before its new state is complete, how much of
      it got to the disk. *)
  Definition event_uses (batches : nat) (m : machine) (e : event) : list db_op :=
    match e, m with
    | EvCall c, Up n => match call_block n c with Some (r, p, ts) => [OpBlock r p ts] | None => [] end
    | EvCrash c k, Up n =>
        match call_block n c with
        | Some (r, p, ts) => [if (state_at c <=? k)%nat then OpBlock r p ts else OpCrash r p ts batches]
        | None => []
        end
    | EvBoot _ _, Down d => if boots_new d then [OpGenesis genesis_params (cf_genesis cf)] else []
    | EvBootCrash _ _ k, Down d =>
        if boots_new d then [if (1 <=? k)%nat then OpGenesis genesis_params (cf_genesis cf) else OpGCrash genesis_params (cf_genesis cf) batches] else []
    | _, _ => []
    end.
  Fixpoint uses (bs : nat -> nat) (m : machine) (l : list event) : list db_op :=
    match l with
    | [] => []
    | e :: l => event_uses (bs O) m e ++ uses (fun i => bs (S i)) (happens m e) l
    end.

  (** What the node's executor returns, and the executor itself. *)
  Definition node_block (n : node) (c : call) : res exec_err (exec_resp * executor) :=
    match call_block n c with
    | Some (r, p, ts) =>
        let? x := Executor.from_root digest (pm_chain p) r (nd_disk n).2 (pm_epoch p) (pm_price p) (pm_coinbase p) in
        exec digest root_of show (call_orders c) x ts
    | None => Panic
    end.
  Definition node_genesis (o1 o2 : iter_order) (d : durable) : res exec_err (hash * executor) :=
    let? x := Executor.from_root digest (cf_chain_id cf) (hash_from_empty digest) d.2 (wrap64 0) (cf_price cf) (AUser (cf_self cf)) in
    create_genesis digest root_of o1 o2 x (cf_genesis cf).
  Definition event_results (m : machine) (e : event) : list db_out :=
    match e, m with
    | EvCall c, Up n => match call_block n c with Some _ => [OutBlock (res_of (node_block n c))] | None => [] end
    | EvCrash c k, Up n =>
        match call_block n c with
        | Some _ => [if (state_at c <=? k)%nat then OutBlock (res_of (node_block n c)) else OutCrash]
        | None => []
        end
    | EvBoot o1 o2, Down d => if boots_new d then [OutGenesis (res_of (node_genesis o1 o2 d))] else []
    | EvBootCrash o1 o2 k, Down d =>
        if boots_new d then [if (1 <=? k)%nat then OutGenesis (res_of (node_genesis o1 o2 d)) else OutCrash] else []
    | _, _ => []
    end.
  Fixpoint results (m : machine) (l : list event) : list db_out :=
    match l with
    | [] => []
    | e :: l => event_results m e ++ results (happens m e) l
    end.

  (** The state an event leaves: root and executor. *)
  Definition event_leaves (m : machine) (e : event) : option (hash * executor) :=
    match e, m with
    | EvCall c, Up n => match node_block n c with Ok (r, x) => Some (er_state_root r, x) | _ => None end
    | EvCrash c k, Up n =>
        if (state_at c <=? k)%nat then match node_block n c with Ok (r, x) => Some (er_state_root r, x) | _ => None end else None
    | EvBoot o1 o2, Down d => if boots_new d then match node_genesis o1 o2 d with Ok (r, x) => Some (r, x) | _ => None end else None
    | EvBootCrash o1 o2 k, Down d =>
        if boots_new d && (1 <=? k)%nat then match node_genesis o1 o2 d with Ok (r, x) => Some (r, x) | _ => None end else None
    | _, _ => None
    end.

  (** The parameters of a balance query at an epoch, core/api/src/adapter/mod.rs:61-79. *)
  Definition query_params (h : epoch_header) : params :=
    MkParams (eh_chain_id h) (eh_epoch_id h) (wrap64 0) (AUser (eh_proposer h)).
End NodeDb.
