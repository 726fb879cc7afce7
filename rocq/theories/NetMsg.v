(** * Envelope, routing and dispatch: model of core/network/src/message/mod.rs,
    outbound/gossip.rs, outbound/rpc.rs, reactor/router.rs, reactor/mod.rs,
    traits.rs (context) and the registration part of service.rs.

    Messages have a Rust type ([rtype]) and a value ([V]); their
    [MessageCodec]s are parameters.  Snappy is a parameter too. *)
From Coq Require Import List Bool NArith Lia.
From Coq Require Strings.String.
From stdpp Require Import base decidable list gmap.
From Verif Require Import Base Proto Endpoint RpcMap.
Import ListNotations.
Import String.StringSyntax.
Delimit Scope string_scope with string.
Local Open Scope N_scope.

(** message/mod.rs:19-26 *)
Record net_msg := NetMsg { nm_url : rstring; nm_content : bytes }.
Definition m_net := pcons (p_string 1) (pcons (p_bytes 2) pnil).
(** message/mod.rs:36-43; encoding into a [Vec] of the right size cannot fail *)
Definition nm_encode (m : net_msg) : bytes := pencode m_net (nm_url m, (nm_content m, tt)).
(** message/mod.rs:45-47 *)
Definition nm_decode (b : bytes) : nres net_msg :=
  match pdecode m_net b with
  | Some (u, (c, _)) => Ok (NetMsg u c)
  | None => Err BadMessage
  end.

(** A running reactor (reactor/mod.rs:29-33): the message type it was built
    for and its handler; the handler of [register_rpc_response] is the
    [DummyHandler]. *)
Record reactor := Reactor { ra_ty : rtype; ra_handler : option nat }.

(** Effects of handling a message (reactor/mod.rs:71-95). *)
Inductive effect (V : Type) :=
  | Process (h : option nat) (sid : session) (rid : option u64) (v : V)  (* handler.process(ctx, content) *)
  | Answer (to : sender) (v : V).                                       (* resp_tx.send(content) *)
Arguments Process {V}.
Arguments Answer {V}.

(** The part of a node that deals with messages: outstanding calls, and the
    reactor channel for every registered endpoint.  [HashMap<Endpoint, _>]
    compares and hashes endpoints by [root()] (endpoint.rs:81-93), so the map
    is keyed by it. *)
Record net_node := NetNode { nn_rpc : rpc_map; nn_reactors : gmap bytes reactor }.
Definition nn_new : net_node := NetNode rm_new ∅.

Section Net.
  Context (compress decompress : bytes -> nres bytes).
  Context {V : Type} (mdecode : rtype -> bytes -> nres V) (mencode : rtype -> V -> nres bytes).

  (** outbound/gossip.rs:33-50 [package_message] *)
  Definition package_message (end_ : rstring) (ty : rtype) (msg : V) : nres bytes :=
    let? e := parse_endpoint end_ in
    let? data := mencode ty msg in
    compress (nm_encode (NetMsg (full_url e) data)).

  (** outbound/rpc.rs:52-76 [call], up to the point where it awaits the
      answer: id, target session and bytes sent.  [ctx_sid] is what
      [cx.session_id()] finds, [cno] names this call's one-shot channel. *)
  Definition rpc_call (m : rpc_map) (cno : nat) (ctx_sid : option session) (end_ : rstring)
      (ty : rtype) (msg : V) (rty : rtype) : nres (u64 * session * bytes) * rpc_map :=
    match parse_endpoint end_ with
    | Err e => (Err e, m)
    | Panic => (Panic, m)
    | Ok e =>
        match ctx_sid with
        | None => (Err NoSessionId, m)
        | Some sid =>
            let (rid, m1) := rm_next m in
            let m2 := rm_insert m1 sid rid (Sender rty cno) in
            (let? data := mencode ty msg in
             let? e' := extend e (rid_str rid) in
             let? raw := compress (nm_encode (NetMsg (full_url e') data)) in
             Ok (rid, sid, raw), m2)
        end
    end.

  (** outbound/rpc.rs:78-99 [response] *)
  Definition rpc_response (ctx_sid : option session) (ctx_rid : option u64) (end_ : rstring)
      (ty : rtype) (msg : V) : nres (session * bytes) :=
    let? e := parse_endpoint end_ in
    let? sid := ok_or ctx_sid NoSessionId in
    let? rid := ok_or ctx_rid NoRpcId in
    let? data := mencode ty msg in
    let? e' := extend e (rid_str rid) in
    let? raw := compress (nm_encode (NetMsg (full_url e') data)) in
    Ok (sid, raw).

  (** reactor/router.rs:65-96 [route_raw_message]: the reactor the message is
      handed to (once), with the message.  Every error is only logged. *)
  Definition route (reactors : gmap bytes reactor) (raw : bytes) : nres (reactor * net_msg) :=
    let? des := decompress raw in
    let? msg := nm_decode des in
    let? e := parse_endpoint (nm_url msg) in
    let? r := root e in
    let? ra := ok_or (reactors !! r) NoReactor in
    Ok (ra, msg).

  (** reactor/mod.rs:60-98 [react]; [rm_take] as one step (see RpcMap.v for
      the interleavings) *)
  Definition react (m : rpc_map) (ra : reactor) (sid : session) (msg : net_msg) : nres (effect V) * rpc_map :=
    match (let? e := parse_endpoint (nm_url msg) in
           let? content := mdecode (ra_ty ra) (nm_content msg) in
           let? sch := scheme_of e in
           Ok (e, content, sch)) with
    | Err x => (Err x, m)
    | Panic => (Panic, m)
    | Ok (e, content, sch) =>
        match sch with
        | Gossip => (Ok (Process (ra_handler ra) sid None content), m)
        | RpcCall =>
            match rpc_id e with
            | Ok rid => (Ok (Process (ra_handler ra) sid (Some rid) content), m)
            | Err x => (Err x, m)
            | Panic => (Panic, m)
            end
        | RpcResponse =>
            match rpc_id e with
            | Ok rid =>
                match rm_take m (ra_ty ra) sid rid with
                | (Ok s, m') => (Ok (Answer s content), m')
                | (Err x, m') => (Err x, m')
                | (Panic, m') => (Panic, m')
                end
            | Err x => (Err x, m)
            | Panic => (Panic, m)
            end
        end
    end.

  (** A raw message arriving on session [sid] (protocols/transmitter.rs:38-47,
      then the router, then the reactor). *)
  Definition receive (n : net_node) (sid : session) (raw : bytes) : nres (effect V) * net_node :=
    match route (nn_reactors n) raw with
    | Ok (ra, msg) =>
        let (r, m) := react (nn_rpc n) ra sid msg in (r, NetNode m (nn_reactors n))
    | Err x => (Err x, n)
    | Panic => (Panic, n)
    end.
End Net.

(** service.rs:189-211 [register_endpoint_handler], 215-236
    [register_rpc_response], called before the service starts (the [router]
    is still there). *)
Inductive registration :=
  | RegHandler (end_ : rstring) (ty : rtype) (h : nat)
  | RegResponse (end_ : rstring) (ty : rtype).

Definition register (m : gmap bytes reactor) (g : registration) : nres (gmap bytes reactor) :=
  match g with
  | RegHandler end_ ty h =>
      let? e := parse_endpoint end_ in
      let? sch := scheme_of e in
      match sch with
      | RpcResponse => Err UnexpectedScheme
      | _ => let? r := root e in Ok (<[r := Reactor ty (Some h)]> m)
      end
  | RegResponse end_ ty =>
      let? e := parse_endpoint end_ in
      let? sch := scheme_of e in
      match sch with
      | RpcResponse => let? r := root e in Ok (<[r := Reactor ty None]> m)
      | _ => Err UnexpectedScheme
      end
  end.

Fixpoint register_all (m : gmap bytes reactor) (l : list registration) : nres (gmap bytes reactor) :=
  match l with
  | [] => Ok m
  | g :: r => let? m' := register m g in register_all m' r
  end.

(** ** src/main.rs:206-324: the endpoints a node registers.  Message types and
    handlers get numbers; the names are those of the code. *)
Definition TY_NewTxs : rtype := 0%nat.
Definition TY_PushTxs : rtype := 1%nat.
Definition TY_PullTxs : rtype := 2%nat.
Definition TY_Proposal : rtype := 3%nat.
Definition TY_QC : rtype := 4%nat.
Definition TY_Vote : rtype := 5%nat.
Definition TY_RichEpochID : rtype := 6%nat.
Definition TY_ConsRpcRequest : rtype := 7%nat.
Definition TY_ConsRpcResponse : rtype := 8%nat.
Definition H_NewTxs : nat := 0%nat.          (* NewTxsHandler *)
Definition H_PullTxs : nat := 1%nat.         (* PullTxsHandler *)
Definition H_Proposal : nat := 2%nat.
Definition H_QC : nat := 3%nat.
Definition H_Vote : nat := 4%nat.
Definition H_RichEpochID : nat := 5%nat.
Definition H_SyncPull : nat := 6%nat.        (* RpcHandler *)

Definition END_GOSSIP_NEW_TXS : rstring := RString (ascii "/gossip/mempool/new_txs"%string) eq_refl.
Definition END_RPC_PULL_TXS : rstring := RString (ascii "/rpc_call/mempool/pull_txs"%string) eq_refl.
Definition END_RESP_PULL_TXS : rstring := RString (ascii "/rpc_resp/mempool/pull_txs"%string) eq_refl.
Definition END_GOSSIP_SIGNED_PROPOSAL : rstring := RString (ascii "/gossip/consensus/signed_proposal"%string) eq_refl.
Definition END_GOSSIP_SIGNED_VOTE : rstring := RString (ascii "/gossip/consensus/signed_vote"%string) eq_refl.
Definition END_GOSSIP_AGGREGATED_VOTE : rstring := RString (ascii "/gossip/consensus/qc"%string) eq_refl.
Definition END_GOSSIP_RICH_EPOCH_ID : rstring := RString (ascii "/gossip/consensus/rich_epoch_id"%string) eq_refl.
Definition RPC_SYNC_PULL : rstring := RString (ascii "/rpc_call/consensus/sync_pull"%string) eq_refl.
Definition RPC_RESP_SYNC_PULL : rstring := RString (ascii "/rpc_resp/consensus/sync_pull"%string) eq_refl.

Definition main_registrations : list registration :=
  [ RegHandler END_GOSSIP_NEW_TXS TY_NewTxs H_NewTxs;
    RegHandler END_RPC_PULL_TXS TY_NewTxs H_NewTxs;
    RegResponse END_RESP_PULL_TXS TY_PushTxs;
    RegHandler END_GOSSIP_SIGNED_PROPOSAL TY_Proposal H_Proposal;
    RegHandler END_GOSSIP_AGGREGATED_VOTE TY_QC H_QC;
    RegHandler END_GOSSIP_SIGNED_VOTE TY_Vote H_Vote;
    RegHandler END_GOSSIP_RICH_EPOCH_ID TY_RichEpochID H_RichEpochID;
    RegHandler RPC_SYNC_PULL TY_ConsRpcRequest H_SyncPull;
    RegResponse RPC_RESP_SYNC_PULL TY_ConsRpcResponse ].

(** Which handlers ever call [Rpc::response]
    (core/mempool/src/adapter/message.rs:101-108,
    core/consensus/src/message.rs, RpcHandler). *)
Definition responds (h : nat) : bool := Nat.eqb h H_PullTxs || Nat.eqb h H_SyncPull.
