(** * TwoNodes: messages between whole nodes, as the bytes on the wire; the
    vocabulary of C110 and C111.

    NetMsg.v leaves the types of messages and their codecs open; here they are
    those of the code (ConsMsg.v), the endpoints are those main.rs registers and
    the handlers act on the node of Consensus.v.  The compression stays a
    parameter (Snappy's frame format, an external crate). *)
From Verif Require Import Base Types FixedCodec StateAdapter Executor Mempool Merkle Bincode ConsMsg Proto Wire Storage StorageSpec
  Consensus ConsSpec SyncSpec Endpoint RpcMap NetMsg.
From Coq Require Import Permutation.
From stdpp Require Import gmap.
Local Open Scope N_scope.

(** The values of the message types of main.rs:206-324. *)
Inductive netv :=
| VTxs (l : list signed_tx)        (* MsgNewTxs, MsgPushTxs *)
| VHashes (l : list hash)          (* MsgPullTxs *)
| VBlob (b : bytes)                (* Proposal, QC, Vote, RichEpochID *)
| VRequest (r : rpc_request)       (* ConsensusRpcRequest *)
| VResponse (r : ConsMsg.rpc_response).  (* ConsensusRpcResponse *)

(** [MessageCodec::encode]: protocol/src/traits/network.rs:36-46 with the types'
    [Serialize]; core/consensus/src/fixed_types.rs:27-46 for the responses.
    Writing into memory cannot fail; a value of another type is no Rust program. *)
Definition menc (ty : rtype) (v : netv) : nres bytes :=
  match ty, v with
  | 0%nat, VTxs l => Ok (enc_txs l)
  | 1%nat, VTxs l => Ok (enc_txs l)
  | 2%nat, VHashes l => Ok (enc_hashes l)
  | 3%nat, VBlob b => Ok (enc_blob b)
  | 4%nat, VBlob b => Ok (enc_blob b)
  | 5%nat, VBlob b => Ok (enc_blob b)
  | 6%nat, VBlob b => Ok (enc_blob b)
  | 7%nat, VRequest r => Ok (enc_request r)
  | 8%nat, VResponse r => Ok (enc_response r)
  | _, _ => Err BadMessage
  end.

(** [MessageCodec::decode]: network.rs:48-50, fixed_types.rs:48-65. *)
Definition read {A} (f : A -> netv) (r : res msg_err A) : nres netv :=
  match r with Ok a => Ok (f a) | Err _ => Err BadMessage | Panic => Panic end.
Definition mdec (ty : rtype) (b : bytes) : nres netv :=
  match ty with
  | 0%nat => read VTxs (dec_txs b)
  | 1%nat => read VTxs (dec_txs b)
  | 2%nat => read VHashes (dec_hashes b)
  | 3%nat => read VBlob (dec_blob b)
  | 4%nat => read VBlob (dec_blob b)
  | 5%nat => read VBlob (dec_blob b)
  | 6%nat => read VBlob (dec_blob b)
  | 7%nat => read VRequest (dec_request b)
  | 8%nat => read VResponse (dec_response b)
  | _ => Err BadMessage
  end.

(** What a message makes a node do. *)
Inductive reaction :=
| RInserts (l : list signed_tx)          (* spawn an insert for each, mempool message.rs:44-63 *)
| REngine (h : nat) (b : bytes)          (* hand a proposal, vote or aggregate to the engine, consensus message.rs:60-118 *)
| RAnnounced (sid : session) (b : bytes) (* update_epoch, consensus message.rs:120-132 *)
| RReply (sid : session) (raw : bytes)   (* send an answer, consensus message.rs:134-171 *)
| RComplete (cno : nat) (v : netv)       (* an answer reaches the call that waits for it, reactor/mod.rs:84-93 *)
| RNothing.                              (* only a line in the log *)

Section Wire.
  Context (compress decompress : bytes -> nres bytes).

  (** A raw message arriving on session [sid] at a node with disk [d]. *)
  Definition on_message (d : durable) (n : net_node) (sid : session) (raw : bytes) : reaction * net_node :=
    match receive decompress mdec n sid raw with
    | (Ok (Process (Some h) s rid v), n') =>
        (match v with
         | VTxs l => RInserts l
         | VBlob b => if Nat.eqb h H_RichEpochID then RAnnounced s b else REngine h b
         | VRequest rq =>
             match rpc_serve d rq with
             | Ok a =>
                 match rpc_response compress menc (Some s) rid RPC_RESP_SYNC_PULL TY_ConsRpcResponse (VResponse a) with
                 | Ok (s', raw') => RReply s' raw'
                 | _ => RNothing
                 end
             | _ => RNothing
             end
         | _ => RNothing
         end, n')
    | (Ok (Answer to v), n') => (RComplete (snd_call to) v, n')
    | (_, n') => (RNothing, n')
    end.

  (** [pull_epoch], [pull_txs], core/consensus/src/adapter.rs:153-195, up to the
      point where they await the answer. *)
  Definition send_request (n : net_node) (sid : session) (cno : nat) (rq : rpc_request) : nres (u64 * bytes) * net_node :=
    let (r, m) := rpc_call compress menc (nn_rpc n) cno (Some sid) RPC_SYNC_PULL TY_ConsRpcRequest (VRequest rq) TY_ConsRpcResponse in
    (let? x := r in Ok (x.1.1, x.2), NetNode m (nn_reactors n)).

  (** What else a node's network does in the meantime: other calls, to any
      session with any message, and messages coming in on any session. *)
  Inductive traffic :=
  | TCall (cno : nat) (sid : session) (end_ : rstring) (ty : rtype) (v : netv) (rty : rtype)
  | TIn (sid : session) (raw : bytes).
  Definition net_step (n : net_node) (e : traffic) : net_node :=
    match e with
    | TCall cno sid end_ ty v rty => NetNode (rpc_call compress menc (nn_rpc n) cno (Some sid) end_ ty v rty).2 (nn_reactors n)
    | TIn sid raw => (receive decompress mdec n sid raw).2
    end.
  Definition net_steps (n : net_node) (es : list traffic) : net_node := fold_left net_step es n.

  (** [raw] is a response to the call numbered [rid] (by its URL) that can be
      read as a message of some type. *)
  Definition responds_to (rid : u64) (raw : bytes) : Prop :=
    exists des msg e ty v, decompress raw = Ok des /\ nm_decode des = Ok msg /\ parse_endpoint (nm_url msg) = Ok e /\
      scheme_of e = Ok RpcResponse /\ rpc_id e = Ok rid /\ mdec ty (nm_content msg) = Ok v.
  (** The session [sid] carries no other response to the call [rid]. *)
  Definition no_response (sid : session) (rid : u64) (e : traffic) : Prop :=
    match e with TIn s raw => s = sid -> ~ responds_to rid raw | TCall _ _ _ _ _ _ => True end.

  (** A request and its answer over the wire: the node [nA] calls the peer on
      session [sid], the peer (disk [d]) gets the bytes on its session [sidB]
      and answers, and meanwhile [es] happens at [nA].  A call whose answer does
      not come or cannot be read does not return. *)
  Definition wire_ask (d : durable) (nB : net_node) (sidB : session) (nA : net_node) (sid : session) (cno : nat)
      (rq : rpc_request) (es : list traffic) : option ConsMsg.rpc_response * net_node :=
    match send_request nA sid cno rq with
    | (Ok (rid, raw), nA1) =>
        match (on_message d nB sidB raw).1 with
        | RReply _ rawB =>
            let '(r, nA2) := on_message (∅, ∅) (net_steps nA1 es) sid rawB in
            match r with
            | RComplete c (VResponse v) => if Nat.eqb c cno then (Some v, nA2) else (None, nA2)
            | _ => (None, nA2)
            end
        | _ => (None, net_steps nA1 es)
        end
    | (_, nA1) => (None, nA1)
    end.

  (** ** A node that synchronises over the wire *)
  Context (digest : bytes -> hash) (root_of : gmap bytes bytes -> hash) (show : exec_err -> rstring)
          (verify : bytes -> bytes -> bytes -> bool) (shapes : nat -> shape) (cf : config).
  Notation run_call := (run_call digest root_of show verify shapes cf).

  Record wired := Wired { w_net : net_node; w_node : node; w_calls : nat }.

  (** What a peer's answer is to the caller; [None]: no answer. *)
  Definition answer_of (o : option ConsMsg.rpc_response) : res cn_err ConsMsg.rpc_response :=
    match o with Some r => Ok r | None => Err (CNetwork 1) end.

  (** Whether the handler of an announcement pulls an epoch before it starts,
      and which (consensus.rs:66-108). *)
  Definition first_pull (n : node) (msg : bytes) : option u64 :=
    match nd_busy n, dec_fixed_epoch_id msg with
    | Idle, Ok inner =>
        let current := match get_latest_epoch rocks_col digest (nd_disk n).1 with
                       | Ok e => eh_epoch_id (ep_header e)
                       | _ => wrap64 1
                       end in
        if wrap64 (wrap64 (inner + two64 - 1) + two64 - 1) <=? current then None
        else if decide (current = wrap64 0) then None
        else match get_epoch_by_epoch_id rocks_col (nd_disk n).1 current with
             | Ok _ => Some (wrap64 (current + 1))
             | _ => None
             end
    | _, _ => None
    end.

  (** An announcement arrives as bytes [raw] on session [sid]; if the handler
      pulls an epoch first, it asks on the session the announcement came from
      (the context is passed on), while [es] happens. *)
  Definition wire_announced (d : durable) (nB : net_node) (sidB : session) (w : wired) (sid : session) (raw : bytes)
      (es : list traffic) : wired * list durable :=
    match on_message (nd_disk (w_node w)) (w_net w) sid raw with
    | (RAnnounced s b, nA) =>
        match first_pull (w_node w) b with
        | Some id =>
            let '(o, nA') := wire_ask d nB sidB nA s (w_calls w) (RqEpoch id) es in
            let '(_, n', t) := run_call (CallSync b (answer_of o)) (w_node w) in (Wired nA' n' (S (w_calls w)), t)
        | None =>
            let '(_, n', t) := run_call (CallSync b (Err (CNetwork 1))) (w_node w) in (Wired nA n' (w_calls w), t)
        end
    | (_, nA) => (Wired nA (w_node w) (w_calls w), [])
    end.

  (** One round of the loop, consensus.rs:118-165: the epoch, then its
      transactions, are pulled on the same session; or the end of the loop. *)
  Definition wire_pull (d : durable) (nB : net_node) (sidB : session) (sid : session) (w : wired)
      (os : nat -> iter_order) (es1 es2 : list traffic) : wired * list durable :=
    match nd_busy (w_node w) with
    | Syncing id rich ch _ =>
        if id <=? rich then
          let '(o1, nA1) := wire_ask d nB sidB (w_net w) sid (w_calls w) (RqEpoch (wrap64 id)) es1 in
          match o1 with
          | Some (RpEpoch e) =>
              let '(o2, nA2) := if decide (id <> 1 /\ ch <> eh_pre_hash (ep_header e)) then (None, nA1)
                                else wire_ask d nB sidB nA1 sid (S (w_calls w)) (RqTxs (ep_ordered_tx_hashes e)) es2 in
              let '(_, n', t) := run_call (CallSyncEpoch os (answer_of o1) (answer_of o2)) (w_node w) in
              (Wired nA2 n' (S (S (w_calls w))), t)
          | _ =>
              let '(_, n', t) := run_call (CallSyncEpoch os (answer_of o1) (Err (CNetwork 1))) (w_node w) in
              (Wired nA1 n' (S (w_calls w)), t)
          end
        else
          let '(_, n', t) := run_call (CallSyncEpoch os (Err (CNetwork 1)) (Err (CNetwork 1))) (w_node w) in
          (Wired (w_net w) n' (w_calls w), t)
    | _ => (w, [])
    end.
  Definition wire_pulls (d : durable) (nB : net_node) (sidB : session) (sid : session) (w : wired)
      (l : list ((nat -> iter_order) * list traffic * list traffic)) : wired :=
    fold_left (fun w x => (wire_pull d nB sidB sid w x.1.1 x.1.2 x.2).1) l w.

  (** The durable states the rounds go through. *)
  Fixpoint wire_disks (d : durable) (nB : net_node) (sidB sid : session) (w : wired) (l : list ((nat -> iter_order) * list traffic * list traffic))
      : list durable :=
    match l with
    | [] => []
    | x :: r => let '(w', t) := wire_pull d nB sidB sid w x.1.1 x.1.2 x.2 in t ++ wire_disks d nB sidB sid w' r
    end.

  (** ** Any other message: the calls that the handler of what arrived makes.
      The tasks spawned for a batch run in any order (mempool message.rs:47-61);
      [first] is what the first pull of an announcement's handler gets.  The
      engine (the crate overlord) is not part of this node, nor are the calls
      that wait for answers. *)
  Definition takes (r : reaction) (cs : list Consensus.call) : Prop :=
    match r with
    | RInserts l => exists l', Permutation l' l /\ cs = map (fun t => CallInsert true t (Ok tt)) l'
    | RAnnounced _ b => exists first, cs = [CallSync b first]
    | _ => cs = []
    end.
  (** The node after these calls, and the durable states gone through. *)
  Fixpoint does (n : node) (cs : list Consensus.call) : node * list durable :=
    match cs with
    | [] => (n, [])
    | c :: r => let '(_, n1, t1) := run_call c n in let '(n2, t2) := does n1 r in (n2, t1 ++ t2)
    end.
  (** The node [n], with network [nn], gets [raw] on session [sid] and becomes [n']. *)
  Definition arrives (nn : net_node) (n : node) (sid : session) (raw : bytes) (nn' : net_node) (n' : node) (t : list durable) : Prop :=
    exists cs, takes (on_message (nd_disk n) nn sid raw).1 cs /\ nn' = (on_message (nd_disk n) nn sid raw).2 /\ does n cs = (n', t).

  (** ** Waiting for an answer *)
  (** An announcement arrives as bytes [raw] on session [sid], and its handler
      sends its first request: the first pull (consensus.rs:98-106), or, if the
      latest epoch is the 0th, that of the loop (consensus.rs:118-123).  It
      then awaits the answer, without a limit of time (core/network/src/
      outbound/rpc.rs:70-75), and holds both locks (consensus.rs:67, 90), which
      is what [Syncing] stands for.  [Some]: the number of the request and the
      node that waits. *)
  Definition wire_begins (w : wired) (sid : session) (raw : bytes) : option (u64 * wired) :=
    let n := w_node w in
    match on_message (nd_disk n) (w_net w) sid raw with
    | (RAnnounced s b, nA) =>
        let waits id n' := match send_request nA s (w_calls w) (RqEpoch id) with
                           | (Ok (rid, _), nA') => Some (rid, Wired nA' n' (S (w_calls w)))
                           | _ => None
                           end in
        match first_pull n b with
        | Some id => waits id (set_busy n (Syncing id id (hash_from_empty digest) (hash_from_empty digest)))
        | None =>
            let n1 := (run_call (CallSync b (Err (CNetwork 1))) n).1.2 in
            match nd_busy n, nd_busy n1 with
            | Idle, Syncing id rich _ _ => if id <=? rich then waits (wrap64 id) n1 else None
            | _, _ => None
            end
        end
    | _ => None
    end.

  (** What may happen meanwhile: messages on any session, calls by the engine,
      the API and the mempool (all but the rest of the handler that waits), and
      other requests. *)
  Inductive meantime :=
  | MMessage (sid : session) (raw : bytes)
  | MCall (c : Consensus.call)
  | MRequest (cno : nat) (sid : session) (end_ : rstring) (ty : rtype) (v : netv) (rty : rtype).
  Definition without_answer (sid : session) (rid : u64) (x : meantime) : Prop :=
    match x with
    | MMessage s raw => s = sid -> ~ responds_to rid raw
    | MCall (CallSyncEpoch _ _ _) => False
    | _ => True
    end.

  (** A run of them, with the calls made and their results, and the durable states gone through. *)
  Inductive meanwhile : wired -> list meantime -> wired -> list (Consensus.call * res cn_err reply) -> list durable -> Prop :=
  | mw_nil w : meanwhile w [] w [] []
  | mw_message nn n k s raw nn' n' t1 l w' rs t :
      arrives nn n s raw nn' n' t1 -> meanwhile (Wired nn' n' k) l w' rs t ->
      meanwhile (Wired nn n k) (MMessage s raw :: l) w' rs (t1 ++ t)
  | mw_call nn n k c r n' t1 l w' rs t :
      run_call c n = (r, n', t1) -> meanwhile (Wired nn n' k) l w' rs t ->
      meanwhile (Wired nn n k) (MCall c :: l) w' ((c, r) :: rs) (t1 ++ t)
  | mw_request nn n k cno s end_ ty v rty l w' rs t :
      meanwhile (Wired (net_step nn (TCall cno s end_ ty v rty)) n k) l w' rs t ->
      meanwhile (Wired nn n k) (MRequest cno s end_ ty v rty :: l) w' rs t.
End Wire.
