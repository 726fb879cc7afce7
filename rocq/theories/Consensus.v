(** * Consensus: core/consensus/src/{engine,consensus,adapter,message}.rs and
    the start of a node, src/main.rs.

    One node: its volatile state ([node]) and what survives a crash
    ([durable]: the block database and the state database).  The overlord
    engine (an external crate) is the environment: it calls [get_epoch],
    [check_epoch] and [commit] with whatever arguments it likes; peers answer
    pull requests with whatever they like.  A call that can be interleaved
    with others is split in steps: [commit] in two (before and after the
    execution), synchronisation in one step per epoch.  Every call returns
    the durable states it went through, so that a crash can happen after any
    atomic write. *)
From Verif Require Import Base BaseFacts Hex Types Rlp FixedCodec StateAdapter Executor Mempool Merkle Bincode ConsMsg
  Proto Wire Storage.
Local Open Scope N_scope.

(** Errors: [ConsensusError], core/consensus/src/lib.rs:22-103, and the errors
    of the adapter's components passed through. *)
Inductive cn_err :=
| CMempool (e : mp_err)
| CStorage (e : st_err)
| CExec (e : exec_err)
| CTypes (e : types_err)
| CMessage (e : msg_err)
| CNetwork (code : N)
| CMissingEpochHeader (id : u64)
| CSyncEpochHashErr (id : u64)
| CLockInSync
| CNotRunning.

(** [CurrentConsensusStatus], protocol/src/traits/consensus.rs:22-37 *)
Record status := MkStatus {
  cs_price : u64; cs_limit : u64; cs_epoch_id : u64; cs_prev_hash : hash; cs_logs_bloom : Bloom;
  cs_order_root : hash; cs_confirm_root : list hash; cs_state_root : hash; cs_receipt_root : list hash;
  cs_cycles_used : u64; cs_proof : proof; cs_validators : list validator; cs_interval : u64 }.

(** The configuration used by [start], src/main.rs:150-290; [cf_pool_size],
    [cf_gap]: the transaction pool. *)
Record config := MkConfig {
  cf_chain_id : hash; cf_self : user_address; cf_price : u64; cf_limit : u64; cf_interval : u64;
  cf_validators : list user_address; cf_pool_size : nat; cf_gap : u64; cf_genesis : genesis }.

(** [Node] of overlord, and its [Ord]: by address (external crate). *)
Record auth := MkAuth { au_address : bytes; au_propose : byte; au_vote : byte }.
(** [Vec::sort]: stable. *)
Fixpoint insert_auth (a : auth) (l : list auth) : list auth :=
  match l with
  | [] => [a]
  | b :: r => if bytes_leb (au_address a) (au_address b) then a :: b :: r else b :: insert_auth a r
  end.
Definition sort_auth (l : list auth) : list auth := foldr insert_auth [] l.
Definition to_auth (v : validator) : auth := MkAuth (ua (va_address v)) (va_propose_weight v) (va_vote_weight v).
(** [covert_to_overlord_authority], engine.rs:420-431; [gen_overlord_status],
    consensus.rs:248-266; [get_authority_list], engine.rs:266-285 *)
Definition authority_list (vs : list validator) : list auth := sort_auth (map to_auth vs).

(** [Commit<FixedPill>] of overlord (external crate): [engine.rs] reads these. *)
Record commit_msg := MkCommit {
  cm_pill : pill; cm_proof_epoch_id : u64; cm_round : u64; cm_epoch_hash : bytes; cm_signature : bytes; cm_bitmap : bytes }.

(** Messages leaving the node: the gossip of a rich epoch id and the status
    handed to overlord.  (A log, not a field of the program.) *)
Inductive out_msg := Rich (id : u64) | RichStatus (id : u64) (interval : u64) (l : list auth).

Notation durable := (gmap (N * bytes) bytes * gmap hash (gmap bytes bytes))%type.

(** A commit between its two halves; a synchronisation between two epochs
    ([next] ranges over [..=rich]: one past it when the loop is over). *)
Inductive busy :=
| Idle
| Committing (epoch_id : u64) (p : pill) (pf : proof) (txs : list signed_tx)
| Syncing (next : N) (rich : u64) (current_hash state_root : hash).

Record node := MkNode {
  nd_status : status; nd_exempt : list hash; nd_pool : mempool; nd_disk : durable; nd_busy : busy;
  nd_out : list out_msg }.

Definition set_disk (n : node) (d : durable) : node :=
  MkNode (nd_status n) (nd_exempt n) (nd_pool n) d (nd_busy n) (nd_out n).
Definition set_pool (n : node) (p : mempool) : node :=
  MkNode (nd_status n) (nd_exempt n) p (nd_disk n) (nd_busy n) (nd_out n).
Definition set_status (n : node) (s : status) : node :=
  MkNode s (nd_exempt n) (nd_pool n) (nd_disk n) (nd_busy n) (nd_out n).
Definition set_busy (n : node) (b : busy) : node :=
  MkNode (nd_status n) (nd_exempt n) (nd_pool n) (nd_disk n) b (nd_out n).
Definition add_exempt (n : node) (h : hash) : node :=
  MkNode (nd_status n) (h :: nd_exempt n) (nd_pool n) (nd_disk n) (nd_busy n) (nd_out n).
Definition add_out (n : node) (m : out_msg) : node :=
  MkNode (nd_status n) (nd_exempt n) (nd_pool n) (nd_disk n) (nd_busy n) (nd_out n ++ [m]).

(** ** State, error and durable trace *)
Definition act (A : Type) := node -> res cn_err A * node * list durable.
Definition aret {A} (a : A) : act A := fun n => (Ok a, n, []).
Definition abind {A B} (m : act A) (k : A -> act B) : act B := fun n =>
  match m n with
  | (Ok a, n1, t1) => let '(r, n2, t2) := k a n1 in (r, n2, t1 ++ t2)
  | (Err e, n1, t1) => (Err e, n1, t1)
  | (Panic, n1, t1) => (Panic, n1, t1)
  end.
Definition alift {A} (r : res cn_err A) : act A := fun n => (r, n, []).
Definition aget : act node := fun n => (Ok n, n, []).
Definition aupd (f : node -> node) : act unit := fun n => (Ok tt, f n, []).
(** Durable changes: one trace entry each. *)
Definition apersist (f : durable -> durable) : act unit := fun n =>
  let d := f (nd_disk n) in (Ok tt, set_disk n d, [d]).
Fixpoint awrites (ws : list (list (N * bytes * option bytes))) : act unit :=
  match ws with
  | [] => aret tt
  | w :: r => abind (apersist (fun d => (apply_write d.1 w, d.2))) (fun _ => awrites r)
  end.
(** Run [m], then release the lock and, if it failed, end whatever was going
    on. *)
Definition atry {A} (m : act A) (release : node -> node) : act A := fun n =>
  match m n with
  | (Ok a, n1, t) => (Ok a, n1, t)
  | (r, n1, t) => (r, release n1, t)
  end.
Notation "'on' x '<-' m ';' k" := (abind m (fun x => k))
  (at level 200, x pattern, m at level 100, k at level 200, right associativity).

Section Consensus.
  Context (digest : bytes -> hash) (root_of : gmap bytes bytes -> hash) (show : exec_err -> rstring)
          (verify : bytes -> bytes -> bytes -> bool) (shapes : nat -> shape).
  Context (cf : config).

  Definition epoch_hash (e : epoch) : hash := digest (enc_epoch e).
  Definition order_root (l : list hash) : hash := merkle_root_or_empty digest shapes l.

  (** What the pool's adapter reads from the storage, core/mempool/src/adapter/mod.rs:234-310 *)
  Definition ext_err {A} (r : sres A) : res mp_err A :=
    match r with Ok a => Ok a | Err GetNone => Err (MExternal 0) | Err _ => Err (MExternal 1) | Panic => Panic end.
  Definition env_of (d : durable) : env :=
    MkEnv (let? e := ext_err (get_latest_epoch rocks_col digest d.1) in
           Ok (eh_chain_id (ep_header e), eh_epoch_id (ep_header e)))
          (fun h => match get_transaction_by_hash rocks_col d.1 h with
                    | Ok _ => Ok true
                    | Err GetNone => Ok false
                    | Err _ => Err (MExternal 1)
                    | Panic => Panic
                    end).

  (** ** adapter.rs *)
  (** [get_txs_from_mempool], adapter.rs:47-54 *)
  Definition get_txs_from_mempool (limit : u64) : act (list hash * list hash) := fun n =>
    let (r, p) := mp_package (nd_pool n) limit (env_of (nd_disk n)) in
    (map_err CMempool r, set_pool n p, []).
  (** [sync_txs], [check_txs], adapter.rs:56-62 *)
  Definition sync_txs (hs : list hash) (pulled : res mp_err (list signed_tx)) : act unit := fun n =>
    let (r, p) := mp_sync_propose_txs (nd_pool n) hs (fun _ => pulled) in (map_err CMempool r, set_pool n p, []).
  Definition check_txs (hs : list hash) (pulled : res mp_err (list signed_tx)) : act unit := fun n =>
    let (r, p) := mp_ensure_order_txs (nd_pool n) hs (fun _ => pulled) in (map_err CMempool r, set_pool n p, []).
  (** [get_full_txs], [flush_mempool], adapter.rs:64-70, 116-118 *)
  Definition get_full_txs (hs : list hash) : act (list signed_tx) :=
    on n <- aget; alift (map_err CMempool (mp_get_full_txs (nd_pool n) hs)).
  Definition flush_mempool (hs : list hash) : act unit := aupd (fun n => set_pool n (mp_flush (nd_pool n) hs)).
  (** [execute], adapter.rs:94-114.  The three trie commits of the executor
      are one durable step; a failed execution writes nothing. *)
  Definition execute (os : nat -> iter_order) (state_root : hash) (epoch_id price : u64) (coinbase : address)
    (txs : list signed_tx) : act exec_resp :=
    on n <- aget;
    on x <- alift (map_err CExec (Executor.from_root digest (cf_chain_id cf) state_root (nd_disk n).2 epoch_id price coinbase));
    on (resp, x') <- alift (map_err CExec (exec digest root_of show os x txs));
    on _ <- apersist (fun d => (d.1, x_db x'));
    aret resp.
  (** [save_*], adapter.rs:120-144 *)
  Definition save_proof (p : proof) : act unit := awrites (update_latest_proof rocks_col digest p).
  Definition save_receipts (l : list receipt) : act unit := awrites (insert_receipts rocks_col l).
  Definition save_signed_txs (l : list signed_tx) : act unit := awrites (insert_transactions rocks_col l).
  Definition save_epoch (e : epoch) : act unit := awrites (insert_epoch rocks_col digest e).

  (** ** engine.rs *)

  (** [get_epoch], engine.rs:48-97; [now] is the clock.  The pool is packaged
      before the epoch id is looked at. *)
  Definition build_epoch (s : status) (epoch_id now : u64) (order : list hash) : epoch :=
    MkEpoch (MkHeader (cf_chain_id cf) epoch_id (cs_prev_hash s) now (cs_logs_bloom s) (order_root order)
               [cs_order_root s] (cs_state_root s) (cs_receipt_root s) (cs_cycles_used s) (cf_self cf)
               (cs_proof s) (wrap64 0) (cs_validators s)) order.
  Definition get_epoch (epoch_id now : u64) : act (pill * hash) :=
    on n <- aget;
    on (order, propose) <- get_txs_from_mempool (cs_limit (nd_status n));
    if decide (cs_epoch_id (nd_status n) = epoch_id) then
      let p := MkPill (build_epoch (nd_status n) epoch_id now order) propose in
      let h := digest (enc_pill p) in
      on _ <- aupd (fun n => add_exempt n h);
      aret (p, h)
    else alift (Err (CMissingEpochHeader epoch_id)).

  (** [check_epoch], engine.rs:99-127 *)
  Definition check_epoch (h : hash) (p : pill) (pulled1 pulled2 : res mp_err (list signed_tx))
    : act (list signed_tx) :=
    on n <- aget;
    on _ <- (if decide (h ∈ nd_exempt n) then aret tt
             else on _ <- sync_txs (pl_propose_hashes p) pulled1;
                  check_txs (ep_ordered_tx_hashes (pl_epoch p)) pulled2);
    get_full_txs (ep_ordered_tx_hashes (pl_epoch p)).

  (** [update_status], engine.rs:331-385 *)
  Definition new_status (s : status) (epoch_id : u64) (e : epoch) (pf : proof) (resp : exec_resp) : status :=
    MkStatus (cs_price s) (cs_limit s) (wrap64 (epoch_id + 1)) (epoch_hash e) (cs_logs_bloom s)
      (order_root (ep_ordered_tx_hashes e)) [order_root (ep_ordered_tx_hashes e)] (er_state_root resp)
      [order_root (map (fun r => digest (enc_receipt r)) (er_receipts resp))]
      (cs_cycles_used s) pf (cs_validators s) (cs_interval s).
  Definition update_status (epoch_id : u64) (e : epoch) (pf : proof) (resp : exec_resp) (txs : list signed_tx)
    : act unit :=
    on _ <- save_receipts (er_receipts resp);
    on _ <- save_signed_txs txs;
    on _ <- save_epoch e;
    aupd (fun n => set_status n (new_status (nd_status n) epoch_id e pf resp)).

  (** [commit], engine.rs:132-207.  First half, to the end of the flush: *)
  Definition commit_start (epoch_id : u64) (c : commit_msg) : act unit :=
    on n <- aget;
    match nd_busy n with
    | Idle =>
        let p := cm_pill c in
        let hs := ep_ordered_tx_hashes (pl_epoch p) in
        on eh <- alift (map_err CTypes (hash_from_bytes (cm_epoch_hash c)));
        let pf := MkProof (cm_proof_epoch_id c) (cm_round c) eh (cm_signature c) (cm_bitmap c) in
        on _ <- save_proof pf;
        on txs <- get_full_txs hs;
        on _ <- flush_mempool hs;
        aupd (fun n => set_busy n (Committing epoch_id p pf txs))
    | _ => alift (Err CLockInSync)
    end.
  (** Second half; [sent] is the result of the broadcast. *)
  Definition commit_finish (os : nat -> iter_order) (sent : res cn_err unit) : act unit :=
    on n <- aget;
    match nd_busy n with
    | Committing epoch_id p pf txs =>
        on _ <- aupd (fun n => set_busy n Idle);
        on resp <- execute os (cs_state_root (nd_status n)) epoch_id (cs_price (nd_status n))
                     (AUser (eh_proposer (ep_header (pl_epoch p)))) txs;
        on _ <- update_status epoch_id (pl_epoch p) pf resp txs;
        on _ <- aupd (fun n => add_out n (Rich (wrap64 (epoch_id + 1))));
        on _ <- alift sent;
        aupd (fun n => add_out n (RichStatus (wrap64 (epoch_id + 1)) (cs_interval (nd_status n))
                                    (authority_list (cs_validators (nd_status n)))))
    | _ => alift (Err CNotRunning)
    end.

  (** ** consensus.rs: update_epoch, 66-187 *)
  Definition pull_reply_epoch (r : res cn_err rpc_response) : res cn_err epoch :=
    match r with Ok (RpEpoch e) => Ok e | Ok (RpTxs _) => Err (CNetwork 0) | Err x => Err x | Panic => Panic end.
  Definition pull_reply_txs (r : res cn_err rpc_response) : res cn_err (list signed_tx) :=
    match r with Ok (RpTxs l) => Ok l | Ok (RpEpoch _) => Err (CNetwork 0) | Err x => Err x | Panic => Panic end.

  (** Up to the loop, consensus.rs:66-116; [first] is the answer to
      the first pull of epoch [current + 1].  [None]: nothing to do. *)
  Definition sync_start (msg : bytes) (first : res cn_err rpc_response) : act unit :=
    on n <- aget;
    match nd_busy n with
    | Syncing _ _ _ _ => aret tt
    | b =>
        on inner <- alift (map_err CMessage (dec_fixed_epoch_id msg));
        let rich := wrap64 (inner + two64 - 1) in
        let current := match get_latest_epoch rocks_col digest (nd_disk n).1 with
                       | Ok e => eh_epoch_id (ep_header e)
                       | _ => wrap64 1
                       end in
        if wrap64 (rich + two64 - 1) <=? current then aret tt
        else
          match b with
          | Idle =>
              if decide (current = wrap64 0) then
                aupd (fun n => set_busy n (Syncing (wrap64 (current + 1)) rich (hash_from_empty digest) (hash_from_empty digest)))
              else
                on e <- alift (map_err CStorage (get_epoch_by_epoch_id rocks_col (nd_disk n).1 current));
                let tmp := epoch_hash e in
                on f <- alift (pull_reply_epoch first);
                if decide (tmp = eh_pre_hash (ep_header f)) then
                  aupd (fun n => set_busy n (Syncing (wrap64 (current + 1)) rich tmp (eh_state_root (ep_header e))))
                else alift (Err (CSyncEpochHashErr (wrap64 (current + 1))))
          | _ => aret tt
          end
    end.

  (** One iteration of the loop, consensus.rs:118-165, or its end,
      consensus.rs:167-185.  [reply_epoch] and [reply_txs] are the answers to the two pulls. *)
  Definition sync_body (os : nat -> iter_order) (id : N) (rich : u64) (current_hash state_root : hash)
    (reply_epoch reply_txs : res cn_err rpc_response) : act unit :=
    on e <- alift (pull_reply_epoch reply_epoch);
    let hd := ep_header e in
    on _ <- (if decide (id <> 1 /\ current_hash <> eh_pre_hash hd) then alift (Err (CSyncEpochHashErr (wrap64 id))) else aret tt);
    on _ <- save_proof (eh_proof hd);
    on txs <- alift (pull_reply_txs reply_txs);
    on n <- aget;
    on resp <- execute os state_root (eh_epoch_id hd) (cs_price (nd_status n)) (AUser (eh_proposer hd)) txs;
    on _ <- update_status (eh_epoch_id hd) e (eh_proof hd) resp txs;
    aupd (fun n => set_busy n (Syncing (id + 1) rich (epoch_hash e) (er_state_root resp))).
  Definition sync_step (os : nat -> iter_order)
    (reply_epoch reply_txs : res cn_err rpc_response) : act unit :=
    on n <- aget;
    match nd_busy n with
    | Syncing id rich current_hash state_root =>
        if id <=? rich then
          atry (sync_body os id rich current_hash state_root reply_epoch reply_txs) (fun n => set_busy n Idle)
        else
          aupd (fun n => add_out (set_busy n Idle)
                           (RichStatus (wrap64 (rich + 1)) (cs_interval (nd_status n)) (authority_list (cs_validators (nd_status n)))))
    | _ => alift (Err CNotRunning)
    end.

  (** ** message.rs: [RpcHandler::process], 134-171: the answer given to a peer *)
  Definition rpc_serve (d : durable) (r : rpc_request) : sres rpc_response :=
    match r with
    | RqEpoch id => let? e := get_epoch_by_epoch_id rocks_col d.1 id in Ok (RpEpoch e)
    | RqTxs hs => let? l := map_res (get_transaction_by_hash rocks_col d.1) hs in Ok (RpTxs l)
    end.

  (** ** src/main.rs *)

  (** The genesis epoch, main.rs:113-142 *)
  Definition genesis_proof : proof := MkProof (wrap64 0) (wrap64 0) (hash_from_empty digest) [] [].
  Definition zero_user : user_address := UA (x10 :: repeat x00 20) eq_refl.
  Definition genesis_epoch (root : hash) : epoch :=
    MkEpoch (MkHeader (cf_chain_id cf) (wrap64 0) (hash_from_empty digest) (gn_timestamp (cf_genesis cf)) zero_bloom
               (hash_from_empty digest) [] root [hash_from_empty digest] (wrap64 0) zero_user genesis_proof (wrap64 0) []) [].

  (** [handle_init], main.rs:68-151: the durable states it goes through, and
      its result. *)
  Fixpoint persist_all (d : durable) (ws : list (list (N * bytes * option bytes))) : list durable :=
    match ws with
    | [] => []
    | w :: r => let d' := (apply_write d.1 w, d.2) in d' :: persist_all d' r
    end.
  Definition genesis_state (o1 o2 : iter_order) (tr : trie_db) : res cn_err (hash * trie_db) :=
    let? x := map_err CExec (Executor.from_root digest (cf_chain_id cf) (hash_from_empty digest) tr (wrap64 0)
                               (cf_price cf) (AUser (cf_self cf))) in
    let? (root, x') := map_err CExec (create_genesis digest root_of o1 o2 x (cf_genesis cf)) in
    Ok (root, x_db x').
  Definition genesis_writes (root : hash) :=
    insert_epoch rocks_col digest (genesis_epoch root) ++ update_latest_proof rocks_col digest genesis_proof.
  Definition handle_init (o1 o2 : iter_order) (d : durable) : res cn_err durable * list durable :=
    match get_latest_epoch rocks_col digest d.1 with
    | Ok _ => (Ok d, [])
    | Err GetNone =>
        match genesis_state o1 o2 d.2 with
        | Ok (root, tr) =>
            let t := persist_all (d.1, tr) (genesis_writes root) in
            (Ok (List.last t (d.1, tr)), (d.1, tr) :: t)
        | Err e => (Err e, [])
        | Panic => (Panic, [])
        end
    | Err e => (Err (CStorage e), [])
    | Panic => (Panic, [])
    end.

  (** [start], main.rs:153-360: [storage.get_latest_epoch().unwrap()]. *)
  Definition start_status (e : epoch) : status :=
    MkStatus (cf_price cf) (cf_limit cf) (wrap64 (eh_epoch_id (ep_header e) + 1)) (epoch_hash e)
      (eh_logs_bloom (ep_header e)) (hash_from_empty digest) [hash_from_empty digest] (eh_state_root (ep_header e))
      [hash_from_empty digest] (eh_cycles_used (ep_header e)) (eh_proof (ep_header e))
      (map (fun a => MkValidator a x01 x01) (cf_validators cf)) (cf_interval cf).
  Definition start (d : durable) : res cn_err node :=
    match get_latest_epoch rocks_col digest d.1 with
    | Ok e =>
        let s := start_status e in
        Ok (MkNode s [] (mp_new (cf_pool_size cf) (cf_gap cf)) d Idle
              [RichStatus (cs_epoch_id s) (cs_interval s) (authority_list (cs_validators s))])
    | _ => Panic
    end.

  (** ** Histories *)
  Inductive call :=
  | CallInsert (net : bool) (t : signed_tx) (sent : res mp_err unit)
  | CallPropose (epoch_id now : u64)
  | CallCheck (h : hash) (p : pill) (pulled1 pulled2 : res mp_err (list signed_tx))
  | CallCommit (epoch_id : u64) (c : commit_msg)
  | CallCommitRest (os : nat -> iter_order) (sent : res cn_err unit)
  | CallSync (msg : bytes) (first : res cn_err rpc_response)
  | CallSyncEpoch (os : nat -> iter_order) (reply_epoch reply_txs : res cn_err rpc_response).

  Inductive reply :=
  | RepUnit
  | RepPill (p : pill) (h : hash)
  | RepTxs (l : list signed_tx).

  Definition run_call (c : call) : act reply :=
    match c with
    | CallInsert net t sent => fun n =>
        let (r, p) := mp_insert digest verify (cf_gap cf) (nd_pool n) net t (env_of (nd_disk n)) sent in
        (map_err CMempool (rmap (fun _ => RepUnit) r), set_pool n p, [])
    | CallPropose id now => on (p, h) <- get_epoch id now; aret (RepPill p h)
    | CallCheck h p pl1 pl2 => on l <- check_epoch h p pl1 pl2; aret (RepTxs l)
    | CallCommit id c => on _ <- commit_start id c; aret RepUnit
    | CallCommitRest os sent => on _ <- commit_finish os sent; aret RepUnit
    | CallSync msg first => on _ <- sync_start msg first; aret RepUnit
    | CallSyncEpoch os re rt => on _ <- sync_step os re rt; aret RepUnit
    end.

  (** The machine a node runs on: [Down] with its disk, or [Up]. *)
  Inductive machine := Down (d : durable) | Up (n : node).
  Definition disk (m : machine) : durable := match m with Down d => d | Up n => nd_disk n end.

  Inductive event :=
  | EvCall (c : call)
  | EvCrash (c : call) (k : nat)              (* during [c], after [k] of its durable changes *)
  | EvBoot (o1 o2 : iter_order)               (* handle_init, then start *)
  | EvBootCrash (o1 o2 : iter_order) (k : nat). (* during handle_init *)

  (** A call that panics leaves the node as it was at that point (the panic
      ends the task, not the process). *)
  Definition happens (m : machine) (e : event) : machine :=
    match e, m with
    | EvCall c, Up n => let '(_, n', _) := run_call c n in Up n'
    | EvCrash c k, Up n => let '(_, _, t) := run_call c n in Down (List.last (take k t) (nd_disk n))
    | EvBoot o1 o2, Down d =>
        match handle_init o1 o2 d with
        | (Ok d', _) => match start d' with Ok n => Up n | _ => Down d' end
        | (_, t) => Down (List.last t d)
        end
    | EvBootCrash o1 o2 k, Down d => let '(_, t) := handle_init o1 o2 d in Down (List.last (take k t) d)
    | _, _ => m
    end.
  Definition history (l : list event) : machine := fold_left happens l (Down (∅, ∅)).
End Consensus.
