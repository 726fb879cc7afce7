(** * core/mempool/src: transaction pool, sequential semantics.
    One operation at a time; interleavings are in MempoolConc.v. *)
From Verif Require Import Base BaseFacts Hex Types Rlp FixedCodec.
Local Open Scope N_scope.

(** lib.rs:178-216; [MExternal] stands for errors of storage, network and the
    broadcaster passed through unchanged. *)
Inductive mp_err :=
| MInsert (h : hash)
| MReachLimit (pool_size : nat)
| MDup (h : hash)
| MEnsureBreak (require response : nat)
| MMisMatch (require response : nat)
| MInsertCandidate (len : nat)
| MCheckSig (h : hash)
| MCheckHash (expect actual : hash)
| MCommittedTx (h : hash)
| MWrongChain (h : hash)
| MTimeout (h : hash) (timeout : u64)
| MInvalidTimeout (h : hash)
| MExternal (code : N).

(** [TxWrapper], tx_cache.rs:21-33.  [Arc] identity is [w_id]; the atomic
    [removed] flag lives in [tc_removed]; [proposed] is never changed after
    construction. *)
Record wrapper := MkW { w_id : nat; w_tx : signed_tx; w_proposed : bool }.
Definition w_hash (w : wrapper) : hash := st_tx_hash (w_tx w).

(** [TxCache], tx_cache.rs:114-129.  An [ArrayQueue] is a list (front first)
    with the capacity [tc_cap]; the sharded [Map] is one map (C43). *)
Record tx_cache := MkTC {
  tc_cap : nat; tc_q0 : list wrapper; tc_q1 : list wrapper; tc_map : gmap hash wrapper;
  tc_zero : bool; tc_removed : gset nat; tc_next : nat }.

(** tx_cache.rs:132-140 *)
Definition tc_new (pool_size : nat) : tx_cache := MkTC (pool_size * 2) [] [] ∅ true ∅ 0.

Definition tc_incumbent (c : tx_cache) : list wrapper := if tc_zero c then tc_q0 c else tc_q1 c.
Definition tc_candidate (c : tx_cache) : list wrapper := if tc_zero c then tc_q1 c else tc_q0 c.
Definition tc_set_queues (c : tx_cache) (incumbent candidate : list wrapper) : tx_cache :=
  if tc_zero c then MkTC (tc_cap c) incumbent candidate (tc_map c) true (tc_removed c) (tc_next c)
  else MkTC (tc_cap c) candidate incumbent (tc_map c) false (tc_removed c) (tc_next c).
Definition tc_set_map (c : tx_cache) (m : gmap hash wrapper) : tx_cache :=
  MkTC (tc_cap c) (tc_q0 c) (tc_q1 c) m (tc_zero c) (tc_removed c) (tc_next c).

(** [len], [contain], [get]: tx_cache.rs:142-144, 267-275 *)
Definition tc_len (c : tx_cache) : nat := size (tc_map c).
Definition tc_contain (c : tx_cache) (h : hash) : bool := bool_decide (is_Some (tc_map c !! h)).
Definition tc_get (c : tx_cache) (h : hash) : option signed_tx := w_tx <$> tc_map c !! h.

(** [insert], tx_cache.rs:286-313, with the wrapper built by [insert_new_tx]
    ([proposed = false]) or [insert_propose_tx] ([true]), tx_cache.rs:146-158 *)
Definition tc_insert (c : tx_cache) (tx : signed_tx) (proposed : bool) : res mp_err unit * tx_cache :=
  let h := st_tx_hash tx in
  let w := MkW (tc_next c) tx proposed in
  match tc_map c !! h with
  | Some _ => (Err (MDup h), c)
  | None =>
      let c1 := MkTC (tc_cap c) (tc_q0 c) (tc_q1 c) (<[h := w]> (tc_map c)) (tc_zero c)
                     (tc_removed c) (S (tc_next c)) in
      if (tc_cap c <=? length (tc_incumbent c))%nat
      then (Err (MInsert h), tc_set_map c1 (delete h (tc_map c1)))
      else (Ok tt, tc_set_queues c1 (tc_incumbent c1 ++ [w]) (tc_candidate c1))
  end.

(** [show_unknown], tx_cache.rs:160-165 *)
Definition tc_show_unknown (c : tx_cache) (hs : list hash) : list hash :=
  filter (fun h => tc_contain c h = false) hs.

Definition map_deletes {V} (m : gmap hash V) (hs : list hash) : gmap hash V :=
  fold_left (fun m h => delete h m) hs m.

(** [flush], tx_cache.rs:167-176 *)
Definition tc_flush (c : tx_cache) (hs : list hash) : tx_cache :=
  let removed := fold_left (fun r h => match tc_map c !! h with Some w => {[ w_id w ]} ∪ r | None => r end)
                           hs (tc_removed c) in
  MkTC (tc_cap c) (tc_q0 c) (tc_q1 c) (map_deletes (tc_map c) hs) (tc_zero c) removed (tc_next c).

(** ** package, tx_cache.rs:178-247 *)

(** [is_timeout], tx_cache.rs:67-70 *)
Definition is_timeout (t : signed_tx) (current timeout : u64) : bool :=
  (rt_timeout (st_raw t) <=? current) || (timeout <? rt_timeout (st_raw t)).

Definition tx_cycle (t : signed_tx) : u64 := fee_cycle (rt_fee (st_raw t)).

(** tx_cache.rs:78-96 *)
Inductive stage := OrderTxs | ProposeTxs | Finished.
Definition stage_next (s : stage) : res mp_err stage :=
  match s with OrderTxs => Ok ProposeTxs | ProposeTxs => Ok Finished | Finished => Panic end.

(** Local variables of [package]; [pk_cand] is the candidate queue. *)
Record pk := MkPk {
  pk_order : list hash; pk_propose : list hash; pk_timeout : list hash;
  pk_cycles : u64; pk_stage : stage; pk_cand : list wrapper }.

(** One iteration of the loop for a popped wrapper, tx_cache.rs:197-232.
    [cycle_count += ..] wraps. *)
Definition pk_visit (cap : nat) (limit current timeout : u64) (removed : gset nat) (w : wrapper) (s : pk)
  : res mp_err pk :=
  if decide (w_id w ∈ removed) then Ok s
  else if is_timeout (w_tx w) current timeout then
    Ok (MkPk (pk_order s) (pk_propose s) (pk_timeout s ++ [w_hash w]) (pk_cycles s) (pk_stage s) (pk_cand s))
  else if (cap <=? length (pk_cand s))%nat then Err (MInsertCandidate (length (pk_cand s)))
  else
    let s := MkPk (pk_order s) (pk_propose s) (pk_timeout s) (pk_cycles s) (pk_stage s) (pk_cand s ++ [w]) in
    if match pk_stage s with Finished => true | ProposeTxs => w_proposed w | OrderTxs => false end then Ok s
    else
      let count := wrap64 (pk_cycles s + tx_cycle (w_tx w)) in
      let? (st, count) := (if limit <? count then let? st := stage_next (pk_stage s) in Ok (st, tx_cycle (w_tx w))
                           else Ok (pk_stage s, count)) in
      Ok (match st with
          | OrderTxs => MkPk (pk_order s ++ [w_hash w]) (pk_propose s) (pk_timeout s) count st (pk_cand s)
          | ProposeTxs => MkPk (pk_order s) (pk_propose s ++ [w_hash w]) (pk_timeout s) count st (pk_cand s)
          | Finished => MkPk (pk_order s) (pk_propose s) (pk_timeout s) count st (pk_cand s)
          end).

(** The loop until the incumbent queue is empty; on an error the popped
    wrapper is dropped and the rest stays where it is. *)
Fixpoint pk_loop (cap : nat) (limit current timeout : u64) (removed : gset nat) (q : list wrapper) (s : pk)
  : res mp_err pk * list wrapper * list wrapper :=
  match q with
  | [] => (Ok s, [], pk_cand s)
  | w :: q' =>
      match pk_visit cap limit current timeout removed w s with
      | Ok s' => pk_loop cap limit current timeout removed q' s'
      | Err e => (Err e, q', pk_cand s)
      | Panic => (Panic, q', pk_cand s)
      end
  end.

(** [process_omission_txs], tx_cache.rs:316-330: entries that do not fit are
    dropped silently. *)
Definition push_omission (cap : nat) (q : list wrapper) (w : wrapper) : list wrapper :=
  if (cap <=? length q)%nat then q else q ++ [w].

Definition tc_package (c : tx_cache) (limit current timeout : u64)
  : res mp_err (list hash * list hash) * tx_cache :=
  match pk_loop (tc_cap c) limit current timeout (tc_removed c) (tc_incumbent c)
                (MkPk [] [] [] (wrap64 0) OrderTxs (tc_candidate c)) with
  | (Ok s, rest, cand) =>
      let q := fold_left (push_omission (tc_cap c)) rest cand in
      (Ok (pk_order s, pk_propose s),
       MkTC (tc_cap c) (if tc_zero c then [] else q) (if tc_zero c then q else [])
            (map_deletes (tc_map c) (pk_timeout s)) (negb (tc_zero c)) (tc_removed c) (tc_next c))
  | (Err e, rest, cand) => (Err e, tc_set_queues c rest cand)
  | (Panic, rest, cand) => (Panic, tc_set_queues c rest cand)
  end.

(** ** lib.rs: HashMemPool.  [mp_out] records what was handed to
    [broadcast_tx], in order (not a field of the program). *)
Record mempool := MkMP {
  mp_size : nat; mp_gap : u64; mp_tc : tx_cache; mp_cb : gmap hash signed_tx; mp_out : list signed_tx }.

(** lib.rs:48-57: the cache is built with [pool_size * 2]. *)
Definition mp_new (pool_size : nat) (gap : u64) : mempool :=
  MkMP pool_size gap (tc_new (pool_size * 2)) ∅ [].

Definition mp_set_tc (p : mempool) (c : tx_cache) : mempool :=
  MkMP (mp_size p) (mp_gap p) c (mp_cb p) (mp_out p).

(** What the storage answers during one call: the latest epoch's chain id and
    epoch id, and whether a transaction hash is stored ([Ok false] is the
    error containing "GetNone", adapter/mod.rs:279-290). *)
Record env := MkEnv { en_latest : res mp_err (hash * u64); en_stored : hash -> res mp_err bool }.

Section Pool.
  (** [verify msg sig pubkey]: [Crypto::verify_signature]. *)
  Context (digest : bytes -> hash) (verify : bytes -> bytes -> bytes -> bool).

  (** [check_signature], adapter/mod.rs:217-229 *)
  Definition check_signature (t : signed_tx) : res mp_err unit :=
    if verify (sbytes (st_tx_hash t)) (st_signature t) (st_pubkey t) then Ok tt
    else Err (MCheckSig (st_tx_hash t)).

  (** [check_transaction], adapter/mod.rs:234-277; [gap] is the adapter's
      [timeout_gap]; the [u64] sum wraps. *)
  Definition check_transaction (gap : u64) (e : env) (t : signed_tx) : res mp_err unit :=
    let h := digest (enc_raw (st_raw t)) in
    if decide (h = st_tx_hash t) then
      let? (chain, epoch) := en_latest e in
      if decide (chain = rt_chain_id (st_raw t)) then
        if wrap64 (epoch + gap) <? rt_timeout (st_raw t) then Err (MInvalidTimeout (st_tx_hash t))
        else if rt_timeout (st_raw t) <? epoch then Err (MTimeout (st_tx_hash t) (rt_timeout (st_raw t)))
        else Ok tt
      else Err (MWrongChain (st_tx_hash t))
    else Err (MCheckHash (st_tx_hash t) h).

  (** [check_storage_exist], adapter/mod.rs:279-290 *)
  Definition check_storage_exist (e : env) (h : hash) : res mp_err unit :=
    let? found := en_stored e h in
    if found then Err (MCommittedTx h) else Ok tt.

  (** [check_reach_limit], [check_exist], tx_cache.rs:249-265 *)
  Definition check_reach_limit (p : mempool) : res mp_err unit :=
    if (mp_size p <=? tc_len (mp_tc p))%nat then Err (MReachLimit (mp_size p)) else Ok tt.
  Definition check_exist (p : mempool) (h : hash) : res mp_err unit :=
    if tc_contain (mp_tc p) h then Err (MDup h) else Ok tt.

  (** The checks of [insert], lib.rs:77-90, in order *)
  Definition insert_checks (gap : u64) (p : mempool) (e : env) (t : signed_tx) : res mp_err unit :=
    let? _ := check_reach_limit p in
    let? _ := check_exist p (st_tx_hash t) in
    let? _ := check_signature t in
    let? _ := check_transaction gap e t in
    check_storage_exist e (st_tx_hash t).

  (** [insert], lib.rs:74-98; [net] is [ctx.is_network_origin_txs()], [b] the
      result of [broadcast_tx] (adapter/mod.rs:201-215), which may be the
      error of an earlier broadcast. *)
  Definition mp_insert (gap : u64) (p : mempool) (net : bool) (t : signed_tx) (e : env) (b : res mp_err unit)
    : res mp_err unit * mempool :=
    match insert_checks gap p e t with
    | Ok _ =>
        let (r, c) := tc_insert (mp_tc p) t false in
        match r with
        | Ok _ =>
            if net then (Ok tt, mp_set_tc p c)
            else (b, MkMP (mp_size p) (mp_gap p) c (mp_cb p) (mp_out p ++ [t]))
        | Err x => (Err x, mp_set_tc p c)
        | Panic => (Panic, mp_set_tc p c)
        end
    | Err x => (Err x, p)
    | Panic => (Panic, p)
    end.

  (** [package], lib.rs:100-108 *)
  Definition mp_package (p : mempool) (limit : u64) (e : env)
    : res mp_err (list hash * list hash) * mempool :=
    match en_latest e with
    | Ok (_, epoch) =>
        let (r, c) := tc_package (mp_tc p) limit epoch (wrap64 (epoch + mp_gap p)) in
        (r, mp_set_tc p c)
    | Err x => (Err x, p)
    | Panic => (Panic, p)
    end.

  (** [flush], lib.rs:110-114 *)
  Definition mp_flush (p : mempool) (hs : list hash) : mempool :=
    MkMP (mp_size p) (mp_gap p) (tc_flush (mp_tc p) hs) ∅ (mp_out p).

  (** [get_full_txs], lib.rs:116-142 *)
  Definition mp_lookup (p : mempool) (h : hash) : option signed_tx :=
    match tc_get (mp_tc p) h with Some t => Some t | None => mp_cb p !! h end.
  Definition mp_get_full_txs (p : mempool) (hs : list hash) : res mp_err (list signed_tx) :=
    let txs := omap (mp_lookup p) hs in
    if decide (length txs = length hs) then Ok txs else Err (MMisMatch (length hs) (length txs)).

  (** [Map::insert] on the callback cache: a present key is kept. *)
  Definition cb_insert (m : gmap hash signed_tx) (t : signed_tx) : gmap hash signed_tx :=
    match m !! st_tx_hash t with Some _ => m | None => <[st_tx_hash t := t]> m end.

  (** [ensure_order_txs], lib.rs:144-167; [pull] is the answer of the peer to
      the request for the unknown hashes. *)
  Definition mp_ensure_order_txs (p : mempool) (hs : list hash) (pull : list hash -> res mp_err (list signed_tx))
    : res mp_err unit * mempool :=
    let unknown := tc_show_unknown (mp_tc p) hs in
    match unknown with
    | [] => (Ok tt, p)
    | _ =>
        match pull unknown with
        | Ok txs =>
            if decide (length txs = length unknown)
            then (Ok tt, MkMP (mp_size p) (mp_gap p) (mp_tc p) (fold_left cb_insert txs (mp_cb p)) (mp_out p))
            else (Err (MEnsureBreak (length unknown) (length txs)), p)
        | Err x => (Err x, p)
        | Panic => (Panic, p)
        end
    end.

  (** [sync_propose_txs], lib.rs:169-184: insertion errors are ignored *)
  Definition mp_sync_propose_txs (p : mempool) (hs : list hash) (pull : list hash -> res mp_err (list signed_tx))
    : res mp_err unit * mempool :=
    let unknown := tc_show_unknown (mp_tc p) hs in
    match unknown with
    | [] => (Ok tt, p)
    | _ =>
        match pull unknown with
        | Ok txs => (Ok tt, mp_set_tc p (fold_left (fun c t => snd (tc_insert c t true)) txs (mp_tc p)))
        | Err x => (Err x, p)
        | Panic => (Panic, p)
        end
    end.

  (** ** Histories of calls *)
  Inductive mp_op :=
  | OpInsert (net : bool) (t : signed_tx) (e : env) (b : res mp_err unit)
  | OpPackage (limit : u64) (e : env)
  | OpFlush (hs : list hash)
  | OpEnsure (hs : list hash) (pull : list hash -> res mp_err (list signed_tx))
  | OpSync (hs : list hash) (pull : list hash -> res mp_err (list signed_tx))
  | OpGetFull (hs : list hash).
  Inductive mp_resp :=
  | RsUnit (r : res mp_err unit)
  | RsPackage (r : res mp_err (list hash * list hash))
  | RsTxs (r : res mp_err (list signed_tx)).

  (** [gap]: the adapter's gap *)
  Definition mp_step (gap : u64) (p : mempool) (o : mp_op) : mp_resp * mempool :=
    match o with
    | OpInsert net t e b => let (r, p') := mp_insert gap p net t e b in (RsUnit r, p')
    | OpPackage limit e => let (r, p') := mp_package p limit e in (RsPackage r, p')
    | OpFlush hs => (RsUnit (Ok tt), mp_flush p hs)
    | OpEnsure hs pull => let (r, p') := mp_ensure_order_txs p hs pull in (RsUnit r, p')
    | OpSync hs pull => let (r, p') := mp_sync_propose_txs p hs pull in (RsUnit r, p')
    | OpGetFull hs => (RsTxs (mp_get_full_txs p hs), p)
    end.
  Fixpoint mp_run (gap : u64) (p : mempool) (l : list mp_op) : list mp_resp * mempool :=
    match l with
    | [] => ([], p)
    | o :: l' => let (r, p1) := mp_step gap p o in let (rs, p2) := mp_run gap p1 l' in (r :: rs, p2)
    end.
End Pool.
