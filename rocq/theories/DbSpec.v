(** * Specification: executors over one database, along a history (C105).

    A node opens an executor at a state root for every block it executes and for
    every balance it is asked for (core/consensus/src/adapter.rs:95-113,
    core/api/src/adapter/mod.rs:60-80), and once for the genesis block (main.rs:106-117); all of
    them share one trie database.  [db_op] are these uses, and the death of the
    process while a block is being executed.  [m_run] is the history of the
    executor on maps (Executor.v); [d_run] that of the executor over the bytes of
    the database (DbExec.v). *)
From Verif Require Import Base BaseFacts Hex Types Rlp FixedCodec StateAdapter Executor ExecSpec Mpt StorageSpec TrieSpec DbExec.
Local Open Scope N_scope.

(** Chain id, epoch, price of a cycle, coinbase. *)
Record params := MkParams { pm_chain : hash; pm_epoch : u64; pm_price : u64; pm_coinbase : address }.

Inductive db_op :=
  | OpGenesis (p : params) (g : genesis)
  | OpBlock (root : hash) (p : params) (ts : list signed_tx)
  | OpBalance (root : hash) (p : params) (a : address) (id : hash)
  | OpCrash (root : hash) (p : params) (ts : list signed_tx) (batches : nat) (* dies when [batches] of the three batches of the commit are written *)
  | OpGCrash (p : params) (g : genesis) (batches : nat). (* the same, of the genesis *)
Inductive db_out :=
  | OutGenesis (r : res exec_err hash)
  | OutBlock (r : res exec_err exec_resp)
  | OutBalance (r : res exec_err balance)
  | OutCrash.
Definition is_crash (o : db_op) : bool := match o with OpCrash _ _ _ _ | OpGCrash _ _ _ => true | _ => false end.
Definition out_crash (o : db_out) : bool := match o with OutCrash => true | _ => false end.

Definition res_of {E A B} (r : res E (A * B)) : res E A := rmap fst r.

(** ** On maps *)
(** The tries stored; the roots handed out; all the tries that an execution
    has committed or was committing when the process died. *)
Record mstate := MState { ms_db : gmap hash (gmap bytes bytes); ms_known : list hash; ms_tries : list (gmap bytes bytes) }.
Definition mstate0 : mstate := MState ∅ [] [].

Section Spec.
  Context (digest : bytes -> hash) (show : exec_err -> rstring).
  Notation root_of := (mpt_root digest).

  Definition m_open (s : mstate) (root : hash) (p : params) : res exec_err executor :=
    from_root digest (pm_chain p) root (ms_db s) (pm_epoch p) (pm_price p) (pm_coinbase p).
  Definition m_block (s : mstate) (root : hash) (p : params) (ts : list signed_tx) : res exec_err (exec_resp * executor) :=
    let? x := m_open s root p in exec digest root_of show (fun _ => canon_order) x ts.
  Definition m_genesis (s : mstate) (p : params) (g : genesis) : res exec_err (hash * executor) :=
    let? x := m_open s (hash_from_empty digest) p in create_genesis digest root_of canon_order canon_order x g.

  Definition m_step (s : mstate) (o : db_op) : db_out * mstate :=
    match o with
    | OpGenesis p g =>
        (OutGenesis (res_of (m_genesis s p g)),
         match m_genesis s p g with Ok (r, x) => MState (x_db x) (r :: ms_known s) (ms_tries s ++ tries_of x) | _ => s end)
    | OpBlock root p ts =>
        (OutBlock (res_of (m_block s root p ts)),
         match m_block s root p ts with Ok (r, x) => MState (x_db x) (er_state_root r :: ms_known s) (ms_tries s ++ tries_of x) | _ => s end)
    | OpBalance root p a id => (OutBalance (let? x := m_open s root p in exec_get_balance x a id), s)
    | OpCrash root p ts _ =>
        (* as if the block had never been there *)
        (OutCrash, match m_block s root p ts with Ok (r, x) => MState (ms_db s) (ms_known s) (ms_tries s ++ tries_of x) | _ => s end)
    | OpGCrash p g _ =>
        (OutCrash, match m_genesis s p g with Ok (r, x) => MState (ms_db s) (ms_known s) (ms_tries s ++ tries_of x) | _ => s end)
    end.
  (** The root an operation hands out, and the executor that committed it. *)
  Definition leaves (s : mstate) (o : db_op) : option (hash * executor) :=
    match o with
    | OpGenesis p g => match m_genesis s p g with Ok (r, x) => Some (r, x) | _ => None end
    | OpBlock root p ts => match m_block s root p ts with Ok (r, x) => Some (er_state_root r, x) | _ => None end
    | _ => None
    end.
  Fixpoint m_run (s : mstate) (l : list db_op) : list db_out * mstate :=
    match l with
    | [] => ([], s)
    | o :: l => let '(r, s') := m_step s o in let '(rs, s'') := m_run s' l in (r :: rs, s'')
    end.

  (** ** Over the bytes *)
  Record dstate := DState { ds_db : gmap hash bytes; ds_log : list bytes }.
  Definition dstate0 : dstate := DState ∅ [].
  Definition d_open (s : dstate) (root : hash) (p : params) : res exec_err dexec :=
    d_from_root digest (pm_chain p) root (ds_db s) (pm_epoch p) (pm_price p) (pm_coinbase p).
  Definition d_after (s : dstate) (d : dexec) : dstate := DState (dx_db d) (ds_log s ++ dx_log d).

  (** The executor when a block is about to commit. *)
  Definition d_ready (qs : nat -> dorder) (d : dexec) (ts : list signed_tx) : option dexec :=
    match d_exec_txs digest show (fun n => qs (S n)) d ts with
    | (Ok rs, d1) =>
        match d_pay digest (dx_coinbase d1) (all_cycles_used rs) (d1, no_ctx d1) with
        | (Ok _, (d2, _)) => Some d2
        | _ => None
        end
    | _ => None
    end.
  (** The executor when the genesis is about to commit. *)
  Definition d_gready (q : dorder) (d : dexec) (g : genesis) : option dexec :=
    match d_genesis_body digest g (d, d_genesis_ctx digest d) with
    | (Ok _, (d1, _)) => Some (d_stash q d1)
    | _ => None
    end.
  (** The database after the first [n] batches of the commit (lib.rs:275-283):
      one per contract, then that of the top trie. *)
  Definition d_left (q : dorder) (d : dexec) (n : nat) : gmap hash bytes :=
    let first := if do_bank_first q then d_commit_bank digest q d else d_commit_acc digest q d in
    let second := match first with Some d1 => if do_bank_first q then d_commit_acc digest q d1 else d_commit_bank digest q d1 | None => None end in
    match n with
    | O => dx_db d
    | 1%nat => match first with Some d1 => dx_db d1 | None => dx_db d end
    | 2%nat => match second with Some d2 => dx_db d2 | None => dx_db d end
    | _ => match d_commit digest q d with Some (_, d3) => dx_db d3 | None => dx_db d end
    end.

  Definition d_step (qs : nat -> dorder) (s : dstate) (o : db_op) : db_out * dstate :=
    match o with
    | OpGenesis p g =>
        match d_open s (hash_from_empty digest) p with
        | Ok d => let '(r, d') := d_create_genesis digest (qs 0%nat) (qs 1%nat) d g in (OutGenesis r, d_after s d')
        | Err e => (OutGenesis (Err e), s)
        | Panic => (OutGenesis Panic, s)
        end
    | OpBlock root p ts =>
        match d_open s root p with
        | Ok d => let '(r, d') := d_exec digest show qs d ts in (OutBlock r, d_after s d')
        | Err e => (OutBlock (Err e), s)
        | Panic => (OutBlock Panic, s)
        end
    | OpBalance root p a id =>
        (OutBalance (let? d := d_open s root p in (d_get_balance id a (d, no_ctx d)).1), s)
    | OpCrash root p ts n =>
        (OutCrash,
         match d_open s root p with
         | Ok d => DState (match d_ready qs d ts with Some d2 => d_left (qs O) d2 n | None => ds_db s end)
                          (ds_log s ++ dx_log (d_exec digest show qs d ts).2)
         | _ => s
         end)
    | OpGCrash p g n =>
        (OutCrash,
         match d_open s (hash_from_empty digest) p with
         | Ok d => DState (match d_gready (qs O) d g with Some d2 => d_left (qs 1%nat) d2 n | None => ds_db s end)
                          (ds_log s ++ dx_log (d_create_genesis digest (qs O) (qs 1%nat) d g).2)
         | _ => s
         end)
    end.
  Fixpoint d_run (qss : nat -> nat -> dorder) (s : dstate) (l : list db_op) : list db_out * dstate :=
    match l with
    | [] => ([], s)
    | o :: l =>
        let '(r, s') := d_step (qss O) s o in
        let '(rs, s'') := d_run (fun n => qss (S n)) s' l in (r :: rs, s'')
    end.

  (** *** Fair histories *)
  (** A root that is opened is the empty one, one that was handed out, or the
      hash of nothing that was ever being stored. *)
  Definition root_ok (s : mstate) (r : hash) : Prop :=
    r = hash_from_empty digest \/ r ∈ ms_known s \/ forall m b, m ∈ ms_tries s -> b ∈ parts digest m -> digest b <> r.
  Definition op_ok (s : mstate) (o : db_op) : Prop :=
    match o with
    | OpGenesis _ _ | OpGCrash _ _ _ => True
    | OpBlock r _ _ | OpBalance r _ _ _ | OpCrash r _ _ _ => root_ok s r
    end.
  Fixpoint ops_ok (s : mstate) (l : list db_op) : Prop :=
    match l with [] => True | o :: l => op_ok s o /\ ops_ok (m_step s o).2 l end.
  (** Hash map iteration lists the map. *)
  Definition dorders_ok (qss : nat -> nat -> dorder) : Prop := forall i j,
    (forall m, do_acc (qss i j) m ≡ₚ map_to_list m) /\ (forall m, do_bank (qss i j) m ≡ₚ map_to_list m).
  (** No encoded account or asset of the run is 4 GB or longer. *)
  Definition sizes_ok (s : dstate) : Prop := forall v, v ∈ ds_log s -> N.of_nat (length v) < 4294967296.
  (** The digest has no collision among the nodes of the tries of the run. *)
  Definition nodes_apart (s : mstate) : Prop := no_collision digest (flat_map (parts digest) (∅ :: ms_tries s)).
End Spec.
