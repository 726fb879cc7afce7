(** * core/mempool/src/tx_cache.rs under concurrency.
    Any number of threads insert and flush; one thread packages (the consensus
    engine never runs two packages at once).  Every access to an atomic, a
    queue or a bucket of the map is one step ([deletes] one step per hash, in
    any order); the atomics involved use [SeqCst], so steps interleave. *)
From Verif Require Import Base BaseFacts Hex Types Rlp FixedCodec Mempool.
Local Open Scope N_scope.

(** Program points of [insert], tx_cache.rs:286-313: before [map.insert];
    before [fetch_add]; before the load in [get_queue_role]; before [push];
    before [fetch_sub]; before the test of [rst]; returned. *)
Inductive ist :=
| IStart | IMapped | ICounted | IRole (zero : bool) | IPushed (ok : bool) | IUncounted (ok : bool)
| IDone (r : res mp_err unit).

(** Program points of [package], tx_cache.rs:178-247, and
    [process_omission_txs], 316-330.  [z] is the role read at the start. The
    field [pk_cand] records the wrappers pushed to the candidate queue (it is
    not a variable of the program). *)
Record pargs := MkArgs { pa_limit : u64; pa_cur : u64; pa_tmo : u64 }.
Inductive pst :=
| PIdle
| PLoop (a : pargs) (z : bool) (s : pk)                  (* before [incumbent.pop()] *)
| PPopped (a : pargs) (z : bool) (s : pk) (w : wrapper)  (* before [is_removed] *)
| PPush (a : pargs) (z : bool) (s : pk) (w : wrapper)    (* before [candidate.push] *)
| PSwitch (z : bool) (s : pk)                            (* before [fetch_xor] *)
| PWait (s : pk)                                         (* before [concurrent_count.load] *)
| PDrain (s : pk)                                        (* before [candidate.pop()] *)
| PDrained (s : pk) (w : wrapper)                        (* before [incumbent.push] *)
| PDelete (s : pk) (rest : list hash).                   (* [map.deletes], hash by hash *)

(** Program points of [flush], tx_cache.rs:167-176 *)
Inductive fst_ :=
| FGet (todo hs : list hash) | FSet (w : wrapper) (todo hs : list hash) | FDelete (rest : list hash).

(** [c_gone], [c_over], [c_results] record what packaging discarded as removed
    or expired, what it dropped because a queue was full, and the packages
    returned. *)
Record cst := MkC {
  c_cap : nat; c_q0 : list wrapper; c_q1 : list wrapper; c_map : gmap hash wrapper;
  c_zero : bool; c_count : nat; c_removed : gset nat;
  c_ins : list (wrapper * ist); c_pkg : pst; c_fl : list fst_;
  c_gone : list wrapper; c_over : list wrapper; c_results : list (list hash * list hash) }.

Definition c_new (cap : nat) : cst := MkC cap [] [] ∅ true 0 ∅ [] PIdle [] [] [] [].

(** [get_queue_role], tx_cache.rs:335-347: incumbent and candidate *)
Definition c_queue (c : cst) (zero : bool) : list wrapper := if zero then c_q0 c else c_q1 c.
Definition c_set_queue (c : cst) (zero : bool) (q : list wrapper) : cst :=
  MkC (c_cap c) (if zero then q else c_q0 c) (if zero then c_q1 c else q) (c_map c) (c_zero c) (c_count c)
      (c_removed c) (c_ins c) (c_pkg c) (c_fl c) (c_gone c) (c_over c) (c_results c).
Definition c_set_map (c : cst) (m : gmap hash wrapper) : cst :=
  MkC (c_cap c) (c_q0 c) (c_q1 c) m (c_zero c) (c_count c) (c_removed c) (c_ins c) (c_pkg c) (c_fl c)
      (c_gone c) (c_over c) (c_results c).
Definition c_set_count (c : cst) (n : nat) : cst :=
  MkC (c_cap c) (c_q0 c) (c_q1 c) (c_map c) (c_zero c) n (c_removed c) (c_ins c) (c_pkg c) (c_fl c)
      (c_gone c) (c_over c) (c_results c).
Definition c_set_zero (c : cst) (z : bool) : cst :=
  MkC (c_cap c) (c_q0 c) (c_q1 c) (c_map c) z (c_count c) (c_removed c) (c_ins c) (c_pkg c) (c_fl c)
      (c_gone c) (c_over c) (c_results c).
Definition c_set_removed (c : cst) (r : gset nat) : cst :=
  MkC (c_cap c) (c_q0 c) (c_q1 c) (c_map c) (c_zero c) (c_count c) r (c_ins c) (c_pkg c) (c_fl c)
      (c_gone c) (c_over c) (c_results c).
Definition c_set_ins (c : cst) (l : list (wrapper * ist)) : cst :=
  MkC (c_cap c) (c_q0 c) (c_q1 c) (c_map c) (c_zero c) (c_count c) (c_removed c) l (c_pkg c) (c_fl c)
      (c_gone c) (c_over c) (c_results c).
Definition c_set_pkg (c : cst) (p : pst) : cst :=
  MkC (c_cap c) (c_q0 c) (c_q1 c) (c_map c) (c_zero c) (c_count c) (c_removed c) (c_ins c) p (c_fl c)
      (c_gone c) (c_over c) (c_results c).
Definition c_set_fl (c : cst) (l : list fst_) : cst :=
  MkC (c_cap c) (c_q0 c) (c_q1 c) (c_map c) (c_zero c) (c_count c) (c_removed c) (c_ins c) (c_pkg c) l
      (c_gone c) (c_over c) (c_results c).
Definition c_add_gone (c : cst) (w : wrapper) : cst :=
  MkC (c_cap c) (c_q0 c) (c_q1 c) (c_map c) (c_zero c) (c_count c) (c_removed c) (c_ins c) (c_pkg c) (c_fl c)
      (c_gone c ++ [w]) (c_over c) (c_results c).
Definition c_add_over (c : cst) (w : wrapper) : cst :=
  MkC (c_cap c) (c_q0 c) (c_q1 c) (c_map c) (c_zero c) (c_count c) (c_removed c) (c_ins c) (c_pkg c) (c_fl c)
      (c_gone c) (c_over c ++ [w]) (c_results c).
Definition c_add_result (c : cst) (r : list hash * list hash) : cst :=
  MkC (c_cap c) (c_q0 c) (c_q1 c) (c_map c) (c_zero c) (c_count c) (c_removed c) (c_ins c) (c_pkg c) (c_fl c)
      (c_gone c) (c_over c) (c_results c ++ [r]).

Definition c_full (c : cst) (z : bool) : bool := (c_cap c <=? length (c_queue c z))%nat.

(** One step of the inserter at position [i] *)
Definition ins_step (c : cst) (i : nat) : cst :=
  match c_ins c !! i with
  | None => c
  | Some (w, st) =>
      let go c st' := c_set_ins c (<[i := (w, st')]> (c_ins c)) in
      match st with
      | IStart =>
          match c_map c !! w_hash w with
          | Some _ => go c (IDone (Err (MDup (w_hash w))))
          | None => go (c_set_map c (<[w_hash w := w]> (c_map c))) IMapped
          end
      | IMapped => go (c_set_count c (S (c_count c))) ICounted
      | ICounted => go c (IRole (c_zero c))
      | IRole z =>
          if c_full c z then go c (IPushed false)
          else go (c_set_queue c z (c_queue c z ++ [w])) (IPushed true)
      | IPushed ok => go (c_set_count c (pred (c_count c))) (IUncounted ok)
      | IUncounted true => go c (IDone (Ok tt))
      | IUncounted false => go (c_set_map c (delete (w_hash w) (c_map c))) (IDone (Err (MInsert (w_hash w))))
      | IDone _ => c
      end
  end.

(** The rest of the loop body after a successful push to the candidate queue,
    tx_cache.rs:216-232 *)
Definition c_pick (limit : u64) (w : wrapper) (s : pk) : pk :=
  let s := MkPk (pk_order s) (pk_propose s) (pk_timeout s) (pk_cycles s) (pk_stage s) (pk_cand s ++ [w]) in
  if match pk_stage s with Finished => true | ProposeTxs => w_proposed w | OrderTxs => false end then s
  else
    let count := wrap64 (pk_cycles s + tx_cycle (w_tx w)) in
    let '(st, count) := if limit <? count
      then (match pk_stage s with OrderTxs => ProposeTxs | _ => Finished end, tx_cycle (w_tx w))
      else (pk_stage s, count) in
    match st with
    | OrderTxs => MkPk (pk_order s ++ [w_hash w]) (pk_propose s) (pk_timeout s) count st (pk_cand s)
    | ProposeTxs => MkPk (pk_order s) (pk_propose s ++ [w_hash w]) (pk_timeout s) count st (pk_cand s)
    | Finished => MkPk (pk_order s) (pk_propose s) (pk_timeout s) count st (pk_cand s)
    end.

Definition pk_new : pk := MkPk [] [] [] (wrap64 0) OrderTxs [].

(** One step of the packaging thread; [k] chooses the next hash to delete. *)
Definition pkg_step (c : cst) (k : nat) : cst :=
  match c_pkg c with
  | PIdle => c
  | PLoop a z s =>
      match c_queue c z with
      | [] => c_set_pkg c (PSwitch z s)
      | w :: q => c_set_pkg (c_set_queue c z q) (PPopped a z s w)
      end
  | PPopped a z s w =>
      if decide (w_id w ∈ c_removed c) then c_set_pkg (c_add_gone c w) (PLoop a z s)
      else if is_timeout (w_tx w) (pa_cur a) (pa_tmo a)
      then c_set_pkg (c_add_gone c w)
             (PLoop a z (MkPk (pk_order s) (pk_propose s) (pk_timeout s ++ [w_hash w]) (pk_cycles s) (pk_stage s) (pk_cand s)))
      else c_set_pkg c (PPush a z s w)
  | PPush a z s w =>
      if c_full c (negb z) then c_set_pkg (c_add_over c w) PIdle   (* [InsertCandidate], the call returns *)
      else c_set_pkg (c_set_queue c (negb z) (c_queue c (negb z) ++ [w])) (PLoop a z (c_pick (pa_limit a) w s))
  | PSwitch z s => c_set_pkg (c_set_zero c (negb (c_zero c))) (PWait s)
  | PWait s => if decide (c_count c = 0%nat) then c_set_pkg c (PDrain s) else c
  | PDrain s =>
      match c_queue c (negb (c_zero c)) with
      | [] => c_set_pkg c (PDelete s (pk_timeout s))
      | w :: q => c_set_pkg (c_set_queue c (negb (c_zero c)) q) (PDrained s w)
      end
  | PDrained s w =>
      if c_full c (c_zero c) then c_set_pkg (c_add_over c w) (PDrain s)
      else c_set_pkg (c_set_queue c (c_zero c) (c_queue c (c_zero c) ++ [w])) (PDrain s)
  | PDelete s rest =>
      match rest with
      | [] => c_set_pkg (c_add_result c (pk_order s, pk_propose s)) PIdle
      | _ =>
          match rest !! k with
          | Some h => c_set_pkg (c_set_map c (delete h (c_map c))) (PDelete s (take k rest ++ drop (S k) rest))
          | None => c
          end
      end
  end.

(** One step of the flush thread at position [i] *)
Definition fl_step (c : cst) (i k : nat) : cst :=
  match c_fl c !! i with
  | None => c
  | Some f =>
      let go c f' := c_set_fl c (<[i := f']> (c_fl c)) in
      match f with
      | FGet [] hs => go c (FDelete hs)
      | FGet (h :: todo) hs =>
          match c_map c !! h with Some w => go c (FSet w todo hs) | None => go c (FGet todo hs) end
      | FSet w todo hs => go (c_set_removed c ({[ w_id w ]} ∪ c_removed c)) (FGet todo hs)
      | FDelete rest =>
          match rest !! k with
          | Some h => go (c_set_map c (delete h (c_map c))) (FDelete (take k rest ++ drop (S k) rest))
          | None => c
          end
      end
  end.

(** A scheduler's choices; a choice that is not enabled changes nothing. *)
Inductive label :=
| LSpawn (t : signed_tx) (proposed : bool)  (* a call of insert_new_tx / insert_propose_tx *)
| LIns (i : nat)
| LPackage (limit cur tmo : u64)            (* a call of package, when none is running *)
| LPkg (k : nat)
| LFlush (hs : list hash)                   (* a call of flush *)
| LFl (i k : nat).

Definition c_step (c : cst) (l : label) : cst :=
  match l with
  | LSpawn t b => c_set_ins c (c_ins c ++ [(MkW (length (c_ins c)) t b, IStart)])
  | LIns i => ins_step c i
  | LPackage limit cur tmo =>
      match c_pkg c with PIdle => c_set_pkg c (PLoop (MkArgs limit cur tmo) (c_zero c) pk_new) | _ => c end
  | LPkg k => pkg_step c k
  | LFlush hs => c_set_fl c (c_fl c ++ [FGet hs hs])
  | LFl i k => fl_step c i k
  end.
Definition c_run (c : cst) (sched : list label) : cst := fold_left c_step sched c.
