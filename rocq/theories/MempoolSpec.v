(** * Specification of the transaction pool, written without queues, flags or
    wrappers: a list of transactions in the order of arrival. *)
From Verif Require Import Base BaseFacts Hex Types Rlp FixedCodec Mempool.
Local Open Scope N_scope.

(** A pooled transaction and whether it came from another node's proposal. *)
Definition entry : Type := signed_tx * bool.
Definition e_hash (e : entry) : hash := st_tx_hash e.1.
Definition cycles (e : entry) : N := u64v (fee_cycle (rt_fee (st_raw e.1))).

Fixpoint sum_cycles (l : list entry) : N :=
  match l with [] => 0 | e :: l' => cycles e + sum_cycles l' end.

(** Alive at epoch [n] with gap [g]: [n < timeout <= n + g] (in [u64]). *)
Definition alive (n g : N) (e : entry) : bool :=
  (n <? rt_timeout (st_raw e.1)) && (rt_timeout (st_raw e.1) <=? (n + g) mod two64).

(** The longest prefix whose cycles sum up to at most [budget]. *)
Fixpoint fit (budget : N) (l : list entry) : list entry :=
  match l with
  | [] => []
  | e :: l' => if cycles e <=? budget then e :: fit (budget - cycles e) l' else []
  end.

(** What is proposed: the first transaction that did not fit (whatever it is),
    then as many as fit of the following ones not already proposed. *)
Definition proposal (limit : N) (l : list entry) : list entry :=
  match skipn (length (fit limit l)) l with
  | [] => []
  | e :: l' =>
      e :: (if cycles e <=? limit then fit (limit - cycles e) (filter (fun e => e.2 = false) l') else [])
  end.

(** The pool: entries in order of arrival, the number of flushed entries still
    occupying queue slots, the transactions pulled for the current epoch, and
    what was handed to the broadcaster. *)
Record spool := MkSpool {
  sp_txs : list entry; sp_dead : nat; sp_pulled : gmap hash signed_tx; sp_out : list signed_tx }.

Definition sp_has (s : spool) (h : hash) : Prop := h ∈ map e_hash (sp_txs s).
Global Instance sp_has_dec s h : Decision (sp_has s h).
Proof. unfold sp_has. apply _. Defined.

Section Spec.
  Context (digest : bytes -> hash) (verify : bytes -> bytes -> bytes -> bool).
  (** Pool size, the gap of the admission check, the gap of packaging *)
  Context (n : nat) (gap gap' : u64).

  Definition sp_add (s : spool) (t : signed_tx) (proposed : bool) : res mp_err unit * spool :=
    if decide (sp_has s (st_tx_hash t)) then (Err (MDup (st_tx_hash t)), s)
    else if (4 * n <=? length (sp_txs s) + sp_dead s)%nat then (Err (MInsert (st_tx_hash t)), s)
    else (Ok tt, MkSpool (sp_txs s ++ [(t, proposed)]) (sp_dead s) (sp_pulled s) (sp_out s)).

  Definition sp_find (s : spool) (h : hash) : option signed_tx :=
    match find (fun e => bool_decide (e_hash e = h)) (sp_txs s) with
    | Some e => Some e.1
    | None => sp_pulled s !! h
    end.

  Definition sp_step (s : spool) (o : mp_op) : mp_resp * spool :=
    match o with
    | OpInsert net t e b =>
        if (n <=? length (sp_txs s))%nat then (RsUnit (Err (MReachLimit n)), s)
        else if decide (sp_has s (st_tx_hash t)) then (RsUnit (Err (MDup (st_tx_hash t))), s)
        else
          match (let? _ := check_signature verify t in
                 let? _ := check_transaction digest gap e t in
                 check_storage_exist e (st_tx_hash t)) with
          | Ok _ =>
              match sp_add s t false with
              | (Ok _, s') => if net then (RsUnit (Ok tt), s')
                              else (RsUnit b, MkSpool (sp_txs s') (sp_dead s') (sp_pulled s') (sp_out s' ++ [t]))
              | (r, s') => (RsUnit r, s')
              end
          | r => (RsUnit r, s)
          end
    | OpPackage limit e =>
        match en_latest e with
        | Ok (_, epoch) =>
            let l := filter (fun e => alive epoch gap' e = true) (sp_txs s) in
            (RsPackage (Ok (map e_hash (fit limit l), map e_hash (proposal limit l))),
             MkSpool l 0 (sp_pulled s) (sp_out s))
        | Err x => (RsPackage (Err x), s)
        | Panic => (RsPackage Panic, s)
        end
    | OpFlush hs =>
        let l := filter (fun e => e_hash e ∉ hs) (sp_txs s) in
        (RsUnit (Ok tt), MkSpool l (sp_dead s + (length (sp_txs s) - length l)) ∅ (sp_out s))
    | OpEnsure hs pull =>
        let unknown := filter (fun h => ~ sp_has s h) hs in
        if decide (unknown = []) then (RsUnit (Ok tt), s)
        else match pull unknown with
             | Ok txs =>
                 if decide (length txs = length unknown)
                 then (RsUnit (Ok tt), MkSpool (sp_txs s) (sp_dead s) (fold_left cb_insert txs (sp_pulled s)) (sp_out s))
                 else (RsUnit (Err (MEnsureBreak (length unknown) (length txs))), s)
             | Err x => (RsUnit (Err x), s)
             | Panic => (RsUnit Panic, s)
             end
    | OpSync hs pull =>
        let unknown := filter (fun h => ~ sp_has s h) hs in
        if decide (unknown = []) then (RsUnit (Ok tt), s)
        else match pull unknown with
             | Ok txs => (RsUnit (Ok tt), fold_left (fun s t => snd (sp_add s t true)) txs s)
             | Err x => (RsUnit (Err x), s)
             | Panic => (RsUnit Panic, s)
             end
    | OpGetFull hs =>
        let txs := omap (sp_find s) hs in
        (RsTxs (if decide (length txs = length hs) then Ok txs else Err (MMisMatch (length hs) (length txs))), s)
    end.

  Fixpoint sp_run (s : spool) (l : list mp_op) : list mp_resp * spool :=
    match l with
    | [] => ([], s)
    | o :: l' => let (r, s1) := sp_step s o in let (rs, s2) := sp_run s1 l' in (r :: rs, s2)
    end.

  Definition sp_new : spool := MkSpool [] 0 ∅ [].
End Spec.

(** No arithmetic overflow: limits and cycles below [2^63]. *)
Definition small (x : N) : Prop := x < 9223372036854775808.
Definition small_tx (t : signed_tx) : Prop := small (fee_cycle (rt_fee (st_raw t))).
Definition small_op (o : mp_op) : Prop :=
  match o with
  | OpInsert _ t _ _ => small_tx t
  | OpPackage limit _ => small limit
  | OpSync _ pull => forall hs txs, pull hs = Ok txs -> Forall small_tx txs
  | _ => True
  end.
