(** * Storage: core/storage/src/lib.rs and adapter/{memory,rocks}.rs,
    protocol/src/traits/storage.rs.

    The database is a map from (column, key bytes) to value bytes.  RocksDB
    I/O errors and a missing column family are not modelled (every put and
    get succeeds); RocksDB's own guarantee, that one [put_cf] or one
    [write(batch)] is atomic, is the unit [write] below. *)
From Verif Require Import Base Hex Types Proto Wire.
From Coq Require Strings.String.
Import String.StringSyntax.
Delimit Scope string_scope with string.
Local Open Scope N_scope.

(** [StorageError], lib.rs:208-212; adapters' [BatchLengthMismatch]; codec errors. *)
Inductive st_err := GetNone | BatchLengthMismatch | SWire (e : wire_err).
Notation sres := (res st_err).

(** [StorageCategory], traits/storage.rs:10-15 *)
Inductive category := CatEpoch | CatReceipt | CatSignedTransaction.

(** [map_category], rocks.rs:164-174: three column families. *)
Definition rocks_col (c : category) : N :=
  match c with CatEpoch => 1 | CatSignedTransaction => 2 | CatReceipt => 3 end.
(** [MemoryAdapter] has a single [HashMap], memory.rs:14-17. *)
Definition memory_col (c : category) : N := 0.

Notation dbkey := (N * bytes)%type.
Notation db := (gmap dbkey bytes).

(** One atomic write: the pairs are applied in order, [None] deletes. *)
Notation write := (list (dbkey * option bytes)).
Definition apply1 (m : db) (p : dbkey * option bytes) : db :=
  match snd p with Some v => <[fst p := v]> m | None => delete (fst p) m end.
Definition apply_write (m : db) (w : write) : db := fold_left apply1 w m.
Definition apply_writes (m : db) (ws : list write) : db := fold_left apply_write ws m.

(** [StorageSchema], traits/storage.rs:17-22 *)
Record schema (K V : Type) := Schema {
  sc_cat : category; sc_kenc : K -> bytes; sc_venc : V -> bytes; sc_vdec : bytes -> wres V }.
Arguments Schema {K V}.
Arguments sc_cat {K V}.
Arguments sc_kenc {K V}.
Arguments sc_venc {K V}.
Arguments sc_vdec {K V}.

(** lib.rs:39-63 *)
Definition TransactionSchema := Schema CatSignedTransaction wenc_hash wenc_signed wdec_signed.
Definition ReceiptSchema := Schema CatReceipt wenc_hash wenc_receipt wdec_receipt.
Definition EpochSchema := Schema CatEpoch wenc_epoch_id wenc_epoch wdec_epoch.
Definition HashEpochSchema := Schema CatEpoch wenc_hash wenc_epoch_id wdec_epoch_id.
Definition LatestEpochSchema := Schema CatEpoch wenc_hash wenc_epoch wdec_epoch.
Definition LatestProofSchema := Schema CatEpoch wenc_hash wenc_proof wdec_proof.

(** ** Adapters.  [col] is [rocks_col] or [memory_col]. *)
Section Adapter.
  Context (col : category -> N).

  Section Schema.
    Context {K V : Type} (s : schema K V).

    Definition ad_key (k : K) : dbkey := (col (sc_cat s), sc_kenc s k).

    (** [insert], rocks.rs:49-61, memory.rs:37-48 *)
    Definition ad_insert (k : K) (v : V) : write := [(ad_key k, Some (sc_venc s v))].

    (** [remove], rocks.rs:82-92, memory.rs:67-76 *)
    Definition ad_remove (k : K) : write := [(ad_key k, None)].

    (** [get], rocks.rs:63-80, memory.rs:50-65 *)
    Definition ad_get (m : db) (k : K) : sres (option V) :=
      match m !! ad_key k with
      | Some b => let? v := map_err SWire (sc_vdec s b) in Ok (Some v)
      | None => Ok None
      end.

    (** [contains], rocks.rs:94-103, memory.rs:78-85 *)
    Definition ad_contains (m : db) (k : K) : bool :=
      match m !! ad_key k with Some _ => true | None => false end.

    (** [batch_modify], rocks.rs:105-138 (one [WriteBatch]), memory.rs:87-114 *)
    Definition ad_batch (keys : list K) (vals : list (option V)) : sres write :=
      if (length keys =? length vals)%nat
      then Ok (map (fun p => (ad_key (fst p), match snd p with Some v => Some (sc_venc s v) | None => None end))
                 (combine keys vals))
      else Err BatchLengthMismatch.

    (** [get_batch], traits/storage.rs:74-85: stops at the first error. *)
    Fixpoint ad_get_batch (m : db) (keys : list K) : sres (list (option V)) :=
      match keys with
      | [] => Ok []
      | k :: r => let? v := ad_get m k in let? vs := ad_get_batch m r in Ok (v :: vs)
      end.
  End Schema.

  (** ** [ImplStorage], lib.rs:29-37, 99-193 *)
  Context (digest : bytes -> hash).

  (** lib.rs:23-26 *)
  Definition LATEST_EPOCH_KEY : hash := digest (ascii "latest_hash"%string).
  Definition LATEST_PROOF_KEY : hash := digest (ascii "latest_proof"%string).

  (** [check_none], lib.rs:203-205; the [get!] macro, lib.rs:92-97. *)
  Definition get_or_none {K V} (s : schema K V) (m : db) (k : K) : sres V :=
    let? o := ad_get s m k in ok_or o GetNone.
  (** [opts_to_flat], lib.rs:195-201 *)
  Definition opts_to_flat {V} (l : list (option V)) : list V := omap id l.

  (** [batch_insert!], lib.rs:65-83: keys and values always have equal lengths. *)
  Definition batch_insert {V} (s : schema hash V) (key : V -> hash) (l : list V) : write :=
    map (fun v => (ad_key s (key v), Some (sc_venc s v))) l.

  (** lib.rs:102-106 *)
  Definition insert_transactions (l : list signed_tx) : list write :=
    [batch_insert TransactionSchema st_tx_hash l].
  (** lib.rs:130-134 *)
  Definition insert_receipts (l : list receipt) : list write :=
    [batch_insert ReceiptSchema rc_tx_hash l].
  (** lib.rs:108-128: the index key is the digest of the PROTOBUF header. *)
  Definition epoch_index_key (e : epoch) : hash := digest (wenc_header (ep_header e)).
  Definition insert_epoch (e : epoch) : list write :=
    let id := MkEpochId (eh_epoch_id (ep_header e)) in
    [ad_insert EpochSchema id e; ad_insert HashEpochSchema (epoch_index_key e) id;
     ad_insert LatestEpochSchema LATEST_EPOCH_KEY e].
  (** lib.rs:136-142 *)
  Definition update_latest_proof (p : proof) : list write :=
    [ad_insert LatestProofSchema LATEST_PROOF_KEY p].

  (** lib.rs:144-148 *)
  Definition get_transaction_by_hash (m : db) (h : hash) : sres signed_tx := get_or_none TransactionSchema m h.
  (** lib.rs:150-154 *)
  Definition get_transactions (m : db) (hs : list hash) : sres (list signed_tx) :=
    let? l := ad_get_batch TransactionSchema m hs in Ok (opts_to_flat l).
  (** lib.rs:156-160 *)
  Definition get_latest_epoch (m : db) : sres epoch := get_or_none LatestEpochSchema m LATEST_EPOCH_KEY.
  (** lib.rs:162-167 *)
  Definition get_epoch_by_epoch_id (m : db) (i : u64) : sres epoch := get_or_none EpochSchema m (MkEpochId i).
  (** lib.rs:169-174 *)
  Definition get_epoch_by_hash (m : db) (h : hash) : sres epoch :=
    let? id := get_or_none HashEpochSchema m h in get_or_none EpochSchema m id.
  (** lib.rs:176-180 *)
  Definition get_receipt (m : db) (h : hash) : sres receipt := get_or_none ReceiptSchema m h.
  (** lib.rs:182-186 *)
  Definition get_receipts (m : db) (hs : list hash) : sres (list receipt) :=
    let? l := ad_get_batch ReceiptSchema m hs in Ok (opts_to_flat l).
  (** lib.rs:188-192 *)
  Definition get_latest_proof (m : db) : sres proof := get_or_none LatestProofSchema m LATEST_PROOF_KEY.

  (** ** Histories of write operations *)
  Inductive st_op :=
  | InsTransactions (l : list signed_tx)
  | InsReceipts (l : list receipt)
  | InsEpoch (e : epoch)
  | UpdProof (p : proof).

  Definition op_writes (o : st_op) : list write :=
    match o with
    | InsTransactions l => insert_transactions l
    | InsReceipts l => insert_receipts l
    | InsEpoch e => insert_epoch e
    | UpdProof p => update_latest_proof p
    end.
  Definition history_writes (ops : list st_op) : list write := concat (map op_writes ops).
  (** The database after a history, from an empty one. *)
  Definition after (ops : list st_op) : db := apply_writes ∅ (history_writes ops).
End Adapter.
