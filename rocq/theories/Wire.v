(** * Wire: protocol/src/codec/{primitive,transaction,receipt,epoch}.rs, the
    protobuf codec of the network and of the database.

    For every type [x]: [m_x] is the [#[derive(Message)]] struct (a nested
    tuple of its fields in declaration order), [to_x] is [From<x>],
    [from_x] is [TryFrom]; [wenc_x]/[wdec_x] are [encode_sync]/[decode_sync]
    of macro.rs:12-33 ([encode_sync] always returns [Ok]: a [Vec] grows). *)
From Verif Require Import Base Hex Types Proto.
Local Open Scope N_scope.

(** [CodecError], codec/mod.rs:53-72, and [TypesError], both inside a
    [ProtocolError]. *)
Inductive wire_err := ProtobufDecode | MissingField | InvalidContractType | WTypes (e : types_err).
Notation wres := (res wire_err).

(** [field!], macro.rs:1-9 *)
Definition field {A} (o : option A) : wres A := ok_or o MissingField.
Definition wtypes {A} (r : res types_err A) : wres A := map_err WTypes r.

(** [for x in v { out.push(f(x)?) }] *)
Fixpoint mapM {A B} (f : A -> wres B) (l : list A) : wres (list B) :=
  match l with
  | [] => Ok []
  | a :: r => let? b := f a in let? bs := mapM f r in Ok (b :: bs)
  end.

(** macro.rs:16-33 *)
Definition wenc {P T} (m : pcodec P) (to : T -> P) (v : T) : bytes := pencode m (to v).
Definition wdec {P T} (m : pcodec P) (from : P -> wres T) (b : bytes) : wres T :=
  let? p := ok_or (pdecode m b) ProtobufDecode in from p.

(** ** primitive.rs *)

(** [Balance], primitive.rs:19-23, 108-123 *)
Definition m_balance := pcons (p_bytes 1) pnil.
Definition to_balance (n : balance) : bytes * unit := (biguint_to_bytes_be n, tt).
Definition from_balance (p : bytes * unit) : wres balance := Ok (biguint_from_bytes_be (fst p)).

(** [Hash], primitive.rs:25-29, 127-143 *)
Definition m_hash := pcons (p_bytes 1) pnil.
Definition to_hash (h : hash) : bytes * unit := (sbytes h, tt).
Definition from_hash (p : bytes * unit) : wres hash := wtypes (hash_from_bytes (fst p)).

(** [MerkleRoot], [AssetID], primitive.rs:31-41, 147-183 *)
Definition m_root := pcons (p_opt 1 m_hash) pnil.
Definition to_root (h : hash) : option (bytes * unit) * unit := (Some (to_hash h), tt).
Definition from_root (p : option (bytes * unit) * unit) : wres hash :=
  let? h := field (fst p) in from_hash h.

(** [Address], primitive.rs:43-47 *)
Definition m_address := pcons (p_bytes 1) pnil.

(** [UserAddress], primitive.rs:49-53, 187-207 *)
Definition m_user := pcons (p_opt 1 m_address) pnil.
Definition to_user (a : user_address) : option (bytes * unit) * unit := (Some (ua a, tt), tt).
Definition from_user (p : option (bytes * unit) * unit) : wres user_address :=
  let? a := field (fst p) in wtypes (user_from_bytes (fst a)).

(** [enum ContractType], primitive.rs:55-61 *)
Definition wire_ctype (t : contract_type) : N :=
  match t with CtAsset => 0 | CtLibrary => 1 | CtApp => 2 | CtNative => 3 end.

(** [ContractAddress], primitive.rs:63-70, 211-241: the contract type is
    sent but not read back (the address carries it). *)
Definition m_contract := pcons (p_opt 1 m_address) (pcons (p_u32 2) pnil).
Definition to_contract (a : contract_address) : option (bytes * unit) * (u32 * unit) :=
  (Some (ca a, tt), (wrap32 (wire_ctype (contract_type_of a)), tt)).
Definition from_contract (p : option (bytes * unit) * (u32 * unit)) : wres contract_address :=
  let? a := field (fst p) in wtypes (contract_from_bytes (fst a)).

(** [Asset], primitive.rs:72-91, 245-283 *)
Definition m_asset :=
  pcons (p_opt 1 m_root) (pcons (p_string 2) (pcons (p_string 3) (pcons (p_opt 4 m_balance)
    (pcons (p_opt 5 m_contract) (pcons (p_opt 6 m_root) pnil))))).
Definition to_asset (a : asset) :=
  (Some (to_root (as_id a)), (as_name a, (as_symbol a, (Some (to_balance (as_supply a)),
    (Some (to_contract (as_manage_contract a)), (Some (to_root (as_storage_root a)), tt)))))).
Definition from_asset (p : option (option (bytes * unit) * unit) * (rstring * (rstring * (option (bytes * unit) *
    (option (option (bytes * unit) * (u32 * unit)) * (option (option (bytes * unit) * unit) * unit)))))) : wres asset :=
  let '(id, (name, (symbol, (supply, (mc, (sr, _)))))) := p in
  let? id := field id in
  let? supply := field supply in
  let? mc := field mc in
  let? sr := field sr in
  let? id := from_root id in
  let? supply := from_balance supply in
  let? mc := from_contract mc in
  let? sr := from_root sr in
  Ok (MkAsset id name symbol supply mc sr).

(** [Fee], primitive.rs:93-100, 287-315 *)
Definition m_fee := pcons (p_opt 1 m_root) (pcons (p_u64 2) pnil).
Definition to_fee (f : fee) : option (option (bytes * unit) * unit) * (u64 * unit) :=
  (Some (to_root (fee_asset_id f)), (fee_cycle f, tt)).
Definition from_fee (p : option (option (bytes * unit) * unit) * (u64 * unit)) : wres fee :=
  let '(id, (cycle, _)) := p in
  let? id := field id in
  let? id := field (fst id) in
  let? id := from_hash id in
  Ok (MkFee id cycle).

(** ** transaction.rs *)

(** [CarryingAsset], transaction.rs:16-23, 123-144 *)
Definition m_carrying := pcons (p_opt 1 m_root) (pcons (p_opt 2 m_balance) pnil).
Definition to_carrying (c : carrying_asset) :
  option (option (bytes * unit) * unit) * (option (bytes * unit) * unit) :=
  (Some (to_root (cr_asset_id c)), (Some (to_balance (cr_amount c)), tt)).
Definition from_carrying (p : option (option (bytes * unit) * unit) * (option (bytes * unit) * unit))
  : wres carrying_asset :=
  let '(id, (amount, _)) := p in
  let? id := field id in
  let? amount := field amount in
  let? id := from_root id in
  let? amount := from_balance amount in
  Ok (MkCarrying id amount).

(** [Transfer], [Approve], [Deploy], [Call], transaction.rs:25-68 *)
Definition m_transfer := pcons (p_opt 1 m_user) (pcons (p_opt 2 m_carrying) pnil).
Definition m_approve := pcons (p_opt 1 m_contract) (pcons (p_opt 2 m_root) (pcons (p_opt 3 m_balance) pnil)).
Definition m_deploy := pcons (p_bytes 1) (pcons (p_u32 2) pnil).
Definition m_call :=
  pcons (p_opt 1 m_contract) (pcons (p_string 2) (pcons (p_rep_bytes 3) (pcons (p_opt 4 m_carrying) pnil))).

(** [contract_type as i32] of the PROTOCOL enum (types/primitive.rs:104-114:
    Asset, App, Library, Native), transaction.rs:184 and receipt.rs:144. *)
Definition ctype_as_i32 (t : contract_type) : N :=
  match t with CtAsset => 0 | CtApp => 1 | CtLibrary => 2 | CtNative => 3 end.
(** The [match deploy.contract_type], transaction.rs:254-259, receipt.rs:215-220. *)
Definition ctype_from_i32 (n : u32) : wres contract_type :=
  if u32v n =? 0 then Ok CtAsset
  else if u32v n =? 1 then Ok CtLibrary
  else if u32v n =? 2 then Ok CtApp
  else Err InvalidContractType.

(** [enum TransactionAction], transaction.rs:70-83 *)
Definition o_action := po_cons 5 m_transfer (po_cons 6 m_approve (po_cons 7 m_deploy (po_last 8 m_call))).
Definition p_action : Type :=
  (option (option (bytes * unit) * unit) *
     (option (option (option (bytes * unit) * unit) * (option (bytes * unit) * unit)) * unit)) +
  ((option (option (bytes * unit) * (u32 * unit)) *
      (option (option (bytes * unit) * unit) * (option (bytes * unit) * unit))) +
   ((bytes * (u32 * unit)) +
    (option (option (bytes * unit) * (u32 * unit)) * (rstring * (list bytes *
      (option (option (option (bytes * unit) * unit) * (option (bytes * unit) * unit)) * unit)))))).

(** transaction.rs:148-217 *)
Definition to_action (a : tx_action) : p_action :=
  match a with
  | Transfer r c => inl (Some (to_user r), (Some (to_carrying c), tt))
  | Approve s i m => inr (inl (Some (to_contract s), (Some (to_root i), (Some (to_balance m), tt))))
  | Deploy code t => inr (inr (inl (code, (wrap32 (ctype_as_i32 t), tt))))
  | Call c m args carry =>
      inr (inr (inr (Some (to_contract c), (m, (args,
        (match carry with Some ca => Some (to_carrying ca) | None => None end, tt))))))
  end.
(** transaction.rs:219-290 *)
Definition from_action (p : p_action) : wres tx_action :=
  match p with
  | inl (r, (c, _)) =>
      let? r := field r in
      let? c := field c in
      let? r := from_user r in
      let? c := from_carrying c in
      Ok (Transfer r c)
  | inr (inl (s, (i, (m, _)))) =>
      let? s := field s in
      let? i := field i in
      let? m := field m in
      let? s := from_contract s in
      let? i := from_root i in
      let? m := from_balance m in
      Ok (Approve s i m)
  | inr (inr (inl (code, (t, _)))) =>
      let? t := ctype_from_i32 t in
      Ok (Deploy code t)
  | inr (inr (inr (c, (m, (args, (carry, _)))))) =>
      let? c := field c in
      let? c := from_contract c in
      match carry with
      | Some x => let? x := from_carrying x in Ok (Call c m args (Some x))
      | None => Ok (Call c m args None)
      end
  end.

(** [RawTransaction], transaction.rs:85-101, 294-330 *)
Definition m_raw :=
  pcons (p_opt 1 m_hash) (pcons (p_opt 2 m_hash) (pcons (p_u64 3) (pcons (p_opt 4 m_fee)
    (pcons (p_oneof o_action) pnil)))).
Definition p_raw : Type :=
  option (bytes * unit) * (option (bytes * unit) * (u64 *
    (option (option (option (bytes * unit) * unit) * (u64 * unit)) * (option p_action * unit)))).
Definition to_raw (r : raw_tx) : p_raw :=
  (Some (to_hash (rt_chain_id r)), (Some (to_hash (rt_nonce r)), (rt_timeout r,
    (Some (to_fee (rt_fee r)), (Some (to_action (rt_action r)), tt))))).
Definition from_raw (p : p_raw) : wres raw_tx :=
  let '(chain, (nonce, (timeout, (f, (action, _))))) := p in
  let? chain := field chain in
  let? nonce := field nonce in
  let? f := field f in
  let? action := field action in
  let? chain := from_hash chain in
  let? nonce := from_hash nonce in
  let? f := from_fee f in
  let? action := from_action action in
  Ok (MkRaw chain nonce timeout f action).

(** [SignedTransaction], transaction.rs:103-116, 334-364 *)
Definition m_signed :=
  pcons (p_opt 1 m_raw) (pcons (p_opt 2 m_hash) (pcons (p_bytes 3) (pcons (p_bytes 4) pnil))).
Definition p_signed : Type := option p_raw * (option (bytes * unit) * (bytes * (bytes * unit))).
Definition to_signed (s : signed_tx) : p_signed :=
  (Some (to_raw (st_raw s)), (Some (to_hash (st_tx_hash s)), (st_pubkey s, (st_signature s, tt)))).
Definition from_signed (p : p_signed) : wres signed_tx :=
  let '(raw, (h, (pk, (sg, _)))) := p in
  let? raw := field raw in
  let? h := field h in
  let? raw := from_raw raw in
  let? h := from_hash h in
  Ok (MkSigned raw h pk sg).

(** ** receipt.rs *)

(** [Transfer], [Approve], [Deploy], [Call], [Fail], receipt.rs:53-99 *)
Definition m_rtransfer :=
  pcons (p_opt 1 m_user) (pcons (p_opt 2 m_root) (pcons (p_opt 3 m_balance) (pcons (p_opt 4 m_balance) pnil))).
Definition m_rapprove := pcons (p_opt 1 m_contract) (pcons (p_opt 2 m_root) (pcons (p_opt 3 m_balance) pnil)).
Definition m_rdeploy := pcons (p_opt 1 m_contract) (pcons (p_u32 2) pnil).
Definition m_rcall := pcons (p_opt 1 m_contract) (pcons (p_bytes 2) (pcons (p_bytes 3) pnil)).
Definition m_rfail := pcons (p_string 1) (pcons (p_string 2) pnil).

(** [enum ReceiptResult], receipt.rs:39-51 *)
Definition o_result :=
  po_cons 5 m_rtransfer (po_cons 6 m_rapprove (po_cons 7 m_rdeploy (po_cons 8 m_rcall (po_last 9 m_rfail)))).
Definition p_result : Type :=
  (option (option (bytes * unit) * unit) * (option (option (bytes * unit) * unit) *
     (option (bytes * unit) * (option (bytes * unit) * unit)))) +
  ((option (option (bytes * unit) * (u32 * unit)) *
      (option (option (bytes * unit) * unit) * (option (bytes * unit) * unit))) +
   ((option (option (bytes * unit) * (u32 * unit)) * (u32 * unit)) +
    ((option (option (bytes * unit) * (u32 * unit)) * (bytes * (bytes * unit))) +
     (rstring * (rstring * unit))))).

(** receipt.rs:107-169 *)
Definition to_result (r : receipt_result) : p_result :=
  match r with
  | RTransfer u i b a =>
      inl (Some (to_user u), (Some (to_root i), (Some (to_balance b), (Some (to_balance a), tt))))
  | RApprove s i m => inr (inl (Some (to_contract s), (Some (to_root i), (Some (to_balance m), tt))))
  | RDeploy c t => inr (inr (inl (Some (to_contract c), (wrap32 (ctype_as_i32 t), tt))))
  | RCall c v l => inr (inr (inr (inl (Some (to_contract c), (v, (sbytes l, tt))))))
  | RFail s u => inr (inr (inr (inr (s, (u, tt)))))
  end.

(** [Bloom::from_slice]: panics unless given exactly 256 bytes. *)
Definition bloom_from_slice (b : bytes) : wres Bloom :=
  match to_sized 256 b with Some l => Ok l | None => Panic end.

(** receipt.rs:171-250 *)
Definition from_result (p : p_result) : wres receipt_result :=
  match p with
  | inl (u, (i, (b, (a, _)))) =>
      let? u := field u in
      let? i := field i in
      let? b := field b in
      let? a := field a in
      let? u := from_user u in
      let? i := from_root i in
      let? b := from_balance b in
      let? a := from_balance a in
      Ok (RTransfer u i b a)
  | inr (inl (s, (i, (m, _)))) =>
      let? s := field s in
      let? i := field i in
      let? m := field m in
      let? s := from_contract s in
      let? i := from_root i in
      let? m := from_balance m in
      Ok (RApprove s i m)
  | inr (inr (inl (c, (t, _)))) =>
      let? c := field c in
      let? t := ctype_from_i32 t in
      let? c := from_contract c in
      Ok (RDeploy c t)
  | inr (inr (inr (inl (c, (v, (l, _)))))) =>
      let? c := field c in
      let? c := from_contract c in
      let? l := bloom_from_slice l in
      Ok (RCall c v l)
  | inr (inr (inr (inr (s, (u, _))))) => Ok (RFail s u)
  end.

(** [Receipt], receipt.rs:21-37, 254-290 *)
Definition m_receipt :=
  pcons (p_opt 1 m_hash) (pcons (p_u64 2) (pcons (p_opt 3 m_hash) (pcons (p_opt 4 m_fee)
    (pcons (p_oneof o_result) pnil)))).
Definition p_receipt : Type :=
  option (bytes * unit) * (u64 * (option (bytes * unit) *
    (option (option (option (bytes * unit) * unit) * (u64 * unit)) * (option p_result * unit)))).
Definition to_receipt (r : receipt) : p_receipt :=
  (Some (to_hash (rc_state_root r)), (rc_epoch_id r, (Some (to_hash (rc_tx_hash r)),
    (Some (to_fee (rc_cycles_used r)), (Some (to_result (rc_result r)), tt))))).
Definition from_receipt (p : p_receipt) : wres receipt :=
  let '(sr, (eid, (h, (cy, (rr, _))))) := p in
  let? sr := field sr in
  let? h := field h in
  let? cy := field cy in
  let? rr := field rr in
  let? sr := from_hash sr in
  let? h := from_hash h in
  let? cy := from_fee cy in
  let? rr := from_result rr in
  Ok (MkReceipt sr eid h cy rr).

(** ** epoch.rs *)

(** [Proof], epoch.rs:75-91, 257-287 *)
Definition m_proof :=
  pcons (p_u64 1) (pcons (p_u64 2) (pcons (p_opt 3 m_hash) (pcons (p_bytes 4) (pcons (p_bytes 5) pnil)))).
Definition p_proof : Type := u64 * (u64 * (option (bytes * unit) * (bytes * (bytes * unit)))).
Definition to_proof (f : proof) : p_proof :=
  (pf_epoch_id f, (pf_round f, (Some (to_hash (pf_epoch_hash f)), (pf_signature f, (pf_bitmap f, tt))))).
Definition from_proof (p : p_proof) : wres proof :=
  let '(e, (r, (h, (sg, (bm, _))))) := p in
  let? h := field h in
  let? h := from_hash h in
  Ok (MkProof e r h sg bm).

(** [Validator], epoch.rs:93-103, 291-317: [u8] weights travel as [u32]. *)
Definition m_validator := pcons (p_opt 1 m_user) (pcons (p_u32 2) (pcons (p_u32 3) pnil)).
Definition p_validator : Type := option (option (bytes * unit) * unit) * (u32 * (u32 * unit)).
Definition to_validator (v : validator) : p_validator :=
  (Some (to_user (va_address v)), (wrap32 (bN (va_propose_weight v)), (wrap32 (bN (va_vote_weight v)), tt))).
Definition from_validator (p : p_validator) : wres validator :=
  let '(a, (pw, (vw, _))) := p in
  let? a := field a in
  let? a := from_user a in
  Ok (MkValidator a (byte_of (u32v pw)) (byte_of (u32v vw))).

(** [EpochHeader], epoch.rs:30-73, 164-253 *)
Definition m_header :=
  pcons (p_opt 1 m_hash) (pcons (p_u64 2) (pcons (p_opt 3 m_hash) (pcons (p_u64 4) (pcons (p_bytes 5)
    (pcons (p_opt 6 m_hash) (pcons (p_rep 7 m_hash) (pcons (p_opt 8 m_hash) (pcons (p_rep 9 m_hash)
    (pcons (p_u64 10) (pcons (p_opt 11 m_user) (pcons (p_opt 12 m_proof) (pcons (p_u64 13)
    (pcons (p_rep 14 m_validator) pnil))))))))))))).
Definition p_header : Type :=
  option (bytes * unit) * (u64 * (option (bytes * unit) * (u64 * (bytes * (option (bytes * unit) *
    (list (bytes * unit) * (option (bytes * unit) * (list (bytes * unit) * (u64 *
    (option (option (bytes * unit) * unit) * (option p_proof * (u64 * (list p_validator * unit))))))))))))).
Definition to_header (h : epoch_header) : p_header :=
  (Some (to_hash (eh_chain_id h)), (eh_epoch_id h, (Some (to_hash (eh_pre_hash h)), (eh_timestamp h,
    (sbytes (eh_logs_bloom h), (Some (to_hash (eh_order_root h)), (map to_hash (eh_confirm_root h),
    (Some (to_hash (eh_state_root h)), (map to_hash (eh_receipt_root h), (eh_cycles_used h,
    (Some (to_user (eh_proposer h)), (Some (to_proof (eh_proof h)), (eh_validator_version h,
    (map to_validator (eh_validators h), tt)))))))))))))).
Definition from_header (p : p_header) : wres epoch_header :=
  let '(chain, (eid, (pre, (ts, (bloom, (ord, (conf, (sr, (rr, (cy, (prop, (pf, (vv, (vs, _)))))))))))))) := p in
  let? chain := field chain in
  let? pre := field pre in
  let? ord := field ord in
  let? sr := field sr in
  let? prop := field prop in
  let? pf := field pf in
  let? conf := mapM from_hash conf in
  let? rr := mapM from_hash rr in
  let? vs := mapM from_validator vs in
  let? chain := from_hash chain in
  let? pre := from_hash pre in
  let? bloom := bloom_from_slice bloom in
  let? ord := from_hash ord in
  let? sr := from_hash sr in
  let? prop := from_user prop in
  let? pf := from_proof pf in
  Ok (MkHeader chain eid pre ts bloom ord conf sr rr cy prop pf vv vs).

(** [Epoch], epoch.rs:21-28, 126-160 *)
Definition m_epoch := pcons (p_opt 1 m_header) (pcons (p_rep 2 m_hash) pnil).
Definition p_epoch : Type := option p_header * (list (bytes * unit) * unit).
Definition to_epoch (e : epoch) : p_epoch :=
  (Some (to_header (ep_header e)), (map to_hash (ep_ordered_tx_hashes e), tt)).
Definition from_epoch (p : p_epoch) : wres epoch :=
  let '(h, (txs, _)) := p in
  let? h := field h in
  let? txs := mapM from_hash txs in
  let? h := from_header h in
  Ok (MkEpoch h txs).

(** [Pill], epoch.rs:105-112, 321-355 *)
Definition m_pill := pcons (p_opt 1 m_epoch) (pcons (p_rep 2 m_hash) pnil).
Definition p_pill : Type := option p_epoch * (list (bytes * unit) * unit).
Definition to_pill (l : pill) : p_pill :=
  (Some (to_epoch (pl_epoch l)), (map to_hash (pl_propose_hashes l), tt)).
Definition from_pill (p : p_pill) : wres pill :=
  let '(e, (hs, _)) := p in
  let? e := field e in
  let? hs := mapM from_hash hs in
  let? e := from_epoch e in
  Ok (MkPill e hs).

(** [EpochId], epoch.rs:114-118, 359-372 *)
Definition m_epoch_id := pcons (p_u64 1) pnil.
Definition to_epoch_id (e : epoch_id_t) : u64 * unit := (eid_id e, tt).
Definition from_epoch_id (p : u64 * unit) : wres epoch_id_t := Ok (MkEpochId (fst p)).

(** ** [encode_sync] and [decode_sync] *)
Definition wenc_balance := wenc m_balance to_balance.
Definition wdec_balance := wdec m_balance from_balance.
Definition wenc_hash := wenc m_hash to_hash.
Definition wdec_hash := wdec m_hash from_hash.
Definition wenc_user := wenc m_user to_user.
Definition wdec_user := wdec m_user from_user.
Definition wenc_contract := wenc m_contract to_contract.
Definition wdec_contract := wdec m_contract from_contract.
Definition wenc_asset := wenc m_asset to_asset.
Definition wdec_asset := wdec m_asset from_asset.
Definition wenc_fee := wenc m_fee to_fee.
Definition wdec_fee := wdec m_fee from_fee.
Definition wenc_raw := wenc m_raw to_raw.
Definition wdec_raw := wdec m_raw from_raw.
Definition wenc_signed := wenc m_signed to_signed.
Definition wdec_signed := wdec m_signed from_signed.
Definition wenc_receipt := wenc m_receipt to_receipt.
Definition wdec_receipt := wdec m_receipt from_receipt.
Definition wenc_proof := wenc m_proof to_proof.
Definition wdec_proof := wdec m_proof from_proof.
Definition wenc_validator := wenc m_validator to_validator.
Definition wdec_validator := wdec m_validator from_validator.
Definition wenc_header := wenc m_header to_header.
Definition wdec_header := wdec m_header from_header.
Definition wenc_epoch := wenc m_epoch to_epoch.
Definition wdec_epoch := wdec m_epoch from_epoch.
Definition wenc_pill := wenc m_pill to_pill.
Definition wdec_pill := wdec m_pill from_pill.
Definition wenc_epoch_id := wenc m_epoch_id to_epoch_id.
Definition wdec_epoch_id := wdec m_epoch_id from_epoch_id.
