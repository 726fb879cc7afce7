(** * FixedCodec: protocol/src/fixed_codec/*.rs, the consensus (RLP) codec.

    [enc_x v] is the byte string appended by [rlp_append] (equal to
    [rlp::encode(&v)] = [encode_fixed]); [dec_x b] is [Decodable::decode] on
    [Rlp::new(b)] (equal to [rlp::decode(b)] = [decode_fixed], macro.rs:1-18).
    The value [encode_fixed] returns is always [Ok]. *)
From Verif Require Import Base Hex Types Rlp.
Local Open Scope N_scope.

(** [.map_err(|_| rlp::DecoderError::RlpInvalidLength)] *)
Definition inv_len {E A} (r : res E A) : rlp_res A := map_err (fun _ => RlpInvalidLength) r.

(** [String::from_utf8(..).map_err(|_| RlpInvalidLength)] *)
Definition utf8_or (b : bytes) : rlp_res rstring := ok_or (from_utf8 b) RlpInvalidLength.

(** ** primitive.rs *)

(** [Hash], fixed_codec/primitive.rs:34-46 *)
Definition enc_hash (h : hash) : bytes := enc_list [enc_str (sbytes h)].
Definition dec_hash (b : bytes) : rlp_res hash :=
  let? d := at_data b 0 in inv_len (hash_from_bytes d).

(** [Address], primitive.rs:105-125 *)
Definition enc_address (a : address) : bytes := enc_list [enc_str (address_bytes a)].
Definition dec_address (b : bytes) : rlp_res address :=
  let? d := at_data b 0 in inv_len (address_from_bytes d).

(** [UserAddress], primitive.rs:127-140 *)
Definition enc_user (a : user_address) : bytes := enc_list [enc_str (ua a)].
Definition dec_user (b : bytes) : rlp_res user_address :=
  let? d := at_data b 0 in inv_len (user_from_bytes d).

(** [ContractAddress], primitive.rs:142-155 *)
Definition enc_contract (a : contract_address) : bytes := enc_list [enc_str (ca a)].
Definition dec_contract (b : bytes) : rlp_res contract_address :=
  let? d := at_data b 0 in inv_len (contract_from_bytes d).

(** [x.to_bytes_be()] appended as [Vec<u8>]; [Balance::from_bytes_be(r.at(i)?.data()?)] *)
Definition enc_bal (n : balance) : bytes := enc_str (biguint_to_bytes_be n).
Definition at_bal (b : bytes) (i : nat) : rlp_res balance :=
  let? d := at_data b i in Ok (biguint_from_bytes_be d).

(** [String::from_utf8(r.at(i)?.data()?.to_vec()).map_err(..)?] *)
Definition at_utf8 (b : bytes) (i : nat) : rlp_res rstring :=
  let? d := at_data b i in utf8_or d.

(** [Asset], primitive.rs:48-84 *)
Definition enc_asset (a : asset) : bytes :=
  enc_list [enc_hash (as_id a); enc_contract (as_manage_contract a); enc_str (rs (as_name a));
            enc_hash (as_storage_root a); enc_bal (as_supply a); enc_str (rs (as_symbol a))].
Definition dec_asset (b : bytes) : rlp_res asset :=
  let? _ := check_list_len b 6 in
  let? id := at_dec dec_hash b 0 in
  let? mc := at_dec dec_contract b 1 in
  let? name := at_utf8 b 2 in
  let? sr := at_dec dec_hash b 3 in
  let? supply := at_bal b 4 in
  let? symbol := at_utf8 b 5 in
  Ok (MkAsset id name symbol supply mc sr).

(** [Fee], primitive.rs:86-103 *)
Definition enc_fee (f : fee) : bytes := enc_list [enc_hash (fee_asset_id f); enc_u64 (fee_cycle f)].
Definition dec_fee (b : bytes) : rlp_res fee :=
  let? _ := check_list_len b 2 in
  let? id := at_dec dec_hash b 0 in
  let? c := at_dec dec_u64 b 1 in
  Ok (MkFee id c).

(** [BTreeMap::iter]: entries in ascending key order ([Ord] of [Hash] and of
    [ContractAddress] is the lexicographic order of their bytes). *)
Section Sorted.
  Context {K V : Type} (key : K -> bytes).
  Fixpoint insert_sorted (p : K * V) (l : list (K * V)) : list (K * V) :=
    match l with
    | [] => [p]
    | q :: r => if bytes_leb (key (fst p)) (key (fst q)) then p :: l else q :: insert_sorted p r
    end.
  Definition sort_entries (l : list (K * V)) : list (K * V) := fold_right insert_sorted [] l.
End Sorted.
Definition sorted_entries `{Countable K} {V} (key : K -> bytes) (m : gmap K V) : list (K * V) :=
  sort_entries key (map_to_list m).

(** [for v in list { map.insert(k, v) }] *)
Definition collect_map `{Countable K} {V} (l : list (K * V)) : gmap K V :=
  fold_left (fun m p => <[fst p := snd p]> m) l ∅.

(** [FixedUserAssetApproved], primitive.rs:306-327 *)
Definition enc_approved (p : contract_address * approved_info) : bytes :=
  enc_list [enc_contract (fst p); enc_bal (ap_max (snd p)); enc_bal (ap_used (snd p))].
Definition dec_approved (b : bytes) : rlp_res (contract_address * approved_info) :=
  let? c := at_dec dec_contract b 0 in
  let? mx := at_bal b 1 in
  let? us := at_bal b 2 in
  Ok (c, MkApproved mx us).

(** [FixedUserAsset], primitive.rs:255-297 *)
Definition enc_user_asset (p : hash * asset_info) : bytes :=
  enc_list [enc_list (map enc_approved (sorted_entries ca (ai_approved (snd p))));
            enc_bal (ai_balance (snd p)); enc_hash (fst p)].
Definition dec_user_asset (b : bytes) : rlp_res (hash * asset_info) :=
  let? e := rlp_at b 0 in
  let? al := dec_list dec_approved e in
  let? bal := at_bal b 1 in
  let? id := at_dec dec_hash b 2 in
  Ok (id, MkAssetInfo bal (collect_map al)).

(** [FixedContractAsset], primitive.rs:335-350 *)
Definition enc_contract_asset (p : hash * balance) : bytes :=
  enc_list [enc_bal (snd p); enc_hash (fst p)].
Definition dec_contract_asset (b : bytes) : rlp_res (hash * balance) :=
  let? bal := at_bal b 0 in
  let? id := at_dec dec_hash b 1 in
  Ok (id, bal).

(** [Account], primitive.rs:157-246 *)
Definition enc_account (a : account) : bytes :=
  match a with
  | AccUser u =>
      enc_list [enc_u8 x00; enc_list (map enc_user_asset (sorted_entries sbytes (uac_assets u)));
                enc_u64 (uac_nonce u)]
  | AccContract c =>
      enc_list [enc_u8 x01; enc_list (map enc_contract_asset (sorted_entries sbytes (cac_assets c)));
                enc_u64 (cac_nonce c); enc_hash (cac_storage_root c)]
  end.
Definition dec_account (b : bytes) : rlp_res account :=
  let? flag := at_dec dec_u8 b 0 in
  if bN flag =? 0 then
    let? e := rlp_at b 1 in
    let? al := dec_list dec_user_asset e in
    let? nonce := at_dec dec_u64 b 2 in
    Ok (AccUser (MkUserAccount nonce (collect_map al)))
  else if bN flag =? 1 then
    let? e := rlp_at b 1 in
    let? al := dec_list dec_contract_asset e in
    let? nonce := at_dec dec_u64 b 2 in
    let? sr := at_dec dec_hash b 3 in
    Ok (AccContract (MkContractAccount nonce (collect_map al) sr))
  else Err RlpListLenWithZeroPrefix.

(** ** transaction.rs *)

(** Type flags, fixed_codec/transaction.rs:57-62 and 146-152; receipt.rs:71-76, 123-128. *)
Definition ctype_flag (t : contract_type) : byte :=
  match t with CtAsset => x00 | CtApp => x01 | CtLibrary => x02 | CtNative => x03 end.
Definition flag_ctype (b : byte) : rlp_res contract_type :=
  if bN b =? 0 then Ok CtAsset
  else if bN b =? 1 then Ok CtApp
  else if bN b =? 2 then Ok CtLibrary
  else if bN b =? 3 then Ok CtNative
  else Err RlpCustom.

(** The "tx basic fields", transaction.rs:28-33, 47-52, 82-87. *)
Definition enc_basic (r : raw_tx) : list bytes :=
  [enc_str (sbytes (rt_chain_id r)); enc_str (sbytes (fee_asset_id (rt_fee r)));
   enc_u64 (fee_cycle (rt_fee r)); enc_str (sbytes (rt_nonce r)); enc_u64 (rt_timeout r)].

(** [RawTransaction::rlp_append], transaction.rs:18-108.  Approve falls into
    [_ => {}]: nothing is appended. *)
Definition enc_raw (r : raw_tx) : bytes :=
  match rt_action r with
  | Transfer receiver c =>
      enc_list ([enc_u8 x00] ++ enc_basic r ++
                [enc_bal (cr_amount c); enc_str (sbytes (cr_asset_id c)); enc_str (ua receiver)])
  | Deploy code t =>
      enc_list ([enc_u8 x01] ++ enc_basic r ++ [enc_str code; enc_u8 (ctype_flag t)])
  | Call contract method args (Some c) =>
      enc_list ([enc_u8 x02] ++ enc_basic r ++
                [enc_list (map (fun a => enc_str (hex_encode a)) args);
                 enc_bal (cr_amount c); enc_str (sbytes (cr_asset_id c));
                 enc_str (ca contract); enc_str (rs method)])
  | Call contract method args None =>
      enc_list ([enc_u8 x03] ++ enc_basic r ++
                [enc_list (map (fun a => enc_str (hex_encode a)) args);
                 enc_str (ca contract); enc_str (rs method)])
  | Approve _ _ _ => []
  end.

(** [Hash::from_bytes(Bytes::from(r.at(i)?.data()?)).map_err(..)?] and the
    same for addresses. *)
Definition at_hash (b : bytes) (i : nat) : rlp_res hash :=
  let? d := at_data b i in inv_len (hash_from_bytes d).
Definition at_user (b : bytes) (i : nat) : rlp_res user_address :=
  let? d := at_data b i in inv_len (user_from_bytes d).
Definition at_contract (b : bytes) (i : nat) : rlp_res contract_address :=
  let? d := at_data b i in inv_len (contract_from_bytes d).

(** [help_decode_raw_tx], transaction.rs:259-275 *)
Definition dec_basic (b : bytes) : rlp_res (hash * fee * hash * u64) :=
  let? chain := at_hash b 1 in
  let? fa := at_hash b 2 in
  let? fc := at_dec dec_u64 b 3 in
  let? nonce := at_hash b 4 in
  let? timeout := at_dec dec_u64 b 5 in
  Ok (chain, MkFee fa fc, nonce, timeout).

(** [hex_to_bytes], transaction.rs:285-291 *)
Definition hex_to_bytes (s : rstring) : rlp_res bytes :=
  map_err (fun _ => RlpCustom) (hex_decode (clean_0x (rs s))).

(** [.map(hex_to_bytes).collect::<Result<Vec<_>, _>>()] *)
Fixpoint map_res {E A B} (f : A -> res E B) (l : list A) : res E (list B) :=
  match l with
  | [] => Ok []
  | a :: r => let? b := f a in let? t := map_res f r in Ok (b :: t)
  end.

(** [RawTransaction::decode], transaction.rs:110-227 *)
Definition dec_raw (b : bytes) : rlp_res raw_tx :=
  let? flag := at_dec dec_u8 b 0 in
  if bN flag =? 0 then
    let? (chain, f, nonce, timeout) := dec_basic b in
    let? receiver := at_user b 8 in
    let? aid := at_hash b 7 in
    let? amount := at_bal b 6 in
    Ok (MkRaw chain nonce timeout f (Transfer receiver (MkCarrying aid amount)))
  else if bN flag =? 1 then
    let? (chain, f, nonce, timeout) := dec_basic b in
    let? code := at_data b 6 in
    let? tf := at_dec dec_u8 b 7 in
    let? t := flag_ctype tf in
    Ok (MkRaw chain nonce timeout f (Deploy code t))
  else if (bN flag =? 2) || (bN flag =? 3) then
    let? (chain, f, nonce, timeout) := dec_basic b in
    let? e := rlp_at b 6 in
    let? sargs := dec_list dec_string e in
    let? args := map_res hex_to_bytes sargs in
    if bN flag =? 2 then
      let? aid := at_hash b 8 in
      let? amount := at_bal b 7 in
      let? contract := at_contract b 9 in
      let? method := at_utf8 b 10 in
      Ok (MkRaw chain nonce timeout f (Call contract method args (Some (MkCarrying aid amount))))
    else
      let? contract := at_contract b 7 in
      let? method := at_utf8 b 8 in
      Ok (MkRaw chain nonce timeout f (Call contract method args None))
  else Err RlpListLenWithZeroPrefix.

(** [SignedTransaction], transaction.rs:229-257 *)
Definition enc_signed (t : signed_tx) : bytes :=
  enc_list [enc_str (st_pubkey t); enc_raw (st_raw t); enc_str (st_signature t); enc_hash (st_tx_hash t)].
Definition dec_signed (b : bytes) : rlp_res signed_tx :=
  let? _ := check_list_len b 4 in
  let? pk := at_data b 0 in
  let? raw := at_dec dec_raw b 1 in
  let? sig := at_data b 2 in
  let? h := at_dec dec_hash b 3 in
  Ok (MkSigned raw h pk sig).

(** ** receipt.rs *)

(** [ReceiptResult], receipt.rs:44-158.  Approve appends nothing. *)
Definition enc_result (r : receipt_result) : bytes :=
  match r with
  | RTransfer receiver aid before after =>
      enc_list [enc_u8 x00; enc_bal after; enc_hash aid; enc_bal before; enc_user receiver]
  | RDeploy c t => enc_list [enc_u8 x01; enc_contract c; enc_u8 (ctype_flag t)]
  | RCall c ret bloom => enc_list [enc_u8 x02; enc_contract c; enc_str (sbytes bloom); enc_str ret]
  | RFail sys usr => enc_list [enc_u8 x03; enc_str (rs sys); enc_str (rs usr)]
  | RApprove _ _ _ => []
  end.
Definition dec_result (b : bytes) : rlp_res receipt_result :=
  let? flag := at_dec dec_u8 b 0 in
  if bN flag =? 0 then
    let? after := at_bal b 1 in
    let? aid := at_dec dec_hash b 2 in
    let? before := at_bal b 3 in
    let? receiver := at_dec dec_user b 4 in
    Ok (RTransfer receiver aid before after)
  else if bN flag =? 1 then
    let? c := at_dec dec_contract b 1 in
    let? tf := at_dec dec_u8 b 2 in
    let? t := flag_ctype tf in
    Ok (RDeploy c t)
  else if bN flag =? 2 then
    let? c := at_dec dec_contract b 1 in
    let? bloom := at_dec (dec_sized 256) b 2 in
    let? ret := at_data b 3 in
    Ok (RCall c ret bloom)
  else if bN flag =? 3 then
    let? sys := at_utf8 b 1 in
    let? usr := at_utf8 b 2 in
    Ok (RFail sys usr)
  else Err RlpListLenWithZeroPrefix.

(** [Receipt], receipt.rs:11-42 *)
Definition enc_receipt (r : receipt) : bytes :=
  enc_list [enc_fee (rc_cycles_used r); enc_u64 (rc_epoch_id r); enc_result (rc_result r);
            enc_hash (rc_state_root r); enc_hash (rc_tx_hash r)].
Definition dec_receipt (b : bytes) : rlp_res receipt :=
  let? _ := check_list_len b 5 in
  let? cu := at_dec dec_fee b 0 in
  let? eid := at_dec dec_u64 b 1 in
  let? r := at_dec dec_result b 2 in
  let? sr := at_dec dec_hash b 3 in
  let? th := at_dec dec_hash b 4 in
  Ok (MkReceipt sr eid th cu r).

(** ** epoch.rs *)

(** [Proof], epoch.rs:12-43 *)
Definition enc_proof (p : proof) : bytes :=
  enc_list [enc_str (pf_bitmap p); enc_hash (pf_epoch_hash p); enc_u64 (pf_epoch_id p);
            enc_u64 (pf_round p); enc_str (pf_signature p)].
Definition dec_proof (b : bytes) : rlp_res proof :=
  let? _ := check_list_len b 5 in
  let? bm := at_data b 0 in
  let? eh := at_dec dec_hash b 1 in
  let? eid := at_dec dec_u64 b 2 in
  let? rd := at_dec dec_u64 b 3 in
  let? sg := at_data b 4 in
  Ok (MkProof eid rd eh sg bm).

(** [Validator], epoch.rs:45-70 *)
Definition enc_validator (v : validator) : bytes :=
  enc_list [enc_user (va_address v); enc_u8 (va_propose_weight v); enc_u8 (va_vote_weight v)].
Definition dec_validator (b : bytes) : rlp_res validator :=
  let? _ := check_list_len b 3 in
  let? a := at_dec dec_user b 0 in
  let? p := at_dec dec_u8 b 1 in
  let? v := at_dec dec_u8 b 2 in
  Ok (MkValidator a p v).

(** [EpochHeader], epoch.rs:72-130 *)
Definition enc_header (h : epoch_header) : bytes :=
  enc_list [enc_hash (eh_chain_id h); enc_list (map enc_hash (eh_confirm_root h));
            enc_u64 (eh_cycles_used h); enc_u64 (eh_epoch_id h); enc_str (sbytes (eh_logs_bloom h));
            enc_hash (eh_order_root h); enc_hash (eh_pre_hash h); enc_proof (eh_proof h);
            enc_user (eh_proposer h); enc_list (map enc_hash (eh_receipt_root h));
            enc_hash (eh_state_root h); enc_u64 (eh_timestamp h); enc_u64 (eh_validator_version h);
            enc_list (map enc_validator (eh_validators h))].
Definition dec_header (b : bytes) : rlp_res epoch_header :=
  let? _ := check_list_len b 14 in
  let? chain := at_dec dec_hash b 0 in
  let? confirm := at_dec (dec_list dec_hash) b 1 in
  let? cycles := at_dec dec_u64 b 2 in
  let? eid := at_dec dec_u64 b 3 in
  let? bloom := at_dec (dec_sized 256) b 4 in
  let? order := at_dec dec_hash b 5 in
  let? pre := at_dec dec_hash b 6 in
  let? pf := at_dec dec_proof b 7 in
  let? proposer := at_dec dec_user b 8 in
  let? rroot := at_dec (dec_list dec_hash) b 9 in
  let? sroot := at_dec dec_hash b 10 in
  let? ts := at_dec dec_u64 b 11 in
  let? vv := at_dec dec_u64 b 12 in
  let? vals := at_dec (dec_list dec_validator) b 13 in
  Ok (MkHeader chain eid pre ts bloom order confirm sroot rroot cycles proposer pf vv vals).

(** [Epoch], epoch.rs:132-154 *)
Definition enc_epoch (e : epoch) : bytes :=
  enc_list [enc_header (ep_header e); enc_list (map enc_hash (ep_ordered_tx_hashes e))].
Definition dec_epoch (b : bytes) : rlp_res epoch :=
  let? _ := check_list_len b 2 in
  let? h := at_dec dec_header b 0 in
  let? l := at_dec (dec_list dec_hash) b 1 in
  Ok (MkEpoch h l).

(** [Pill], epoch.rs:156-178 *)
Definition enc_pill (p : pill) : bytes :=
  enc_list [enc_epoch (pl_epoch p); enc_list (map enc_hash (pl_propose_hashes p))].
Definition dec_pill (b : bytes) : rlp_res pill :=
  let? _ := check_list_len b 2 in
  let? e := at_dec dec_epoch b 0 in
  let? l := at_dec (dec_list dec_hash) b 1 in
  Ok (MkPill e l).

(** [EpochId], epoch.rs:180-192 *)
Definition enc_epoch_id (e : epoch_id_t) : bytes := enc_list [enc_u64 (eid_id e)].
Definition dec_epoch_id (b : bytes) : rlp_res epoch_id_t :=
  let? i := at_dec dec_u64 b 0 in Ok (MkEpochId i).

(** ** genesis.rs *)

(** [GenesisSystemToken], genesis.rs:14-52.  The decoder collects the data of
    every item and then indexes [values[0]], [values[1]], [values[3]]. *)
Definition enc_gtoken (t : genesis_token) : bytes :=
  enc_list [enc_str (rs (gt_code t)); enc_str (rs (gt_name t)); enc_u64 (gt_supply t); enc_str (rs (gt_symbol t))].
Definition index {E A} (l : list A) (i : nat) : res E A :=
  match nth_error l i with Some a => Ok a | None => Panic end.
Definition dec_gtoken (b : bytes) : rlp_res genesis_token :=
  let? _ := check_list_len b 4 in
  let? values := dec_all rlp_data (rlp_items b) in
  let? v0 := index values 0 in
  let? code := utf8_or v0 in
  let? v1 := index values 1 in
  let? name := utf8_or v1 in
  let? supply := at_dec dec_u64 b 2 in
  let? v3 := index values 3 in
  let? symbol := utf8_or v3 in
  Ok (MkGToken code name symbol supply).

(** [GenesisStateAsset], genesis.rs:54-75 *)
Definition enc_gasset (a : genesis_asset) : bytes :=
  enc_list [enc_str (rs (ga_asset_id a)); enc_str (rs (ga_balance a))].
Definition dec_gasset (b : bytes) : rlp_res genesis_asset :=
  let? _ := check_list_len b 2 in
  let? i := at_utf8 b 0 in
  let? v := at_utf8 b 1 in
  Ok (MkGAsset i v).

(** [GenesisStateAlloc], genesis.rs:77-97 *)
Definition enc_galloc (a : genesis_alloc) : bytes :=
  enc_list [enc_str (rs (gl_address a)); enc_list (map enc_gasset (gl_assets a))].
Definition dec_galloc (b : bytes) : rlp_res genesis_alloc :=
  let? _ := check_list_len b 2 in
  let? a := at_utf8 b 0 in
  let? l := at_dec (dec_list dec_gasset) b 1 in
  Ok (MkGAlloc a l).

(** [Genesis], genesis.rs:99-128 *)
Definition enc_genesis (g : genesis) : bytes :=
  enc_list [enc_str (rs (gn_prevhash g)); enc_list (map enc_galloc (gn_state_alloc g));
            enc_gtoken (gn_system_token g); enc_u64 (gn_timestamp g)].
Definition dec_genesis (b : bytes) : rlp_res genesis :=
  let? _ := check_list_len b 4 in
  let? p := at_utf8 b 0 in
  let? l := at_dec (dec_list dec_galloc) b 1 in
  let? t := at_dec dec_gtoken b 2 in
  let? ts := at_dec dec_u64 b 3 in
  Ok (MkGenesis ts p t l).
