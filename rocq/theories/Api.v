(** * Api: the GraphQL service, core/api/src/{lib,schema/*,adapter/mod}.rs.

    A request reaches the resolvers as strings: here lists of Unicode code
    points.  Not modelled: HTTP, JSON, GraphQL parsing and validation (juniper
    delivers each scalar as the string the client wrote; a request whose
    arguments do not have the schema's shape never reaches a resolver), and
    the wording of errors. *)
From Verif Require Import Base Hex Types Rlp FixedCodec Executor Mempool Wire Storage Consensus.
Local Open Scope N_scope.

Notation text := (list N).

(** [clean_0x], schema/mod.rs:108-114 *)
Definition clean_text (t : text) : text :=
  match t with
  | a :: b :: r => if (a =? 48) && (b =? 120) then r else t
  | _ => t
  end.

(** [char::to_uppercase] as used by [str::to_uppercase].  Exact on ASCII and
    on the ligature U+FB00, the only other character whose upper-case form
    consists of hexadecimal digits ("FF").  Every other non-ASCII character
    has an upper-case form containing a character that is no hexadecimal
    digit (Unicode UnicodeData.txt, SpecialCasing.txt), and so does the
    character itself: it is left alone. *)
Definition char_upper (c : N) : list N :=
  if (97 <=? c) && (c <=? 122) then [c - 32] else if c =? 64256 then [70; 70] else [c].

(** UTF-8, the bytes of a Rust [String] *)
Definition utf8_char (c : N) : bytes :=
  if c <? 128 then [byte_of c]
  else if c <? 2048 then [byte_of (192 + c / 64); byte_of (128 + c mod 64)]
  else if c <? 65536 then [byte_of (224 + c / 4096); byte_of (128 + (c / 64) mod 64); byte_of (128 + c mod 64)]
  else [byte_of (240 + c / 262144); byte_of (128 + (c / 4096) mod 64); byte_of (128 + (c / 64) mod 64); byte_of (128 + c mod 64)].

(** [as_hex] of Hash, Address, Uint64, Balance and Bytes, schema/mod.rs:39-67 *)
Definition as_hex (t : text) : bytes := flat_map utf8_char (flat_map char_upper (clean_text t)).

(** Errors of the resolvers: a [FieldError] made from the inner error. *)
Inductive api_err :=
| AHex (e : hex_err) | ATypes (e : types_err) | AEmpty | AInvalidDigit | AOverflow
| APrivKey | AInsert (e : mp_err) | AStorage (e : st_err) | AExec (e : exec_err).
Notation ares := (res api_err).

(** [hex_to_vec_u8], lib.rs:241-243 *)
Definition hex_to_vec_u8 (s : bytes) : ares bytes := map_err AHex (hex_decode s).

(** [u64::from_str_radix(s, 16)] of the Rust core library: an optional '+', at
    least one digit, [checked_mul] then [checked_add]. *)
Fixpoint radix_loop (acc : N) (s : bytes) : ares u64 :=
  match s with
  | [] => Ok (wrap64 acc)
  | c :: r =>
      let? v := ok_or (hex_val c) AInvalidDigit in
      if two64 <=? acc * 16 then Err AOverflow
      else if two64 <=? acc * 16 + v then Err AOverflow
      else radix_loop (acc * 16 + v) r
  end.
Definition from_str_radix16 (s : bytes) : ares u64 :=
  match s with
  | [] => Err AEmpty
  | c :: r =>
      let d := if beqb c x2b then r else s in
      match d with [] => Err AEmpty | _ => radix_loop 0 d end
  end.

(** [hex_to_u64], [opt_hex_to_u64], lib.rs:245-258 *)
Definition hex_to_u64 (s : bytes) : ares u64 := from_str_radix16 s.
Definition opt_hex_to_u64 (s : option bytes) : ares (option u64) :=
  match s with Some s => let? n := hex_to_u64 s in Ok (Some n) | None => Ok None end.

(** ** Input objects, schema/transaction.rs:4-81 *)
Record input_raw := MkInRaw { in_chain_id : text; in_fee_cycle : text; in_fee_asset_id : text; in_nonce : text; in_timeout : text }.
Record input_encryption := MkInEnc { in_tx_hash : text; in_pubkey : text; in_signature : text }.
Record input_transfer := MkInTransfer { in_amount : text; in_asset_id : text; in_receiver : text }.
(** the GraphQL enum has no Native *)
Inductive input_contract_type := InAsset | InApp | InLibrary.
Record input_deploy := MkInDeploy { in_code : text; in_contract_type : input_contract_type }.

(** ** Conversions of inputs, lib.rs:283-355 *)
(** [cover_to_raw_tx], lib.rs:283-302 *)
Definition cover_to_raw_tx (a : tx_action) (i : input_raw) : ares raw_tx :=
  let? chain := map_err ATypes (hash_from_hex (as_hex (in_chain_id i))) in
  let? nonce := map_err ATypes (hash_from_hex (as_hex (in_nonce i))) in
  let? timeout := hex_to_u64 (as_hex (in_timeout i)) in
  let? asset := map_err ATypes (hash_from_hex (as_hex (in_fee_asset_id i))) in
  let? cycle := hex_to_u64 (as_hex (in_fee_cycle i)) in
  Ok (MkRaw chain nonce timeout (MkFee asset cycle) a).

(** [cover_to_signed_tx], lib.rs:304-320 *)
Definition cover_to_signed_tx (a : tx_action) (i : input_raw) (e : input_encryption) : ares signed_tx :=
  let? raw := cover_to_raw_tx a i in
  let? h := map_err ATypes (hash_from_hex (as_hex (in_tx_hash e))) in
  let? pk := hex_to_vec_u8 (as_hex (in_pubkey e)) in
  let? sg := hex_to_vec_u8 (as_hex (in_signature e)) in
  Ok (MkSigned raw h pk sg).

(** [cover_transfer_action], lib.rs:322-338 *)
Definition cover_transfer_action (i : input_transfer) : ares tx_action :=
  let? r := map_err ATypes (user_from_hex (as_hex (in_receiver i))) in
  let? asset := map_err ATypes (hash_from_hex (as_hex (in_asset_id i))) in
  let? amount := hex_to_vec_u8 (as_hex (in_amount i)) in
  Ok (Transfer r (MkCarrying asset (biguint_from_bytes_be amount))).

(** [cover_deploy_action], lib.rs:340-355 *)
Definition cover_contract_type (t : input_contract_type) : contract_type :=
  match t with InAsset => CtAsset | InApp => CtApp | InLibrary => CtLibrary end.
Definition cover_deploy_action (i : input_deploy) : ares tx_action :=
  let? code := hex_to_vec_u8 (as_hex (in_code i)) in
  Ok (Deploy code (cover_contract_type (in_contract_type i))).

(** ** Outputs, schema/mod.rs:69-106, schema/epoch.rs *)
Definition text_of (b : bytes) : text := map bN b.
Definition out_hash (h : hash) : text := text_of (hash_as_hex h).
Definition out_address (a : address) : text := text_of (address_as_hex a).
Definition out_u64 (n : u64) : text := text_of (hex_encode (u64_to_be_bytes n)).
Definition out_balance (n : balance) : text := text_of (hex_encode (biguint_to_bytes_be n)).
Definition out_bytes (b : bytes) : text := text_of (hex_encode b).

Record out_header := MkOutHeader {
  oh_chain_id : text; oh_epoch_id : text; oh_pre_hash : text; oh_timestamp : text; oh_order_root : text;
  oh_confirm_root : list text; oh_state_root : text; oh_receipt_root : list text; oh_cycles_used : text;
  oh_proposer : text; oh_validator_version : text }.
Record out_epoch := MkOutEpoch { oe_header : out_header; oe_ordered_tx_hashes : list text }.

(** [From<EpochHeader>], [From<Epoch>], schema/epoch.rs:46-85 *)
Definition out_header_of (h : epoch_header) : out_header :=
  MkOutHeader (out_hash (eh_chain_id h)) (out_u64 (eh_epoch_id h)) (out_hash (eh_pre_hash h)) (out_u64 (eh_timestamp h))
    (out_hash (eh_order_root h)) (map out_hash (eh_confirm_root h)) (out_hash (eh_state_root h))
    (map out_hash (eh_receipt_root h)) (out_u64 (eh_cycles_used h)) (out_address (AUser (eh_proposer h)))
    (out_u64 (eh_validator_version h)).
Definition out_epoch_of (e : epoch) : out_epoch :=
  MkOutEpoch (out_header_of (ep_header e)) (map out_hash (ep_ordered_tx_hashes e)).

Section Resolvers.
  Context (digest : bytes -> hash).

  (** [APIAdapter::get_epoch_by_id], adapter/mod.rs:44-51 *)
  Definition adapter_get_epoch (d : durable) (id : option u64) : ares epoch :=
    map_err AStorage (match id with
      | Some id => get_epoch_by_epoch_id rocks_col d.1 id
      | None => get_latest_epoch rocks_col digest d.1
      end).

  (** [APIAdapter::get_balance], adapter/mod.rs:61-79 *)
  Definition adapter_get_balance (d : durable) (a : address) (id : hash) (at_epoch : option u64) : ares balance :=
    let? e := adapter_get_epoch d at_epoch in
    let h := ep_header e in
    map_err AExec
      (let? x := Executor.from_root digest (eh_chain_id h) (eh_state_root h) d.2 (eh_epoch_id h) (wrap64 0) (AUser (eh_proposer h)) in
       exec_get_balance x a id).

  (** [getLatestEpoch], lib.rs:63-70 *)
  Definition query_epoch (d : durable) (id : option text) : ares out_epoch :=
    let? id := opt_hex_to_u64 (option_map as_hex id) in
    let? e := adapter_get_epoch d id in
    Ok (out_epoch_of e).

  (** [getBalance], lib.rs:81-104 *)
  Definition query_balance (d : durable) (a asset : text) (id : option text) : ares text :=
    let? id := opt_hex_to_u64 (option_map as_hex id) in
    let? a := map_err ATypes (address_from_hex (as_hex a)) in
    let? asset := map_err ATypes (hash_from_hex (as_hex asset)) in
    match adapter_get_balance d a asset id with
    | Ok b => Ok (out_balance b)
    | Err _ => Ok (out_balance (biguint_from_bytes_be []))
    | Panic => Panic
    end.

  (** ** Mutations.  [insert] is the mempool's [insert] with a context that is
      not of network origin ([Context::new()], adapter/mod.rs:36-42): the
      transaction handed over and what the call returned.  A mutation yields
      what it handed to the mempool, if anything, and its reply. *)
  Notation outcome := (option signed_tx * ares text)%type.
  Definition submit (insert : signed_tx -> res mp_err unit) (t : ares signed_tx) (reply : text) : outcome :=
    match t with
    | Ok t => (Some t, match insert t with Ok _ => Ok reply | Err e => Err (AInsert e) | Panic => Panic end)
    | Err e => (None, Err e)
    | Panic => (None, Panic)
    end.

  (** [sendTransferTransaction], lib.rs:113-129; [sendDeployTransaction], lib.rs:135-151 *)
  Definition send_transfer insert (i : input_raw) (a : input_transfer) (e : input_encryption) : outcome :=
    submit insert (let? act := cover_transfer_action a in cover_to_signed_tx act i e) (in_tx_hash e).
  Definition send_deploy insert (i : input_raw) (a : input_deploy) (e : input_encryption) : outcome :=
    submit insert (let? act := cover_deploy_action a in cover_to_signed_tx act i e) (in_tx_hash e).

  (** The secp256k1 crate: the key behind some bytes, if they are a private
      key, given as its public key bytes and its signatures of hashes. *)
  Context (privkey : bytes -> option (bytes * (hash -> bytes))).

  (** [gen_input_tx_encryption], lib.rs:260-277 *)
  Definition gen_input_tx_encryption (key : text) (tx_hash : text) : ares input_encryption :=
    let? kb := hex_to_vec_u8 (as_hex key) in
    let? k := ok_or (privkey kb) APrivKey in
    let? hb := hex_to_vec_u8 (as_hex tx_hash) in
    let? h := map_err ATypes (hash_from_bytes hb) in
    Ok (MkInEnc tx_hash (out_bytes k.1) (out_bytes (k.2 h))).

  (** [sendUnsafeTransferTransaction], lib.rs:157-178; [sendUnsafeDeployTransaction], lib.rs:184-205 *)
  Definition send_unsafe insert (act : ares tx_action) (i : input_raw) (key : text) : outcome :=
    match (let? a := act in
           let? raw := cover_to_raw_tx a i in
           let tx_hash := out_hash (digest (enc_raw raw)) in
           let? e := gen_input_tx_encryption key tx_hash in
           let? t := cover_to_signed_tx a i e in
           Ok (t, tx_hash)) with
    | Ok (t, h) => submit insert (Ok t) h
    | Err e => (None, Err e)
    | Panic => (None, Panic)
    end.
  Definition send_unsafe_transfer insert i (a : input_transfer) key := send_unsafe insert (cover_transfer_action a) i key.
  Definition send_unsafe_deploy insert i (a : input_deploy) key := send_unsafe insert (cover_deploy_action a) i key.
End Resolvers.
