(** * Types: protocol/src/types/*.rs *)
From Verif Require Import Base Hex.
Local Open Scope N_scope.

(** [TypesError], protocol/src/types/mod.rs (payloads omitted). *)
Inductive types_err := LengthMismatch | FromHex (e : hex_err) | InvalidAddress.

(** ** Hash, protocol/src/types/primitive.rs:20-88 *)
Definition hash := sized 32.
Definition Bloom := sized 256.

(** [Hash::from_bytes], primitive.rs:53-59 (with [ensure_len] 394-400). *)
Definition hash_from_bytes (b : bytes) : res types_err hash :=
  ok_or (to_sized 32 b) LengthMismatch.

(** [hex::decode(clean_0x(s)).map_err(TypesError::from)], primitive.rs:62-63. *)
Definition decode_hex_text (s : bytes) : res types_err bytes :=
  map_err FromHex (hex_decode (clean_0x s)).

(** [Hash::from_hex], primitive.rs:61-67. *)
Definition hash_from_hex (s : bytes) : res types_err hash :=
  let? b := decode_hex_text s in hash_from_bytes b.

(** [Hash::as_hex], primitive.rs:73-75. *)
Definition hash_as_hex (h : hash) : bytes := hex_encode (sbytes h).

(** ** Contract types, primitive.rs:103-114 *)
Inductive contract_type := CtAsset | CtApp | CtLibrary | CtNative.
Global Instance contract_type_eq_dec : EqDecision contract_type.
Proof. solve_decision. Defined.

(** Magic numbers, primitive.rs:93-101. *)
Definition ACCOUNT_ADDRESS_MAGIC : byte := x10.
Definition contract_magic (t : contract_type) : byte :=
  match t with CtAsset => x20 | CtApp => x21 | CtLibrary => x22 | CtNative => x23 end.

(** The [match *magic] of [ContractAddress::from_bytes], primitive.rs:254-265. *)
Definition magic_contract_type (b : byte) : option contract_type :=
  if beqb b x20 then Some CtAsset
  else if beqb b x21 then Some CtApp
  else if beqb b x22 then Some CtLibrary
  else if beqb b x23 then Some CtNative
  else None.

Definition ADDRESS_LEN : nat := 21.

(** ** Addresses.  [UserAddress] and [ContractAddress] (primitive.rs:165-176)
    have private fields and are only built by [from_bytes], so the type
    carries exactly what [from_bytes] checks.  [contract_type] of a
    [ContractAddress] is a function of its first byte. *)
Definition user_addr_ok (b : bytes) : bool :=
  match b with m :: _ => beqb m ACCOUNT_ADDRESS_MAGIC && (length b =? ADDRESS_LEN)%nat | [] => false end.
Definition contract_addr_ok (b : bytes) : bool :=
  match b with
  | m :: _ => match magic_contract_type m with Some _ => (length b =? ADDRESS_LEN)%nat | None => false end
  | [] => false
  end.

Record user_address := UA { ua : bytes; ua_ok : user_addr_ok ua = true }.
Record contract_address := CA { ca : bytes; ca_ok : contract_addr_ok ca = true }.
Inductive address := AUser (u : user_address) | AContract (c : contract_address).

Lemma ua_eq a b : ua a = ua b -> a = b.
Proof.
  destruct a as [a Ha], b as [b Hb]; cbn; intros ->.
  f_equal. apply Eqdep_dec.UIP_dec. apply bool_dec.
Qed.
Lemma ca_eq a b : ca a = ca b -> a = b.
Proof.
  destruct a as [a Ha], b as [b Hb]; cbn; intros ->.
  f_equal. apply Eqdep_dec.UIP_dec. apply bool_dec.
Qed.

Definition to_ua (b : bytes) : option user_address :=
  match Bool.bool_dec (user_addr_ok b) true with left e => Some (UA b e) | right _ => None end.
Definition to_ca (b : bytes) : option contract_address :=
  match Bool.bool_dec (contract_addr_ok b) true with left e => Some (CA b e) | right _ => None end.

Lemma to_ua_ua a : to_ua (ua a) = Some a.
Proof.
  unfold to_ua. destruct (bool_dec _ _) as [e|ne].
  - f_equal. apply ua_eq. reflexivity.
  - exfalso. apply ne, ua_ok.
Qed.
Lemma to_ca_ca a : to_ca (ca a) = Some a.
Proof.
  unfold to_ca. destruct (bool_dec _ _) as [e|ne].
  - f_equal. apply ca_eq. reflexivity.
  - exfalso. apply ne, ca_ok.
Qed.

(** [UserAddress::from_bytes], primitive.rs:203-217: magic first, then length. *)
Definition user_from_bytes (b : bytes) : res types_err user_address :=
  match b with
  | [] => Err InvalidAddress
  | m :: _ =>
      if beqb m ACCOUNT_ADDRESS_MAGIC then ok_or (to_ua b) LengthMismatch
      else Err InvalidAddress
  end.

(** [ContractAddress::from_bytes], primitive.rs:249-272. *)
Definition contract_from_bytes (b : bytes) : res types_err contract_address :=
  match b with
  | [] => Err InvalidAddress
  | m :: _ =>
      match magic_contract_type m with
      | Some _ => ok_or (to_ca b) LengthMismatch
      | None => Err InvalidAddress
      end
  end.

(** [Address::from_bytes], primitive.rs:123-135. *)
Definition address_from_bytes (b : bytes) : res types_err address :=
  match b with
  | [] => Err InvalidAddress
  | m :: _ =>
      if beqb m ACCOUNT_ADDRESS_MAGIC then rmap AUser (user_from_bytes b)
      else rmap AContract (contract_from_bytes b)
  end.

(** [ContractAddress::contract_type], primitive.rs:334-336. *)
Definition contract_type_of (c : contract_address) : contract_type :=
  match ca c with
  | m :: _ => match magic_contract_type m with Some t => t | None => CtAsset end
  | [] => CtAsset
  end.

(** [Address::as_bytes], primitive.rs:145-150. *)
Definition address_bytes (a : address) : bytes :=
  match a with AUser u => ua u | AContract c => ca c end.

(** [*::from_hex], primitive.rs:137-143, 231-237, 318-324. *)
Definition user_from_hex (s : bytes) : res types_err user_address :=
  let? b := decode_hex_text s in user_from_bytes b.
Definition contract_from_hex (s : bytes) : res types_err contract_address :=
  let? b := decode_hex_text s in contract_from_bytes b.
Definition address_from_hex (s : bytes) : res types_err address :=
  let? b := decode_hex_text s in address_from_bytes b.

(** [*::as_hex], primitive.rs:152-157, 239-241, 326-328. *)
Definition user_as_hex (u : user_address) : bytes := hex_encode (ua u).
Definition contract_as_hex (c : contract_address) : bytes := hex_encode (ca c).
Definition address_as_hex (a : address) : bytes := hex_encode (address_bytes a).

Global Instance ua_eq_dec : EqDecision user_address.
Proof.
  intros a b. destruct (decide (ua a = ua b)) as [e|ne];
    [left; apply ua_eq, e | right; intros ->; apply ne; reflexivity].
Defined.
Global Instance ca_eq_dec : EqDecision contract_address.
Proof.
  intros a b. destruct (decide (ca a = ca b)) as [e|ne];
    [left; apply ca_eq, e | right; intros ->; apply ne; reflexivity].
Defined.
Global Instance address_eq_dec : EqDecision address.
Proof. solve_decision. Defined.
Global Program Instance ua_countable : Countable user_address := inj_countable ua to_ua _.
Next Obligation. intros x. apply to_ua_ua. Qed.
Global Program Instance ca_countable : Countable contract_address := inj_countable ca to_ca _.
Next Obligation. intros x. apply to_ca_ca. Qed.
Global Program Instance address_countable : Countable address :=
  inj_countable (fun a => match a with AUser u => inl u | AContract c => inr c end)
                (fun s => Some match s with inl u => AUser u | inr c => AContract c end) _.
Next Obligation. intros []; reflexivity. Qed.

(** ** Digest-dependent constructors.  The hash function (Keccak-256, crate
    [hasher]) is a parameter [digest] of everything that uses it. *)
Section Digest.
  Context (digest : bytes -> hash).

  (** [rlp::NULL_RLP] is [[0x80]]; [Hash::from_empty], primitive.rs:43-48. *)
  Definition hash_from_empty : hash := digest [x80].

  (** [UserAddress::from_pubkey_bytes], primitive.rs:219-229: goes through
      the hex text of the digest, truncated to 40 characters. *)
  Definition user_from_pubkey (b : bytes) : res types_err user_address :=
    let hash_val := firstn 40 (hash_as_hex (digest b)) in
    let hash_val := hex_encode [ACCOUNT_ADDRESS_MAGIC] ++ hash_val in
    let? decoded := map_err FromHex (hex_decode hash_val) in
    user_from_bytes decoded.

  (** [ContractAddress::from_code], primitive.rs:274-316. *)
  Definition contract_from_code (code : bytes) (nonce : u64) (t : contract_type)
    : res types_err contract_address :=
    let hash_bytes := firstn 20 (sbytes (digest (code ++ u64_to_be_bytes nonce))) in
    match t with
    | CtAsset => contract_from_bytes ([x20] ++ hash_bytes)
    | CtApp => contract_from_bytes ([x21] ++ hash_bytes)
    | CtLibrary => contract_from_bytes ([x22] ++ hash_bytes)
    | CtNative => contract_from_bytes ([x23] ++ hash_bytes)
    end.
End Digest.

(** ** Structures *)
(** [Balance] is [BigUint], primitive.rs:26. *)
Definition balance := N.

(** primitive.rs:339-347 *)
Record asset := MkAsset {
  as_id : hash; as_name : rstring; as_symbol : rstring; as_supply : balance;
  as_manage_contract : contract_address; as_storage_root : hash }.

(** primitive.rs:349-353 *)
Record fee := MkFee { fee_asset_id : hash; fee_cycle : u64 }.

(** primitive.rs:355-384.  [BTreeMap] is [gmap]; its iteration order is the
    key order, made explicit by [sorted_entries] in FixedCodec.v. *)
Record approved_info := MkApproved { ap_max : balance; ap_used : balance }.
Record asset_info := MkAssetInfo { ai_balance : balance; ai_approved : gmap contract_address approved_info }.
Record user_account := MkUserAccount { uac_nonce : u64; uac_assets : gmap hash asset_info }.
Record contract_account := MkContractAccount {
  cac_nonce : u64; cac_assets : gmap hash balance; cac_storage_root : hash }.
Inductive account := AccUser (u : user_account) | AccContract (c : contract_account).

(** protocol/src/types/transaction.rs:7-51 *)
Record carrying_asset := MkCarrying { cr_asset_id : hash; cr_amount : balance }.
Inductive tx_action :=
| Transfer (receiver : user_address) (carrying : carrying_asset)
| Approve (spender : contract_address) (asset_id : hash) (max : balance)
| Deploy (code : bytes) (ctype : contract_type)
| Call (contract : contract_address) (method : rstring) (args : list bytes) (carrying : option carrying_asset).
Record raw_tx := MkRaw {
  rt_chain_id : hash; rt_nonce : hash; rt_timeout : u64; rt_fee : fee; rt_action : tx_action }.
Record signed_tx := MkSigned {
  st_raw : raw_tx; st_tx_hash : hash; st_pubkey : bytes; st_signature : bytes }.

(** protocol/src/types/receipt.rs:8-42 *)
Inductive receipt_result :=
| RTransfer (receiver : user_address) (asset_id : hash) (before after : balance)
| RApprove (spender : contract_address) (asset_id : hash) (max : balance)
| RDeploy (contract : contract_address) (ctype : contract_type)
| RCall (contract : contract_address) (return_value : bytes) (logs_bloom : Bloom)
| RFail (system user : rstring).
Record receipt := MkReceipt {
  rc_state_root : hash; rc_epoch_id : u64; rc_tx_hash : hash; rc_cycles_used : fee;
  rc_result : receipt_result }.

(** protocol/src/types/epoch.rs *)
Record proof := MkProof {
  pf_epoch_id : u64; pf_round : u64; pf_epoch_hash : hash; pf_signature : bytes; pf_bitmap : bytes }.
Record validator := MkValidator { va_address : user_address; va_propose_weight : byte; va_vote_weight : byte }.
Record epoch_header := MkHeader {
  eh_chain_id : hash; eh_epoch_id : u64; eh_pre_hash : hash; eh_timestamp : u64;
  eh_logs_bloom : Bloom; eh_order_root : hash; eh_confirm_root : list hash;
  eh_state_root : hash; eh_receipt_root : list hash; eh_cycles_used : u64;
  eh_proposer : user_address; eh_proof : proof; eh_validator_version : u64;
  eh_validators : list validator }.
Record epoch := MkEpoch { ep_header : epoch_header; ep_ordered_tx_hashes : list hash }.
Record pill := MkPill { pl_epoch : epoch; pl_propose_hashes : list hash }.
Record epoch_id_t := MkEpochId { eid_id : u64 }.

(** protocol/src/types/genesis.rs *)
Record genesis_asset := MkGAsset { ga_asset_id : rstring; ga_balance : rstring }.
Record genesis_alloc := MkGAlloc { gl_address : rstring; gl_assets : list genesis_asset }.
Record genesis_token := MkGToken { gt_code : rstring; gt_name : rstring; gt_symbol : rstring; gt_supply : u64 }.
Record genesis := MkGenesis {
  gn_timestamp : u64; gn_prevhash : rstring; gn_system_token : genesis_token;
  gn_state_alloc : list genesis_alloc }.
