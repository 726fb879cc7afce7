(** * Codec properties C01-C03, C05-C09.

    [fits b] says that [b] has fewer than 2^64 bytes, which is true of every
    buffer of the real program. *)
From Verif Require Import Base BaseFacts Hex Types Rlp RlpFacts FixedCodec FixedCodecFacts CodecProps.
From Coq Require Import Permutation.
From Coq Require Strings.String.
Import String.StringSyntax.
Delimit Scope string_scope with string.
Local Open Scope N_scope.

(** ** C01: decode_fixed (encode_fixed v) = v *)
Theorem C01_roundtrip_primitives :
  (forall h, dec_hash (enc_hash h) = Ok h) /\
  (forall a, dec_user (enc_user a) = Ok a) /\
  (forall a, dec_contract (enc_contract a) = Ok a) /\
  (forall a, dec_address (enc_address a) = Ok a) /\
  (forall f, dec_fee (enc_fee f) = Ok f) /\
  (forall a, fits (enc_asset a) -> dec_asset (enc_asset a) = Ok a).
Proof.
  exact (conj dec_enc_hash (conj dec_enc_user (conj dec_enc_contract (conj dec_enc_address
         (conj dec_enc_fee dec_enc_asset))))).
Qed.
Print Assumptions C01_roundtrip_primitives.

Theorem C01_roundtrip_account : forall a, fits (enc_account a) -> dec_account (enc_account a) = Ok a.
Proof. exact dec_enc_account. Qed.
Print Assumptions C01_roundtrip_account.

Theorem C01_roundtrip_raw_transaction : forall r,
  is_approve (rt_action r) = false -> fits (enc_raw r) -> dec_raw (enc_raw r) = Ok r.
Proof. exact dec_enc_raw. Qed.
Print Assumptions C01_roundtrip_raw_transaction.

Theorem C01_roundtrip_signed_transaction : forall t,
  is_approve (rt_action (st_raw t)) = false -> fits (enc_signed t) -> dec_signed (enc_signed t) = Ok t.
Proof. exact dec_enc_signed. Qed.
Print Assumptions C01_roundtrip_signed_transaction.

Theorem C01_roundtrip_receipt : forall r,
  is_rapprove (rc_result r) = false -> fits (enc_receipt r) -> dec_receipt (enc_receipt r) = Ok r.
Proof. exact dec_enc_receipt. Qed.
Print Assumptions C01_roundtrip_receipt.

Theorem C01_roundtrip_receipt_result : forall r,
  is_rapprove r = false -> fits (enc_result r) -> dec_result (enc_result r) = Ok r.
Proof. exact dec_enc_result. Qed.
Print Assumptions C01_roundtrip_receipt_result.

Theorem C01_roundtrip_epoch :
  (forall p, fits (enc_proof p) -> dec_proof (enc_proof p) = Ok p) /\
  (forall v, fits (enc_validator v) -> dec_validator (enc_validator v) = Ok v) /\
  (forall h, fits (enc_header h) -> dec_header (enc_header h) = Ok h) /\
  (forall e, fits (enc_epoch e) -> dec_epoch (enc_epoch e) = Ok e) /\
  (forall p, fits (enc_pill p) -> dec_pill (enc_pill p) = Ok p) /\
  (forall i, dec_epoch_id (enc_epoch_id i) = Ok i).
Proof.
  exact (conj dec_enc_proof (conj dec_enc_validator (conj dec_enc_header (conj dec_enc_epoch
         (conj dec_enc_pill dec_enc_epoch_id))))).
Qed.
Print Assumptions C01_roundtrip_epoch.

Theorem C01_roundtrip_genesis :
  (forall t, fits (enc_gtoken t) -> dec_gtoken (enc_gtoken t) = Ok t) /\
  (forall a, fits (enc_gasset a) -> dec_gasset (enc_gasset a) = Ok a) /\
  (forall a, fits (enc_galloc a) -> dec_galloc (enc_galloc a) = Ok a) /\
  (forall g, fits (enc_genesis g) -> dec_genesis (enc_genesis g) = Ok g).
Proof. exact (conj dec_enc_gtoken (conj dec_enc_gasset (conj dec_enc_galloc dec_enc_genesis))). Qed.
Print Assumptions C01_roundtrip_genesis.

(** ** C02: the transaction hash binds the content *)
Theorem C02_encoding_injective : forall r1 r2,
  is_approve (rt_action r1) = false -> fits (enc_raw r1) ->
  enc_raw r1 = enc_raw r2 -> r1 = r2.
Proof. exact enc_raw_inj. Qed.
Print Assumptions C02_encoding_injective.

Theorem C02_tx_hash_binds : forall (digest : bytes -> hash) r1 r2,
  is_approve (rt_action r1) = false -> fits (enc_raw r1) ->
  digest (enc_raw r1) = digest (enc_raw r2) ->
  r1 = r2 \/ (enc_raw r1 <> enc_raw r2 /\ digest (enc_raw r1) = digest (enc_raw r2)).
Proof. exact tx_hash_binds. Qed.
Print Assumptions C02_tx_hash_binds.

Theorem C02_epoch_hash_binds : forall (digest : bytes -> hash) e1 e2,
  fits (enc_epoch e1) ->
  digest (enc_epoch e1) = digest (enc_epoch e2) ->
  e1 = e2 \/ (enc_epoch e1 <> enc_epoch e2 /\ digest (enc_epoch e1) = digest (enc_epoch e2)).
Proof. exact epoch_hash_binds. Qed.
Print Assumptions C02_epoch_hash_binds.

(** ** C03: violated.  All Approve transactions share one (empty) encoding,
    hence one hash, and it does not decode. *)
Theorem C03_approve_encoding_refuted :
  (forall r, is_approve (rt_action r) = true ->
     enc_raw r = [] /\ dec_raw (enc_raw r) = Err RlpExpectedToBeList) /\
  (exists r1 r2, is_approve (rt_action r1) = true /\ is_approve (rt_action r2) = true /\
     r1 <> r2 /\ enc_raw r1 = enc_raw r2 /\ forall digest : bytes -> hash, digest (enc_raw r1) = digest (enc_raw r2)).
Proof.
  split.
  - intros r H. split; [exact (approve_enc_empty r H)|exact (approve_undecodable r H)].
  - pose (h := Sized (n := 32) h0 eq_refl).
    assert (O : contract_addr_ok (x20 :: repeat x00 20) = true) by reflexivity.
    pose (mk m := MkRaw h h (wrap64 1) (MkFee h (wrap64 1)) (Approve (CA _ O) h m)).
    exists (mk 1), (mk 2). split; [reflexivity|]. split; [reflexivity|].
    split; [intros [=]|]. split; reflexivity.
Qed.
Print Assumptions C03_approve_encoding_refuted.

(** ** C05: text forms *)
Theorem C05_from_hex_accepts_exactly :
  (forall s h, hash_from_hex s = Ok h <-> map lower (clean_0x s) = hash_as_hex h) /\
  (forall s a, user_from_hex s = Ok a <-> map lower (clean_0x s) = user_as_hex a) /\
  (forall s a, contract_from_hex s = Ok a <-> map lower (clean_0x s) = contract_as_hex a) /\
  (forall s a, address_from_hex s = Ok a <-> map lower (clean_0x s) = address_as_hex a).
Proof.
  exact (conj hash_from_hex_spec (conj user_from_hex_spec (conj contract_from_hex_spec address_from_hex_spec))).
Qed.
Print Assumptions C05_from_hex_accepts_exactly.

(** Any rendering of the digits in upper or lower case, with or without "0x",
    is accepted and gives the value back. *)
Theorem C05_hex_roundtrip : forall a s,
  map lower s = address_as_hex a ->
  address_from_hex s = Ok a /\ address_from_hex (x30 :: x78 :: s) = Ok a.
Proof.
  intros a s E. split; apply address_from_hex_spec; [|exact E].
  rewrite (mixed_case_clean _ _ E). exact E.
Qed.
Print Assumptions C05_hex_roundtrip.

Theorem C05_hash_hex_roundtrip : forall h s,
  map lower s = hash_as_hex h ->
  hash_from_hex s = Ok h /\ hash_from_hex (x30 :: x78 :: s) = Ok h.
Proof.
  intros a s E. split; apply hash_from_hex_spec; [|exact E].
  rewrite (mixed_case_clean _ _ E). exact E.
Qed.
Print Assumptions C05_hash_hex_roundtrip.

Theorem C05_address_kinds :
  (forall b, (exists u, user_from_bytes b = Ok u) <-> length b = 21%nat /\ nth_error b 0 = Some x10) /\
  (forall b, (exists c, contract_from_bytes b = Ok c) <->
     length b = 21%nat /\ exists t, nth_error b 0 = Some (contract_magic t)) /\
  (forall u c, ua u <> ca c) /\
  (forall a b, address_bytes a = address_bytes b -> a = b) /\
  (forall b a, address_from_bytes b = Ok a <-> b = address_bytes a).
Proof.
  exact (conj user_accepts_spec (conj contract_accepts_spec (conj user_contract_disjoint
         (conj address_bytes_inj address_from_bytes_spec)))).
Qed.
Print Assumptions C05_address_kinds.

(** ** C06: address derivation *)
Theorem C06_user_address_derivation : forall (digest : bytes -> hash) pubkey,
  exists a, user_from_pubkey digest pubkey = Ok a /\ ua a = x10 :: firstn 20 (sbytes (digest pubkey)).
Proof. exact user_from_pubkey_spec. Qed.
Print Assumptions C06_user_address_derivation.

Theorem C06_contract_address_derivation : forall (digest : bytes -> hash) code nonce t,
  exists c, contract_from_code digest code nonce t = Ok c /\
    ca c = contract_magic t :: firstn 20 (sbytes (digest (code ++ u64_to_be_bytes nonce))) /\
    contract_type_of c = t.
Proof. exact contract_from_code_spec. Qed.
Print Assumptions C06_contract_address_derivation.

(** ** C07: decoding arbitrary bytes *)
Theorem C07_list_free_decoders_never_panic :
  (forall b, dec_hash b <> Panic) /\ (forall b, dec_user b <> Panic) /\
  (forall b, dec_contract b <> Panic) /\ (forall b, dec_address b <> Panic) /\
  (forall b, dec_asset b <> Panic) /\ (forall b, dec_fee b <> Panic) /\
  (forall b, dec_proof b <> Panic) /\ (forall b, dec_validator b <> Panic) /\
  (forall b, dec_epoch_id b <> Panic) /\ (forall b, dec_result b <> Panic) /\
  (forall b, dec_receipt b <> Panic) /\ (forall b, dec_gasset b <> Panic).
Proof.
  exact (conj dec_hash_np (conj dec_user_np (conj dec_contract_np (conj dec_address_np
    (conj dec_asset_np (conj dec_fee_np (conj dec_proof_np (conj dec_validator_np
    (conj dec_epoch_id_np (conj dec_result_np (conj dec_receipt_np dec_gasset_np))))))))))).
Qed.
Print Assumptions C07_list_free_decoders_never_panic.

(** Violated for every type with a list field. *)
Theorem C07_decode_never_panics_refuted :
  dec_raw bad_raw = Panic /\ dec_signed bad_signed = Panic /\ dec_header bad_header = Panic /\
  dec_epoch bad_epoch = Panic /\ dec_pill bad_pill = Panic /\ dec_account bad_account = Panic /\
  dec_gtoken bad_gtoken = Panic /\ dec_galloc bad_galloc = Panic /\ dec_genesis bad_genesis = Panic.
Proof. exact list_decoders_panic. Qed.
Print Assumptions C07_decode_never_panics_refuted.

(** ** C08: canonical state bytes *)
Theorem C08_account_history_independent :
  forall n (h1 h2 : list (map_op hash asset_info)),
  (forall k, run_map_ops h1 !! k = run_map_ops h2 !! k) ->
  enc_account (AccUser (MkUserAccount n (run_map_ops h1))) =
  enc_account (AccUser (MkUserAccount n (run_map_ops h2))).
Proof. exact account_history_independent. Qed.
Print Assumptions C08_account_history_independent.

(** The bytes list every entry of the maps exactly once in strictly ascending
    key order (and there is only one such listing). *)
Theorem C08_account_bytes_canonical :
  (forall u (entries : list (hash * asset_info)),
     strictly_ascending sbytes entries ->
     (forall k v, (k, v) ∈ entries <-> uac_assets u !! k = Some v) ->
     enc_account (AccUser u) =
       enc_list [enc_u8 x00; enc_list (map enc_user_asset entries); enc_u64 (uac_nonce u)]) /\
  (forall c (entries : list (hash * balance)),
     strictly_ascending sbytes entries ->
     (forall k v, (k, v) ∈ entries <-> cac_assets c !! k = Some v) ->
     enc_account (AccContract c) =
       enc_list [enc_u8 x01; enc_list (map enc_contract_asset entries); enc_u64 (cac_nonce c);
                 enc_hash (cac_storage_root c)]) /\
  (forall h i (entries : list (contract_address * approved_info)),
     strictly_ascending ca entries ->
     (forall k v, (k, v) ∈ entries <-> ai_approved i !! k = Some v) ->
     enc_user_asset (h, i) =
       enc_list [enc_list (map enc_approved entries); enc_bal (ai_balance i); enc_hash h]).
Proof.
  exact (conj account_bytes_canonical (conj contract_account_bytes_canonical approvals_bytes_canonical)).
Qed.
Print Assumptions C08_account_bytes_canonical.

(** Such an ascending listing exists for every map. *)
Theorem C08_ascending_listing_exists :
  (forall (m : gmap hash asset_info), strictly_ascending sbytes (sorted_entries sbytes m) /\
     forall k v, (k, v) ∈ sorted_entries sbytes m <-> m !! k = Some v) /\
  (forall (m : gmap hash balance), strictly_ascending sbytes (sorted_entries sbytes m) /\
     forall k v, (k, v) ∈ sorted_entries sbytes m <-> m !! k = Some v) /\
  (forall (m : gmap contract_address approved_info), strictly_ascending ca (sorted_entries ca m) /\
     forall k v, (k, v) ∈ sorted_entries ca m <-> m !! k = Some v).
Proof.
  repeat split; try (apply sorted_entries_strict; first [apply @sized_eq | apply ca_eq]);
    apply sorted_entries_elem.
Qed.
Print Assumptions C08_ascending_listing_exists.

Theorem C08_account_bytes_injective : forall a b,
  fits (enc_account a) -> enc_account a = enc_account b -> a = b.
Proof. exact enc_account_inj. Qed.
Print Assumptions C08_account_bytes_injective.

(** ** C09: violated.  A value has several accepted encodings: surplus list
    elements are ignored by the decoder. *)
Theorem C09_unique_encoding_refuted : forall h,
  dec_hash (enc_list [enc_str (sbytes h); enc_str []]) = Ok h /\
  enc_list [enc_str (sbytes h); enc_str []] <> enc_hash h.
Proof.
  intros h. split; [exact (dec_hash_extra h)|].
  intros E. apply (f_equal rlp_items) in E. unfold enc_hash in E.
  rewrite items_list in E.
  - rewrite items_list in E; [discriminate| |].
    + repeat constructor. apply item_str, fits_sized32.
    + apply (fits_list_concat [enc_str (sbytes h)]), (fits_enc_hash h).
  - repeat constructor; [apply item_str, fits_sized32|apply item_str; reflexivity].
  - cbn [concat]. rewrite app_nil_r. apply fits_small. rewrite app_length.
    pose proof (enc_str_len_le (sbytes h) ltac:(rewrite sized_len; lia)) as L. rewrite sized_len in L.
    change (length (enc_str [])) with 1%nat. lia.
Qed.
Print Assumptions C09_unique_encoding_refuted.

(** ** Non-vacuity: concrete non-trivial values meet the hypotheses. *)
Definition ex_hash : hash := Sized (n := 32) (repeat xab 32) eq_refl.
Definition ex_user : user_address := UA (x10 :: repeat x07 20) eq_refl.
Definition ex_contract : contract_address := CA (x21 :: repeat x09 20) eq_refl.
Definition ex_call : raw_tx :=
  MkRaw ex_hash ex_hash (wrap64 300) (MkFee ex_hash (wrap64 1000000))
    (Call ex_contract (RString (ascii "transfer"%string) eq_refl) [[x01; xff]; []; repeat x55 70]
       (Some (MkCarrying ex_hash 12345678901234567890123))).

Example C01_nonvacuous :
  is_approve (rt_action ex_call) = false /\ fits (enc_raw ex_call) /\
  dec_raw (enc_raw ex_call) = Ok ex_call.
Proof.
  assert (F : fits (enc_raw ex_call)) by (vm_compute; reflexivity).
  split; [reflexivity|]. split; [exact F|]. apply dec_enc_raw; [reflexivity|exact F].
Qed.

Definition ex_account : account :=
  AccUser (MkUserAccount (wrap64 7)
    (<[ex_hash := MkAssetInfo 1000 (<[ex_contract := MkApproved 5 2]> ∅)]>
      (<[Sized (n := 32) h0 eq_refl := MkAssetInfo 0 ∅]> ∅))).
Example C01_account_nonvacuous : fits (enc_account ex_account) /\ dec_account (enc_account ex_account) = Ok ex_account.
Proof.
  assert (F : fits (enc_account ex_account)) by (vm_compute; reflexivity).
  split; [exact F|]. apply dec_enc_account, F.
Qed.

Example C05_nonvacuous :
  map lower (ascii "10C38F8210896E11A75E1A1F13805D39088D157D7F"%string) =
  map lower (ascii "10c38f8210896e11a75e1a1f13805d39088d157d7f"%string) /\
  is_ok (address_from_hex (ascii "0x10C38f8210896e11a75e1a1f13805d39088d157d7f"%string)) = true /\
  is_ok (address_from_hex (ascii "0x24c38f8210896e11a75e1a1f13805d39088d157d7f"%string)) = false.
Proof. vm_compute. repeat split. Qed.

Example C08_nonvacuous :
  run_map_ops [MInsert ex_hash (MkAssetInfo 1 ∅); MInsert (Sized (n := 32) h0 eq_refl) (MkAssetInfo 2 ∅)] =
  run_map_ops [MInsert (Sized (n := 32) h0 eq_refl) (MkAssetInfo 2 ∅); MInsert ex_hash (MkAssetInfo 3 ∅);
               MRemove ex_hash; MInsert ex_hash (MkAssetInfo 1 ∅)].
Proof.
  unfold run_map_ops. cbn [fold_left].
  rewrite delete_insert_delete, insert_delete_insert.
  apply insert_commute. intros E. apply (f_equal sbytes) in E. discriminate E.
Qed.
