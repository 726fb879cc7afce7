(** * C107: the bytes are those of the published formats *)
From Verif Require Import Base BaseFacts Hex Types Rlp FixedCodec FixedCodecFacts Proto Wire Mempool MempoolMore Consensus Storage FormatSpec FormatFacts PropCodec.
Local Open Scope N_scope.

(** The formats leave no freedom: any two programs following them write the
    same bytes. *)
Theorem C107_formats_unambiguous :
  (forall t b b', rlp t b -> rlp t b' -> b = b') /\
  (forall fs b b', message fs b -> message fs b' -> b = b').
Proof. split; [exact rlp_unique|exact message_unique]. Qed.
Print Assumptions C107_formats_unambiguous.

Lemma rlp_pinned t b e : enc_is t e -> fits e -> (rlp t b <-> b = e).
Proof. intros H F. split; [intros Hb; exact (rlp_unique _ _ _ Hb (H F))|intros ->; exact (H F)]. Qed.
Lemma rlp_pinned_ex {A} (fmt : A -> item -> Prop) (enc : A -> bytes) a b :
  (forall t, fmt a t -> enc_is t (enc a)) -> (exists t, fmt a t) -> fits (enc a) ->
  ((exists t, fmt a t /\ rlp t b) <-> b = enc a).
Proof.
  intros H [t Ht] F. split.
  - intros (t' & Ht' & Hb). exact (rlp_unique _ _ _ Hb (H t' Ht' F)).
  - intros ->. exists t. split; [exact Ht|exact (H t Ht F)].
Qed.
Lemma msg_pinned {P} (m : pcodec P) (p : P) fs b : out_is fs (pc_out m p) -> fits (pencode m p) -> (message fs b <-> b = pencode m p).
Proof. intros H F. split; [intros Hb; exact (message_unique _ _ _ Hb (H F))|intros ->; exact (H F)]. Qed.
Lemma msg_pinned_ex {A P} (fmt : A -> list (N * value) -> Prop) (m : pcodec P) (to : A -> P) a b :
  (forall f f', fmt a f -> fmt a f' -> f = f') -> (exists fs, fmt a fs /\ out_is fs (pc_out m (to a))) -> fits (wenc m to a) ->
  ((exists fs, fmt a fs /\ message fs b) <-> b = wenc m to a).
Proof.
  intros Hd (fs & Hf & Ho) F. split.
  - intros (f' & Hf' & Hb). rewrite (Hd _ _ Hf' Hf) in Hb. exact (message_unique _ _ _ Hb (Ho F)).
  - intros ->. exists fs. split; [exact Hf|exact (Ho F)].
Qed.

(** ** Consensus encodings *)
Theorem C107_transaction_format :
  (forall r b, is_approve (rt_action r) = false -> fits (enc_raw r) ->
     ((exists t, transaction_f r t /\ rlp t b) <-> b = enc_raw r)) /\
  (forall s b, is_approve (rt_action (st_raw s)) = false -> fits (enc_signed s) ->
     ((exists t, signed_f s t /\ rlp t b) <-> b = enc_signed s)).
Proof.
  split; intros r b Ha F; apply rlp_pinned_ex; try exact F.
  - apply transaction_is.
  - apply transaction_has, Ha.
  - apply signed_is.
  - apply signed_has, Ha.
Qed.
Print Assumptions C107_transaction_format.

Theorem C107_receipt_format : forall r b, is_rapprove (rc_result r) = false -> fits (enc_receipt r) ->
  ((exists t, receipt_f r t /\ rlp t b) <-> b = enc_receipt r).
Proof. intros r b Ha F. apply rlp_pinned_ex; [apply receipt_is|apply receipt_has, Ha|exact F]. Qed.
Print Assumptions C107_receipt_format.

Theorem C107_epoch_format :
  (forall p b, fits (enc_proof p) -> (rlp (proof_f p) b <-> b = enc_proof p)) /\
  (forall v b, fits (enc_validator v) -> (rlp (validator_f v) b <-> b = enc_validator v)) /\
  (forall h b, fits (enc_header h) -> (rlp (header_f h) b <-> b = enc_header h)) /\
  (forall e b, fits (enc_epoch e) -> (rlp (epoch_f e) b <-> b = enc_epoch e)) /\
  (forall p b, fits (enc_pill p) -> (rlp (pill_f p) b <-> b = enc_pill p)) /\
  (forall e b, fits (enc_epoch_id e) -> (rlp (epoch_id_f e) b <-> b = enc_epoch_id e)).
Proof.
  split; [|split; [|split; [|split; [|split]]]]; intros a b F; apply rlp_pinned; try exact F.
  - apply proof_is.
  - apply validator_is.
  - apply header_is.
  - apply epoch_is.
  - apply pill_is.
  - apply epoch_id_is.
Qed.
Print Assumptions C107_epoch_format.

Theorem C107_primitive_formats :
  (forall h b, fits (enc_hash h) -> (rlp (hash_f h) b <-> b = enc_hash h)) /\
  (forall a b, fits (enc_address a) ->
     (rlp (match a with AUser u => user_f u | AContract c => contract_f c end) b <-> b = enc_address a)) /\
  (forall a b, fits (enc_user a) -> (rlp (user_f a) b <-> b = enc_user a)) /\
  (forall a b, fits (enc_contract a) -> (rlp (contract_f a) b <-> b = enc_contract a)) /\
  (forall f b, fits (enc_fee f) -> (rlp (fee_f f) b <-> b = enc_fee f)) /\
  (forall a b, fits (enc_asset a) -> (rlp (asset_f a) b <-> b = enc_asset a)).
Proof.
  split; [|split; [|split; [|split; [|split]]]]; intros a b F; apply rlp_pinned; try exact F.
  - apply hash_is.
  - destruct a as [u|c]; [apply user_is|apply contract_is].
  - apply user_is.
  - apply contract_is.
  - apply fee_is.
  - apply asset_is.
Qed.
Print Assumptions C107_primitive_formats.

Theorem C107_genesis_format : forall g b, fits (enc_genesis g) -> (rlp (genesis_f g) b <-> b = enc_genesis g).
Proof. intros g b F. apply rlp_pinned; [apply genesis_is|exact F]. Qed.
Print Assumptions C107_genesis_format.

(** The values of the state trie; every account has a listing. *)
Theorem C107_account_format : forall a b, fits (enc_account a) ->
  ((exists t, account_f a t /\ rlp t b) <-> b = enc_account a).
Proof. intros a b F. apply rlp_pinned_ex; [apply account_is|apply account_has|exact F]. Qed.
Print Assumptions C107_account_format.

(** ** What is hashed *)

(** The pool only lets in transactions whose hash is the digest of the
    published form: the one a wallet computes and signs. *)
Theorem C107_wallet_hash : forall digest verify gap e t it b,
  transaction_f (st_raw t) it -> rlp it b -> fits (enc_raw (st_raw t)) ->
  (tx_ok digest verify gap e t <->
   verify (sbytes (st_tx_hash t)) (st_signature t) (st_pubkey t) = true /\
   st_tx_hash t = digest b /\
   (exists epoch : u64, en_latest e = Ok (rt_chain_id (st_raw t), epoch) /\
      epoch <= rt_timeout (st_raw t) /\ rt_timeout (st_raw t) <= (epoch + gap) mod two64) /\
   en_stored e (st_tx_hash t) = Ok false).
Proof.
  intros digest verify gap e t it b Hi Hb F. rewrite tx_ok_iff.
  rewrite (rlp_unique _ _ _ Hb (transaction_is _ _ Hi F)).
  split; intros (H1 & H2 & H3 & H4); (split; [exact H1|split; [symmetry; exact H2|split; [exact H3|exact H4]]]).
Qed.
Print Assumptions C107_wallet_hash.

(** The link of an epoch to its predecessor, and the key under which the
    storage indexes it. *)
Theorem C107_epoch_hashes : forall digest e b m,
  rlp (epoch_f e) b -> message (header_m (ep_header e)) m -> fits (enc_epoch e) -> fits (wenc_header (ep_header e)) ->
  epoch_hash digest e = digest b /\ epoch_index_key digest e = digest m.
Proof.
  intros digest e b m Hb Hm F G. split.
  - unfold epoch_hash. f_equal. exact (rlp_unique _ _ _ (epoch_is e F) Hb).
  - unfold epoch_index_key. f_equal. exact (message_unique _ _ _ (header_fields _ G) Hm).
Qed.
Print Assumptions C107_epoch_hashes.

(** ** Network and storage encodings *)
Theorem C107_wire_transaction :
  (forall r b, fits (wenc_raw r) -> ((exists fs, transaction_m r fs /\ message fs b) <-> b = wenc_raw r)) /\
  (forall s b, fits (wenc_signed s) -> ((exists fs, signed_m s fs /\ message fs b) <-> b = wenc_signed s)).
Proof.
  split; intros r b F; apply msg_pinned_ex; try exact F.
  - apply transaction_m_det.
  - apply transaction_fields.
  - apply signed_m_det.
  - apply signed_fields.
Qed.
Print Assumptions C107_wire_transaction.

Theorem C107_wire_receipt : forall r b, fits (wenc_receipt r) ->
  ((exists fs, receipt_m r fs /\ message fs b) <-> b = wenc_receipt r).
Proof. intros r b F. apply msg_pinned_ex; [apply receipt_m_det|apply receipt_fields|exact F]. Qed.
Print Assumptions C107_wire_receipt.

Theorem C107_wire_epoch :
  (forall p b, fits (wenc_proof p) -> (message (proof_m p) b <-> b = wenc_proof p)) /\
  (forall v b, fits (wenc_validator v) -> (message (validator_m v) b <-> b = wenc_validator v)) /\
  (forall h b, fits (wenc_header h) -> (message (header_m h) b <-> b = wenc_header h)) /\
  (forall e b, fits (wenc_epoch e) -> (message (epoch_m e) b <-> b = wenc_epoch e)) /\
  (forall p b, fits (wenc_pill p) -> (message (pill_m p) b <-> b = wenc_pill p)) /\
  (forall e b, fits (wenc_epoch_id e) -> (message (epoch_id_m e) b <-> b = wenc_epoch_id e)).
Proof.
  split; [|split; [|split; [|split; [|split]]]]; intros a b F; apply msg_pinned; try exact F.
  - apply proof_fields.
  - apply validator_fields.
  - apply header_fields.
  - apply epoch_fields.
  - apply pill_fields.
  - apply epoch_id_fields.
Qed.
Print Assumptions C107_wire_epoch.

Theorem C107_wire_primitives :
  (forall n b, fits (wenc_balance n) -> ((exists fs, amount_m n (VMsg fs) /\ message fs b) <-> b = wenc_balance n)) /\
  (forall h b, fits (wenc_hash h) -> (message [(1, VBytes (sbytes h))] b <-> b = wenc_hash h)) /\
  (forall a b, fits (wenc_user a) -> (message [(1, VMsg [(1, VBytes (ua a))])] b <-> b = wenc_user a)) /\
  (forall a b, fits (wenc_contract a) -> ((exists fs, contract_m a (VMsg fs) /\ message fs b) <-> b = wenc_contract a)) /\
  (forall f b, fits (wenc_fee f) ->
     (message [(1, id_m (fee_asset_id f)); (2, VNum (u64v (fee_cycle f)))] b <-> b = wenc_fee f)) /\
  (forall a b, fits (wenc_asset a) -> ((exists fs, asset_m a fs /\ message fs b) <-> b = wenc_asset a)).
Proof.
  split; [|split; [|split; [|split; [|split]]]]; intros a b F.
  - apply (msg_pinned_ex (fun n fs => amount_m n (VMsg fs))); [|apply amount_fields|exact F].
    intros f f' H H'. pose proof (amount_det _ _ _ H H') as [= E]. exact E.
  - apply msg_pinned; [apply hash_fields|exact F].
  - apply msg_pinned; [apply user_fields|exact F].
  - apply (msg_pinned_ex (fun n fs => contract_m n (VMsg fs))); [|apply contract_fields|exact F].
    intros f f' H H'. pose proof (contract_det _ _ _ H H') as [= E]. exact E.
  - apply msg_pinned; [apply fee_fields|exact F].
  - apply msg_pinned_ex; [apply asset_det|apply asset_fields|exact F].
Qed.
Print Assumptions C107_wire_primitives.

(** ** Examples *)
Lemma fits_true b : (blen b <? two64) = true -> fits b.
Proof. apply N.ltb_lt. Qed.
(** A call paying an asset: its published form is the 335 bytes the node hashes. *)
Example C107_call_example : exists t b, transaction_f ex_call t /\ rlp t b /\ firstn 4 b = [xf9; x01; x4c; x02].
Proof.
  destruct (proj2 (proj1 C107_transaction_format ex_call (enc_raw ex_call) eq_refl (fits_true (enc_raw ex_call) ltac:(vm_compute; reflexivity))) eq_refl) as (t & Ht & Hb).
  exists t, (enc_raw ex_call). split; [exact Ht|]. split; [exact Hb|vm_compute; reflexivity].
Qed.
Example C107_account_example : exists t b, account_f ex_account t /\ rlp t b /\ length b = 109%nat.
Proof.
  destruct (proj2 (C107_account_format ex_account (enc_account ex_account) (fits_true (enc_account ex_account) ltac:(vm_compute; reflexivity))) eq_refl) as (t & Ht & Hb).
  exists t, (enc_account ex_account). split; [exact Ht|]. split; [exact Hb|vm_compute; reflexivity].
Qed.
(** An epoch number above 127 takes two groups. *)
Example C107_wire_example : message [(1, VNum 300)] [x08; xac; x02].
Proof.
  change [x08; xac; x02] with ([x08] ++ [xac; x02] ++ []). apply msg_num; [discriminate| | |constructor].
  - apply vint_last; reflexivity.
  - apply vint_more; [discriminate|reflexivity|]. apply vint_last; reflexivity.
Qed.
Example C107_wire_example_written : wenc_epoch_id (MkEpochId (wrap64 300)) = [x08; xac; x02].
Proof. symmetry. apply (proj2 (proj2 (proj2 (proj2 (proj2 C107_wire_epoch))))); [apply fits_true; vm_compute; reflexivity|exact C107_wire_example]. Qed.
