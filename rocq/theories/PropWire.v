(** * Wire codec properties C04 and C54.

    [fits b] says that [b] has fewer than 2^64 bytes, which is true of every
    buffer of the real program. *)
From Verif Require Import Base BaseFacts Hex Types Rlp FixedCodec FixedCodecFacts CodecProps Proto ProtoFacts Wire WireFacts.
From Coq Require Strings.String.
Import String.StringSyntax.
Delimit Scope string_scope with string.
Local Open Scope N_scope.

(** ** C04: decode (encode v) = v *)
Theorem C04_roundtrip_primitives :
  (forall h, wdec_hash (wenc_hash h) = Ok h) /\
  (forall a, wdec_user (wenc_user a) = Ok a) /\
  (forall a, wdec_contract (wenc_contract a) = Ok a) /\
  (forall f, wdec_fee (wenc_fee f) = Ok f) /\
  (forall n, fits (wenc_balance n) -> wdec_balance (wenc_balance n) = Ok n) /\
  (forall a, fits (wenc_asset a) -> wdec_asset (wenc_asset a) = Ok a).
Proof.
  exact (conj wire_hash (conj wire_user (conj wire_contract (conj wire_fee (conj wire_balance wire_asset))))).
Qed.
Print Assumptions C04_roundtrip_primitives.

Theorem C04_roundtrip_epoch :
  (forall v, wdec_validator (wenc_validator v) = Ok v) /\
  (forall i, wdec_epoch_id (wenc_epoch_id i) = Ok i) /\
  (forall p, fits (wenc_proof p) -> wdec_proof (wenc_proof p) = Ok p) /\
  (forall h, fits (wenc_header h) -> wdec_header (wenc_header h) = Ok h) /\
  (forall e, fits (wenc_epoch e) -> wdec_epoch (wenc_epoch e) = Ok e) /\
  (forall p, fits (wenc_pill p) -> wdec_pill (wenc_pill p) = Ok p).
Proof.
  exact (conj wire_validator (conj wire_epoch_id (conj wire_proof (conj wire_header (conj wire_epoch wire_pill))))).
Qed.
Print Assumptions C04_roundtrip_epoch.

(** Everything but the deployment of a non-asset contract. *)
Definition deploys_other (a : tx_action) : bool :=
  match a with Deploy _ CtAsset => false | Deploy _ _ => true | _ => false end.
Definition result_deploys_other (r : receipt_result) : bool :=
  match r with RDeploy _ CtAsset => false | RDeploy _ _ => true | _ => false end.

Theorem C04_roundtrip_transaction :
  (forall r, deploys_other (rt_action r) = false -> fits (wenc_raw r) -> wdec_raw (wenc_raw r) = Ok r) /\
  (forall s, deploys_other (rt_action (st_raw s)) = false -> fits (wenc_signed s) ->
     wdec_signed (wenc_signed s) = Ok s).
Proof.
  assert (forall r, deploys_other (rt_action r) = false -> raw_received r = Ok r) as H.
  { intros [c n t f a] Ha. cbn [rt_action] in Ha. unfold raw_received. cbn [rt_action].
    destruct a as [| |code ct|]; try reflexivity. destruct ct; try discriminate. reflexivity. }
  split.
  - intros r Hd Hf. rewrite wire_raw by exact Hf. apply H, Hd.
  - intros [r h pk sg] Hd Hf. rewrite wire_signed by exact Hf. unfold signed_received.
    cbn [st_raw] in *. rewrite H by exact Hd. reflexivity.
Qed.
Print Assumptions C04_roundtrip_transaction.

Theorem C04_roundtrip_receipt : forall r,
  result_deploys_other (rc_result r) = false -> fits (wenc_receipt r) -> wdec_receipt (wenc_receipt r) = Ok r.
Proof.
  intros [s e h c x] Hd Hf. rewrite wire_receipt by exact Hf. unfold receipt_received. cbn [rc_result] in *.
  destruct x as [| |c' ct| |]; try reflexivity. destruct ct; try discriminate. reflexivity.
Qed.
Print Assumptions C04_roundtrip_receipt.

(** Two different values never share an encoding. *)
Theorem C04_encoding_injective :
  (forall a b, wenc_hash a = wenc_hash b -> a = b) /\
  (forall a b, wenc_epoch_id a = wenc_epoch_id b -> a = b) /\
  (forall a b, fits (wenc_header a) -> wenc_header a = wenc_header b -> a = b) /\
  (forall a b, fits (wenc_epoch a) -> wenc_epoch a = wenc_epoch b -> a = b).
Proof.
  repeat split.
  - intros a b H. pose proof (wire_hash a) as Ha. rewrite H, wire_hash in Ha. congruence.
  - intros a b H. pose proof (wire_epoch_id a) as Ha. rewrite H, wire_epoch_id in Ha. congruence.
  - intros a b Hf H. pose proof (wire_header a Hf) as Ha. rewrite H in Ha, Hf. rewrite wire_header in Ha by exact Hf. congruence.
  - intros a b Hf H. pose proof (wire_epoch a Hf) as Ha. rewrite H in Ha, Hf. rewrite wire_epoch in Ha by exact Hf. congruence.
Qed.
Print Assumptions C04_encoding_injective.

(** The contract type of every App or Library deployment is swapped by the
    wire, and every Native deployment is refused by the receiver; same for
    receipts. *)
Theorem C04_deploy_type_refuted :
  (forall c n t f code h pk sg,
     let tx ct := MkSigned (MkRaw c n t f (Deploy code ct)) h pk sg in
     (fits (wenc_signed (tx CtApp)) -> wdec_signed (wenc_signed (tx CtApp)) = Ok (tx CtLibrary)) /\
     (fits (wenc_signed (tx CtLibrary)) -> wdec_signed (wenc_signed (tx CtLibrary)) = Ok (tx CtApp)) /\
     (fits (wenc_signed (tx CtNative)) -> wdec_signed (wenc_signed (tx CtNative)) = Err InvalidContractType)) /\
  (forall s e h fe c,
     let r ct := MkReceipt s e h fe (RDeploy c ct) in
     (fits (wenc_receipt (r CtApp)) -> wdec_receipt (wenc_receipt (r CtApp)) = Ok (r CtLibrary)) /\
     (fits (wenc_receipt (r CtLibrary)) -> wdec_receipt (wenc_receipt (r CtLibrary)) = Ok (r CtApp)) /\
     (fits (wenc_receipt (r CtNative)) -> wdec_receipt (wenc_receipt (r CtNative)) = Err InvalidContractType)).
Proof.
  split.
  - intros. repeat split; intros H; rewrite wire_signed by exact H; reflexivity.
  - intros. repeat split; intros H; rewrite wire_receipt by exact H; reflexivity.
Qed.
Print Assumptions C04_deploy_type_refuted.

(** Fields unknown to the receiver are ignored, whatever they are. *)
Theorem C04_unknown_fields_ignored : forall s (extra : list wfield),
  fits (wenc_signed s) ->
  Forall (fun f => 4 < fst f /\ wf_field f) extra ->
  wdec_signed (wenc_signed s ++ ser extra) = wdec_signed (wenc_signed s).
Proof.
  intros s extra Hf He. unfold wdec_signed, wenc_signed, wdec, wenc.
  rewrite unknown_skipped; [| apply rt_m_signed | exact Hf | | |].
  - rewrite pdecode_pencode; [reflexivity|apply rt_m_signed|exact Hf].
  - eapply Forall_impl; [exact He|]. intros f [_ H]. exact H.
  - intros t w x Ht. destruct x as (a & b & c & d & []).
    unfold m_signed in *. cbn [pcons pc_tags p_opt p_bytes pnil app has_tag existsb] in Ht.
    rewrite !orb_false_iff in Ht. destruct Ht as (H1 & H2 & H3 & H4 & _).
    cbn [pcons pc_in pc_tags p_opt p_bytes pnil has_tag existsb fst snd].
    rewrite H1, H2, H3, H4. reflexivity.
  - eapply Forall_impl; [exact He|]. intros f [H _].
    unfold m_signed. cbn [pcons pc_tags p_opt p_bytes pnil app has_tag existsb].
    rewrite !orb_false_iff. repeat split; try apply N.eqb_neq; lia.
Qed.
Print Assumptions C04_unknown_fields_ignored.

(** Non-vacuity: a concrete Call transaction with several arguments. *)
Definition ex_hash (b : byte) : hash := @Sized 32 (repeat b 32) eq_refl.
Definition ex_user : user_address := UA (x10 :: repeat x05 20) eq_refl.
Definition ex_contract : contract_address := CA (x21 :: repeat x07 20) eq_refl.
Definition ex_call : signed_tx :=
  MkSigned (MkRaw (ex_hash x01) (ex_hash x02) (wrap64 300) (MkFee (ex_hash x03) (wrap64 (two64 - 1)))
    (Call ex_contract (RString (ascii "transfer"%string) eq_refl) [[]; [x00]; ascii "abc"%string]
       (Some (MkCarrying (ex_hash x04) (10 ^ 30))))) (ex_hash x09) [x01; x02] [].
Example C04_nonvacuous :
  deploys_other (rt_action (st_raw ex_call)) = false /\ fits (wenc_signed ex_call) /\
  length (wenc_signed ex_call) = 277%nat /\ wdec_signed (wenc_signed ex_call) = Ok ex_call.
Proof.
  assert (length (wenc_signed ex_call) = 277%nat) as E by (vm_compute; reflexivity).
  assert (fits (wenc_signed ex_call)) as F by (unfold fits, blen; rewrite E; reflexivity).
  split; [reflexivity|]. split; [exact F|]. split; [exact E|]. apply C04_roundtrip_transaction; [reflexivity|exact F].
Qed.

(** ** C54: decoding bytes from peers or disk never panics ... *)
Theorem C54_decoders_total : forall b,
  wdec_balance b <> Panic /\ wdec_hash b <> Panic /\ wdec_user b <> Panic /\ wdec_contract b <> Panic /\
  wdec_asset b <> Panic /\ wdec_fee b <> Panic /\ wdec_raw b <> Panic /\ wdec_signed b <> Panic /\
  wdec_proof b <> Panic /\ wdec_validator b <> Panic /\ wdec_epoch_id b <> Panic.
Proof.
  intros b. repeat split; apply wdec_np.
  - discriminate.
  - apply from_hash_np.
  - apply from_user_np.
  - apply from_contract_np.
  - apply from_asset_np.
  - apply from_fee_np.
  - apply from_raw_np.
  - apply from_signed_np.
  - apply from_proof_np.
  - apply from_validator_np.
  - discriminate.
Qed.
Print Assumptions C54_decoders_total.

(** ... except for the two messages that carry a bloom filter: a header or a
    Call receipt without [logs_bloom] panics the decoder. *)
Definition bad_header : bytes :=
  pencode m_header
    (Some (to_hash (ex_hash x01)), (wrap64 0, (Some (to_hash (ex_hash x01)), (wrap64 0, ([],
     (Some (to_hash (ex_hash x01)), ([], (Some (to_hash (ex_hash x01)), ([], (wrap64 0,
     (Some (to_user ex_user), (Some (to_proof (MkProof (wrap64 0) (wrap64 0) (ex_hash x01) [] [])),
     (wrap64 0, ([], tt)))))))))))))).
Definition bad_receipt : bytes :=
  pencode m_receipt
    (Some (to_hash (ex_hash x01)), (wrap64 0, (Some (to_hash (ex_hash x01)),
     (Some (to_fee (MkFee (ex_hash x01) (wrap64 0))),
     (Some (inr (inr (inr (inl (Some (to_contract ex_contract), ([], ([], tt))))))), tt))))).
Theorem C54_bloom_refuted :
  wdec_header bad_header = Panic /\
  wdec_epoch (ser [(1, WLen bad_header)]) = Panic /\
  wdec_pill (ser [(1, WLen (ser [(1, WLen bad_header)]))]) = Panic /\
  wdec_receipt bad_receipt = Panic.
Proof. repeat split; vm_compute; reflexivity. Qed.
Print Assumptions C54_bloom_refuted.
