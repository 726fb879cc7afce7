(** * Facts about Wire (C04, C54). *)
From Verif Require Import Base BaseFacts Hex Types Rlp FixedCodec FixedCodecFacts CodecProps Proto ProtoFacts Wire.
From Coq Require Import ZifyBool ZifyNat ZifyN.
Local Open Scope N_scope.

Create HintDb rt.

Lemma rt_m_balance : rt m_balance. Proof. unfold m_balance. rt_tac. Qed.
Global Hint Resolve rt_m_balance : rt.
Lemma rt_m_hash : rt m_hash. Proof. unfold m_hash. rt_tac. Qed.
Global Hint Resolve rt_m_hash : rt.
Lemma rt_m_root : rt m_root. Proof. unfold m_root. rt_tac. Qed.
Global Hint Resolve rt_m_root : rt.
Lemma rt_m_address : rt m_address. Proof. unfold m_address. rt_tac. Qed.
Global Hint Resolve rt_m_address : rt.
Lemma rt_m_user : rt m_user. Proof. unfold m_user. rt_tac. Qed.
Global Hint Resolve rt_m_user : rt.
Lemma rt_m_contract : rt m_contract. Proof. unfold m_contract. rt_tac. Qed.
Global Hint Resolve rt_m_contract : rt.
Lemma rt_m_asset : rt m_asset. Proof. unfold m_asset. rt_tac. Qed.
Lemma rt_m_fee : rt m_fee. Proof. unfold m_fee. rt_tac. Qed.
Global Hint Resolve rt_m_fee : rt.
Lemma rt_m_carrying : rt m_carrying. Proof. unfold m_carrying. rt_tac. Qed.
Global Hint Resolve rt_m_carrying : rt.
Lemma rt_m_transfer : rt m_transfer. Proof. unfold m_transfer. rt_tac. Qed.
Lemma rt_m_approve : rt m_approve. Proof. unfold m_approve. rt_tac. Qed.
Lemma rt_m_deploy : rt m_deploy. Proof. unfold m_deploy. rt_tac. Qed.
Lemma rt_m_call : rt m_call. Proof. unfold m_call. rt_tac. Qed.
Global Hint Resolve rt_m_transfer rt_m_approve rt_m_deploy rt_m_call : rt.
Lemma rto_action : rto o_action. Proof. unfold o_action. rt_tac. Qed.
Global Hint Resolve rto_action : rt.
Lemma rt_m_raw : rt m_raw. Proof. unfold m_raw. rt_tac. Qed.
Global Hint Resolve rt_m_raw : rt.
Lemma rt_m_signed : rt m_signed. Proof. unfold m_signed. rt_tac. Qed.
Global Hint Resolve rt_m_signed : rt.
Lemma rt_m_rtransfer : rt m_rtransfer. Proof. unfold m_rtransfer. rt_tac. Qed.
Lemma rt_m_rapprove : rt m_rapprove. Proof. unfold m_rapprove. rt_tac. Qed.
Lemma rt_m_rdeploy : rt m_rdeploy. Proof. unfold m_rdeploy. rt_tac. Qed.
Lemma rt_m_rcall : rt m_rcall. Proof. unfold m_rcall. rt_tac. Qed.
Lemma rt_m_rfail : rt m_rfail. Proof. unfold m_rfail. rt_tac. Qed.
Global Hint Resolve rt_m_rtransfer rt_m_rapprove rt_m_rdeploy rt_m_rcall rt_m_rfail : rt.
Lemma rto_result : rto o_result. Proof. unfold o_result. rt_tac. Qed.
Global Hint Resolve rto_result : rt.
Lemma rt_m_receipt : rt m_receipt. Proof. unfold m_receipt. rt_tac. Qed.
Lemma rt_m_proof : rt m_proof. Proof. unfold m_proof. rt_tac. Qed.
Global Hint Resolve rt_m_proof : rt.
Lemma rt_m_validator : rt m_validator. Proof. unfold m_validator. rt_tac. Qed.
Global Hint Resolve rt_m_validator : rt.
Lemma rt_m_header : rt m_header. Proof. unfold m_header. rt_tac. Qed.
Global Hint Resolve rt_m_header : rt.
Lemma rt_m_epoch : rt m_epoch. Proof. unfold m_epoch. rt_tac. Qed.
Global Hint Resolve rt_m_epoch : rt.
Lemma rt_m_pill : rt m_pill. Proof. unfold m_pill. rt_tac. Qed.
Lemma rt_m_epoch_id : rt m_epoch_id. Proof. unfold m_epoch_id. rt_tac. Qed.

(** ** Conversions *)
Lemma from_to_hash h : from_hash (to_hash h) = Ok h.
Proof. unfold from_hash, to_hash, wtypes. cbn [fst]. rewrite (proj2 (hash_from_bytes_spec _ h) eq_refl). reflexivity. Qed.

Lemma from_to_root h : from_root (to_root h) = Ok h.
Proof. apply from_to_hash. Qed.

Lemma biguint_roundtrip n : biguint_from_bytes_be (biguint_to_bytes_be n) = n.
Proof.
  unfold biguint_from_bytes_be, biguint_to_bytes_be.
  destruct (N.eqb_spec n 0) as [->|]; [reflexivity|apply be_val_min].
Qed.

Lemma from_to_balance n : from_balance (to_balance n) = Ok n.
Proof. unfold from_balance, to_balance. cbn [fst]. rewrite biguint_roundtrip. reflexivity. Qed.

Lemma from_to_user a : from_user (to_user a) = Ok a.
Proof. unfold from_user, to_user, wtypes. cbn [fst field ok_or rbind]. rewrite (proj2 (user_from_bytes_spec _ a) eq_refl). reflexivity. Qed.

Lemma from_to_contract a : from_contract (to_contract a) = Ok a.
Proof. unfold from_contract, to_contract, wtypes. cbn [fst field ok_or rbind]. rewrite (proj2 (contract_from_bytes_spec _ a) eq_refl). reflexivity. Qed.

Lemma from_to_fee f : from_fee (to_fee f) = Ok f.
Proof.
  unfold from_fee, to_fee, to_root. cbn [field ok_or rbind fst]. rewrite ?from_to_hash. cbn [rbind].
  destruct f; reflexivity.
Qed.

Lemma from_to_carrying c : from_carrying (to_carrying c) = Ok c.
Proof.
  unfold from_carrying, to_carrying. cbn [field ok_or rbind].
  rewrite ?from_to_root. cbn [rbind]. rewrite from_to_balance. cbn [rbind]. destruct c; reflexivity.
Qed.

Lemma from_to_asset a : from_asset (to_asset a) = Ok a.
Proof.
  unfold from_asset, to_asset. cbn [field ok_or rbind].
  rewrite ?from_to_root. cbn [rbind]. rewrite from_to_balance. cbn [rbind].
  rewrite from_to_contract. cbn [rbind]. rewrite ?from_to_root. cbn [rbind]. destruct a; reflexivity.
Qed.

(** What a contract type becomes on the wire. *)
Definition ctype_received (t : contract_type) : wres contract_type :=
  match t with
  | CtAsset => Ok CtAsset
  | CtApp => Ok CtLibrary
  | CtLibrary => Ok CtApp
  | CtNative => Err InvalidContractType
  end.

Lemma ctype_wire t : ctype_from_i32 (wrap32 (ctype_as_i32 t)) = ctype_received t.
Proof. destruct t; reflexivity. Qed.

Definition action_received (a : tx_action) : wres tx_action :=
  match a with
  | Deploy code t => let? t' := ctype_received t in Ok (Deploy code t')
  | _ => Ok a
  end.

Lemma from_to_action_gen a : from_action (to_action a) = action_received a.
Proof.
  destruct a as [r c|s i m|code t|c m args carry]; cbn [to_action from_action field ok_or rbind action_received].
  - rewrite from_to_user. cbn [rbind]. rewrite from_to_carrying. reflexivity.
  - rewrite from_to_contract. cbn [rbind]. rewrite ?from_to_root. cbn [rbind]. rewrite ?from_to_balance. reflexivity.
  - rewrite ctype_wire. reflexivity.
  - rewrite from_to_contract. cbn [rbind]. destruct carry as [x|]; [|reflexivity].
    rewrite from_to_carrying. reflexivity.
Qed.

Definition raw_received (r : raw_tx) : wres raw_tx :=
  let? a := action_received (rt_action r) in
  Ok (MkRaw (rt_chain_id r) (rt_nonce r) (rt_timeout r) (rt_fee r) a).

Lemma from_to_raw_gen r : from_raw (to_raw r) = raw_received r.
Proof.
  unfold from_raw, to_raw. cbn [field ok_or rbind].
  rewrite ?from_to_hash. cbn [rbind]. rewrite ?from_to_hash. cbn [rbind].
  rewrite from_to_fee. cbn [rbind]. rewrite from_to_action_gen. reflexivity.
Qed.

Definition signed_received (s : signed_tx) : wres signed_tx :=
  let? r := raw_received (st_raw s) in
  Ok (MkSigned r (st_tx_hash s) (st_pubkey s) (st_signature s)).

Lemma from_to_signed_gen s : from_signed (to_signed s) = signed_received s.
Proof.
  unfold from_signed, to_signed. cbn [field ok_or rbind]. rewrite from_to_raw_gen.
  unfold signed_received. destruct (raw_received (st_raw s)); cbn [rbind]; [|reflexivity..].
  rewrite from_to_hash. reflexivity.
Qed.

Definition result_received (r : receipt_result) : wres receipt_result :=
  match r with
  | RDeploy c t => let? t' := ctype_received t in Ok (RDeploy c t')
  | _ => Ok r
  end.

Lemma bloom_roundtrip (l : Bloom) : bloom_from_slice (sbytes l) = Ok l.
Proof. unfold bloom_from_slice. rewrite to_sized_bytes. reflexivity. Qed.

Lemma from_to_result_gen r : from_result (to_result r) = result_received r.
Proof.
  destruct r as [u i b a|s i m|c t|c v l|s u]; cbn [to_result from_result field ok_or rbind result_received].
  - rewrite from_to_user. cbn [rbind]. rewrite ?from_to_root. cbn [rbind]. rewrite ?from_to_balance. cbn [rbind].
    rewrite ?from_to_balance. reflexivity.
  - rewrite from_to_contract. cbn [rbind]. rewrite ?from_to_root. cbn [rbind]. rewrite ?from_to_balance. reflexivity.
  - rewrite ctype_wire. destruct (ctype_received t); cbn [rbind]; [|reflexivity..].
    rewrite from_to_contract. reflexivity.
  - rewrite from_to_contract. cbn [rbind]. rewrite bloom_roundtrip. reflexivity.
  - reflexivity.
Qed.

Definition receipt_received (r : receipt) : wres receipt :=
  let? x := result_received (rc_result r) in
  Ok (MkReceipt (rc_state_root r) (rc_epoch_id r) (rc_tx_hash r) (rc_cycles_used r) x).

Lemma from_to_receipt_gen r : from_receipt (to_receipt r) = receipt_received r.
Proof.
  unfold from_receipt, to_receipt. cbn [field ok_or rbind].
  rewrite ?from_to_hash. cbn [rbind]. rewrite ?from_to_hash. cbn [rbind]. rewrite from_to_fee. cbn [rbind].
  rewrite from_to_result_gen. reflexivity.
Qed.

Lemma mapM_map {A P} (f : P -> wres A) (g : A -> P) l : (forall a, f (g a) = Ok a) -> mapM f (map g l) = Ok l.
Proof.
  intros H. induction l as [|a l IH]; [reflexivity|].
  cbn [map mapM]. rewrite H. cbn [rbind]. rewrite IH. reflexivity.
Qed.

Lemma from_to_proof p : from_proof (to_proof p) = Ok p.
Proof. unfold from_proof, to_proof. cbn [field ok_or rbind]. rewrite from_to_hash. destruct p; reflexivity. Qed.

Lemma byte_wrap32 b : byte_of (u32v (wrap32 (bN b))) = b.
Proof.
  cbn [wrap32 u32v]. rewrite N.mod_small; [apply byte_of_bN|].
  eapply N.lt_trans; [apply bN_lt|reflexivity].
Qed.

Lemma from_to_validator v : from_validator (to_validator v) = Ok v.
Proof.
  unfold from_validator, to_validator. cbn [field ok_or rbind]. rewrite from_to_user. cbn [rbind].
  rewrite !byte_wrap32. destruct v; reflexivity.
Qed.

Lemma from_to_header h : from_header (to_header h) = Ok h.
Proof.
  unfold from_header, to_header. cbn [field ok_or rbind].
  rewrite ?(mapM_map _ _ _ from_to_hash). cbn [rbind]. rewrite ?(mapM_map _ _ _ from_to_hash). cbn [rbind].
  rewrite (mapM_map _ _ _ from_to_validator). cbn [rbind].
  rewrite ?from_to_hash. cbn [rbind]. rewrite ?from_to_hash. cbn [rbind]. rewrite bloom_roundtrip. cbn [rbind].
  rewrite ?from_to_hash. cbn [rbind]. rewrite ?from_to_hash. cbn [rbind]. rewrite from_to_user. cbn [rbind].
  rewrite from_to_proof. cbn [rbind]. destruct h; reflexivity.
Qed.

Lemma from_to_epoch e : from_epoch (to_epoch e) = Ok e.
Proof.
  unfold from_epoch, to_epoch. cbn [field ok_or rbind]. rewrite (mapM_map _ _ _ from_to_hash). cbn [rbind].
  rewrite from_to_header. destruct e; reflexivity.
Qed.

Lemma from_to_pill p : from_pill (to_pill p) = Ok p.
Proof.
  unfold from_pill, to_pill. cbn [field ok_or rbind]. rewrite (mapM_map _ _ _ from_to_hash). cbn [rbind].
  rewrite from_to_epoch. destruct p; reflexivity.
Qed.

(** ** Round trips *)
Lemma wdec_wenc {P T} (m : pcodec P) (to : T -> P) (from : P -> wres T) v :
  rt m -> fits (wenc m to v) -> wdec m from (wenc m to v) = from (to v).
Proof.
  intros R H. unfold wdec, wenc in *. rewrite pdecode_pencode by assumption. reflexivity.
Qed.

Lemma wire_signed s : fits (wenc_signed s) -> wdec_signed (wenc_signed s) = signed_received s.
Proof. intros H. unfold wdec_signed, wenc_signed. rewrite wdec_wenc; [apply from_to_signed_gen|apply rt_m_signed|exact H]. Qed.
Lemma wire_raw s : fits (wenc_raw s) -> wdec_raw (wenc_raw s) = raw_received s.
Proof. intros H. unfold wdec_raw, wenc_raw. rewrite wdec_wenc; [apply from_to_raw_gen|apply rt_m_raw|exact H]. Qed.
Lemma wire_receipt s : fits (wenc_receipt s) -> wdec_receipt (wenc_receipt s) = receipt_received s.
Proof. intros H. unfold wdec_receipt, wenc_receipt. rewrite wdec_wenc; [apply from_to_receipt_gen|apply rt_m_receipt|exact H]. Qed.
Lemma wire_balance v : fits (wenc_balance v) -> wdec_balance (wenc_balance v) = Ok v.
Proof. intros H. unfold wdec_balance, wenc_balance. rewrite wdec_wenc; [apply from_to_balance|apply rt_m_balance|exact H]. Qed.
Lemma wire_asset v : fits (wenc_asset v) -> wdec_asset (wenc_asset v) = Ok v.
Proof. intros H. unfold wdec_asset, wenc_asset. rewrite wdec_wenc; [apply from_to_asset|apply rt_m_asset|exact H]. Qed.
Lemma wire_proof v : fits (wenc_proof v) -> wdec_proof (wenc_proof v) = Ok v.
Proof. intros H. unfold wdec_proof, wenc_proof. rewrite wdec_wenc; [apply from_to_proof|apply rt_m_proof|exact H]. Qed.
Lemma wire_header v : fits (wenc_header v) -> wdec_header (wenc_header v) = Ok v.
Proof. intros H. unfold wdec_header, wenc_header. rewrite wdec_wenc; [apply from_to_header|apply rt_m_header|exact H]. Qed.
Lemma wire_epoch v : fits (wenc_epoch v) -> wdec_epoch (wenc_epoch v) = Ok v.
Proof. intros H. unfold wdec_epoch, wenc_epoch. rewrite wdec_wenc; [apply from_to_epoch|apply rt_m_epoch|exact H]. Qed.
Lemma wire_pill v : fits (wenc_pill v) -> wdec_pill (wenc_pill v) = Ok v.
Proof. intros H. unfold wdec_pill, wenc_pill. rewrite wdec_wenc; [apply from_to_pill|apply rt_m_pill|exact H]. Qed.

(** Fixed-size types always fit. *)
Lemma varint_f_len f n : (length (varint_f f n) <= f)%nat.
Proof. revert n; induction f as [|f IH]; intros n; cbn [varint_f]; [cbn; lia|]. destruct (n <? 128); cbn [length]; [lia|]. specialize (IH (n / 128)). lia. Qed.
Lemma varint_len n : blen (varint n) <= 10.
Proof. unfold blen, varint. pose proof (varint_f_len 10 n). lia. Qed.

Lemma ser_field_len f : blen (ser_field f) <= 20 + match snd f with WVar _ => 0 | W64 b | WLen b | W32 b => blen b end.
Proof.
  destruct f as [t w]. unfold ser_field. cbn [fst snd]. rewrite blen_app.
  pose proof (varint_len (t * 8 + wire_type w)).
  destruct w as [n|b|b|b]; cbn [wire_payload].
  - pose proof (varint_len n). lia.
  - lia.
  - rewrite blen_app. pose proof (varint_len (blen b)). lia.
  - lia.
Qed.

Lemma ser_cons f l : ser (f :: l) = ser_field f ++ ser l.
Proof. reflexivity. Qed.

Lemma bytes_out_len t b : blen (ser (pc_out (p_bytes t) b)) <= 20 + blen b.
Proof.
  cbn [p_bytes pc_out]. destruct b as [|x b]; [cbn; lia|].
  rewrite ser_cons, blen_app. pose proof (ser_field_len (t, WLen (x :: b))). cbn [snd] in *.
  change (blen (ser [])) with 0. lia.
Qed.
Lemma u64_out_len t v : blen (ser (pc_out (p_u64 t) v)) <= 20.
Proof.
  cbn [p_u64 pc_out]. destruct (u64v v =? 0); [cbn; lia|].
  rewrite ser_cons, blen_app. pose proof (ser_field_len (t, WVar v)). cbn [snd] in *.
  change (blen (ser [])) with 0. lia.
Qed.
Lemma u32_out_len t v : blen (ser (pc_out (p_u32 t) v)) <= 20.
Proof.
  cbn [p_u32 pc_out]. destruct (u32v v =? 0); [cbn; lia|].
  rewrite ser_cons, blen_app. pose proof (ser_field_len (t, WVar (u32v v))). cbn [snd] in *.
  change (blen (ser [])) with 0. lia.
Qed.
Lemma opt_out_len {A} t (m : pcodec A) a : blen (ser (pc_out (p_opt t m) (Some a))) <= 20 + blen (pencode m a).
Proof.
  cbn [p_opt pc_out].
  rewrite ser_cons, blen_app. pose proof (ser_field_len (t, WLen (pencode m a))). cbn [snd] in *.
  change (blen (ser [])) with 0. lia.
Qed.
Lemma pencode_cons {A B} (f : pcodec A) (m : pcodec B) a b :
  pencode (pcons f m) (a, b) = ser (pc_out f a) ++ pencode m b.
Proof. unfold pencode. cbn [pcons pc_out fst snd]. apply ser_app. Qed.
Lemma pencode_nil : pencode pnil tt = [].
Proof. reflexivity. Qed.

Lemma len_hash h : blen (wenc_hash h) <= 52.
Proof.
  unfold wenc_hash, wenc, m_hash, to_hash. rewrite pencode_cons, pencode_nil, app_nil_r.
  pose proof (bytes_out_len 1 (sbytes h)). unfold blen at 2 in H. rewrite sized_len in H. lia.
Qed.
Lemma len_user a : blen (wenc_user a) <= 61.
Proof.
  unfold wenc_user, wenc, m_user, to_user. rewrite pencode_cons, pencode_nil, app_nil_r.
  pose proof (opt_out_len 1 m_address (ua a, tt)) as H.
  unfold m_address in H at 2. rewrite pencode_cons, pencode_nil, app_nil_r in H.
  pose proof (bytes_out_len 1 (ua a)) as H2.
  assert (blen (ua a) = 21) as E.
  { clear. pose proof (ua_ok a) as Hb. generalize dependent (ua a). intros b Hb. unfold user_addr_ok in Hb. destruct b; [discriminate|].
    rewrite andb_true_iff in Hb. destruct Hb as [_ Hb]. apply Nat.eqb_eq in Hb. unfold blen. rewrite Hb. reflexivity. }
  lia.
Qed.
Lemma len_contract a : blen (wenc_contract a) <= 81.
Proof.
  unfold wenc_contract, wenc, m_contract, to_contract. rewrite !pencode_cons, pencode_nil, app_nil_r, blen_app.
  pose proof (opt_out_len 1 m_address (ca a, tt)) as H.
  unfold m_address in H at 2. rewrite pencode_cons, pencode_nil, app_nil_r in H.
  pose proof (bytes_out_len 1 (ca a)) as H2.
  pose proof (u32_out_len 2 (wrap32 (wire_ctype (contract_type_of a)))) as H3.
  assert (blen (ca a) = 21) as E.
  { clear. pose proof (ca_ok a) as Hb. generalize dependent (ca a). intros b Hb. unfold contract_addr_ok in Hb. destruct b; [discriminate|].
    destruct (magic_contract_type _); [|discriminate].
    apply Nat.eqb_eq in Hb. unfold blen. rewrite Hb. reflexivity. }
  lia.
Qed.
Lemma len_root h : blen (pencode m_root (to_root h)) <= 72.
Proof.
  unfold m_root, to_root. rewrite pencode_cons, pencode_nil, app_nil_r.
  pose proof (opt_out_len 1 m_hash (to_hash h)) as H. pose proof (len_hash h) as H2.
  unfold wenc_hash, wenc in H2. lia.
Qed.
Lemma len_fee f : blen (wenc_fee f) <= 112.
Proof.
  unfold wenc_fee, wenc, m_fee, to_fee. rewrite !pencode_cons, pencode_nil, app_nil_r, blen_app.
  pose proof (opt_out_len 1 m_root (to_root (fee_asset_id f))). pose proof (len_root (fee_asset_id f)).
  pose proof (u64_out_len 2 (fee_cycle f)). lia.
Qed.
Lemma len_validator v : blen (wenc_validator v) <= 121.
Proof.
  unfold wenc_validator, wenc, m_validator, to_validator. rewrite !pencode_cons, pencode_nil, app_nil_r, !blen_app.
  pose proof (opt_out_len 1 m_user (to_user (va_address v))). pose proof (len_user (va_address v)) as H2.
  unfold wenc_user, wenc in H2.
  pose proof (u32_out_len 2 (wrap32 (bN (va_propose_weight v)))).
  pose proof (u32_out_len 3 (wrap32 (bN (va_vote_weight v)))). lia.
Qed.
Lemma len_epoch_id e : blen (wenc_epoch_id e) <= 20.
Proof.
  unfold wenc_epoch_id, wenc, m_epoch_id, to_epoch_id. rewrite pencode_cons, pencode_nil, app_nil_r.
  apply u64_out_len.
Qed.

Lemma wire_hash v : wdec_hash (wenc_hash v) = Ok v.
Proof.
  unfold wdec_hash, wenc_hash. rewrite wdec_wenc; [apply from_to_hash|apply rt_m_hash|].
  pose proof (len_hash v). unfold fits, two64. unfold wenc_hash in H. lia.
Qed.
Lemma wire_user v : wdec_user (wenc_user v) = Ok v.
Proof.
  unfold wdec_user, wenc_user. rewrite wdec_wenc; [apply from_to_user|apply rt_m_user|].
  pose proof (len_user v). unfold fits, two64. unfold wenc_user in H. lia.
Qed.
Lemma wire_contract v : wdec_contract (wenc_contract v) = Ok v.
Proof.
  unfold wdec_contract, wenc_contract. rewrite wdec_wenc; [apply from_to_contract|apply rt_m_contract|].
  pose proof (len_contract v). unfold fits, two64. unfold wenc_contract in H. lia.
Qed.
Lemma wire_fee v : wdec_fee (wenc_fee v) = Ok v.
Proof.
  unfold wdec_fee, wenc_fee. rewrite wdec_wenc; [apply from_to_fee|apply rt_m_fee|].
  pose proof (len_fee v). unfold fits, two64. unfold wenc_fee in H. lia.
Qed.
Lemma wire_validator v : wdec_validator (wenc_validator v) = Ok v.
Proof.
  unfold wdec_validator, wenc_validator. rewrite wdec_wenc; [apply from_to_validator|apply rt_m_validator|].
  pose proof (len_validator v). unfold fits, two64. unfold wenc_validator in H. lia.
Qed.
Lemma wire_epoch_id v : wdec_epoch_id (wenc_epoch_id v) = Ok v.
Proof.
  unfold wdec_epoch_id, wenc_epoch_id. rewrite wdec_wenc; [destruct v; reflexivity|apply rt_m_epoch_id|].
  pose proof (len_epoch_id v). unfold fits, two64. unfold wenc_epoch_id in H. lia.
Qed.

(** ** Unknown trailing fields are ignored *)
Lemma unknown_skipped {V} (c : pcodec V) (extra : list wfield) v :
  rt c -> fits (pencode c v) ->
  Forall wf_field extra ->
  (forall t w x, has_tag t (pc_tags c) = false -> pc_in c t w x = Some x) ->
  Forall (fun f => has_tag (fst f) (pc_tags c) = false) extra ->
  pdecode c (pencode c v ++ ser extra) = Some v.
Proof.
  intros R Hf We Hskip Hx. unfold pdecode, pmerge, pencode. rewrite <- ser_app.
  rewrite parse_ser.
  2:{ apply Forall_app. split; [apply R, Hf|exact We]. }
  rewrite merge_all_app, (rt_merge _ R _ Hf).
  clear We. induction extra as [|[t w] l IH]; [reflexivity|].
  apply Forall_cons in Hx as [H1 H2]. cbn [merge_all]. rewrite Hskip by exact H1. apply IH, H2.
Qed.

(** ** No panic *)
Lemma rbind_np {E A B} (r : res E A) (k : A -> res E B) :
  r <> Panic -> (forall a, r = Ok a -> k a <> Panic) -> rbind r k <> Panic.
Proof. destruct r; cbn; auto; discriminate. Qed.
Lemma field_np {A} (o : option A) : field o <> Panic.
Proof. destruct o; discriminate. Qed.
Lemma wtypes_np {A} (r : res types_err A) : r <> Panic -> wtypes r <> Panic.
Proof. destruct r; cbn; auto; discriminate. Qed.
Lemma from_hash_np p : from_hash p <> Panic.
Proof. apply wtypes_np, hash_from_bytes_np. Qed.
Lemma from_root_np p : from_root p <> Panic.
Proof. apply rbind_np; [apply field_np|]. intros; apply from_hash_np. Qed.
Lemma from_user_np p : from_user p <> Panic.
Proof. apply rbind_np; [apply field_np|]. intros; apply wtypes_np, user_from_bytes_np. Qed.
Lemma from_contract_np p : from_contract p <> Panic.
Proof. apply rbind_np; [apply field_np|]. intros; apply wtypes_np, contract_from_bytes_np. Qed.
Lemma from_balance_np p : from_balance p <> Panic.
Proof. discriminate. Qed.
Lemma ctype_from_np p : ctype_from_i32 p <> Panic.
Proof. unfold ctype_from_i32. destruct (_ =? 0); [discriminate|]. destruct (_ =? 1); [discriminate|]. destruct (_ =? 2); discriminate. Qed.
Lemma mapM_np {A B} (f : A -> wres B) l : (forall a, f a <> Panic) -> mapM f l <> Panic.
Proof.
  intros H. induction l as [|a l IH]; cbn [mapM]; [discriminate|].
  apply rbind_np; [apply H|]. intros. apply rbind_np; [exact IH|]. discriminate.
Qed.
Create HintDb np.
Global Hint Resolve field_np from_hash_np from_root_np from_user_np from_contract_np from_balance_np ctype_from_np : np.
Ltac np_tac := repeat (apply rbind_np; [solve [auto with np | apply mapM_np; auto with np]|intros ? _]); try discriminate.
Lemma from_fee_np p : from_fee p <> Panic.
Proof. destruct p as (id & c & []). unfold from_fee. np_tac. Qed.
Lemma from_carrying_np p : from_carrying p <> Panic.
Proof. destruct p as (id & c & []). unfold from_carrying. np_tac. Qed.
Lemma from_asset_np p : from_asset p <> Panic.
Proof. destruct p as (a & b & c & d & e & f & []). unfold from_asset. np_tac. Qed.
Global Hint Resolve from_fee_np from_carrying_np : np.
Lemma from_action_np p : from_action p <> Panic.
Proof.
  destruct p as [(a & b & [])|[(a & b & c & [])|[(a & b & [])|(a & b & c & d & [])]]]; cbn [from_action].
  - np_tac.
  - np_tac.
  - np_tac.
  - np_tac. destruct d; np_tac.
Qed.
Global Hint Resolve from_action_np : np.
Lemma from_raw_np p : from_raw p <> Panic.
Proof. destruct p as (a & b & c & d & e & []). unfold from_raw. np_tac. Qed.
Global Hint Resolve from_raw_np : np.
Lemma from_signed_np p : from_signed p <> Panic.
Proof. destruct p as (a & b & c & d & []). unfold from_signed. np_tac. Qed.
Lemma from_proof_np p : from_proof p <> Panic.
Proof. destruct p as (a & b & c & d & e & []). unfold from_proof. np_tac. Qed.
Lemma from_validator_np p : from_validator p <> Panic.
Proof. destruct p as (a & b & c & []). unfold from_validator. np_tac. Qed.
Lemma wdec_np {P T} (m : pcodec P) (from : P -> wres T) b : (forall p, from p <> Panic) -> wdec m from b <> Panic.
Proof. intros H. unfold wdec. apply rbind_np; [apply ok_or_no_panic|]. intros; apply H. Qed.
