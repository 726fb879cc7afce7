(** * Storage properties C50-C53, C55, C56. *)
From Verif Require Import Base BaseFacts Hex Types Rlp RlpFacts FixedCodec FixedCodecFacts CodecProps Proto ProtoFacts Wire WireFacts
  Storage StorageSpec StorageFacts StorageProps.
From Coq Require Strings.String.
Import String.StringSyntax.
Delimit Scope string_scope with string.
Local Open Scope N_scope.

(** ** C50: after any history of writes, every read returns the last value
    written under its key, or "none". *)
Theorem C50_transactions_and_receipts : forall digest ops h,
  Forall op_ok ops ->
  get_transaction_by_hash rocks_col (after rocks_col digest ops) h = or_none (last_tx ops h) /\
  get_receipt rocks_col (after rocks_col digest ops) h = or_none (last_receipt ops h).
Proof. intros digest ops h Hok. split; [apply read_tx|apply read_receipt]; exact Hok. Qed.
Print Assumptions C50_transactions_and_receipts.

Theorem C50_epochs : forall digest ops,
  Forall op_ok ops ->
  no_collision digest (digest_inputs ops) ->
  (forall i, get_epoch_by_epoch_id rocks_col (after rocks_col digest ops) i = or_none (last_epoch_at ops i)) /\
  get_latest_epoch rocks_col digest (after rocks_col digest ops) = or_none (last (written_epochs ops)) /\
  get_latest_proof rocks_col digest (after rocks_col digest ops) = or_none (last (written_proofs ops)).
Proof.
  intros digest ops Hok Hnc. split; [|split].
  - intros i. apply read_epoch, Hok.
  - apply read_latest_epoch; assumption.
  - apply read_latest_proof; assumption.
Qed.
Print Assumptions C50_epochs.

(** By hash: the key is the digest of the header's wire encoding; the answer
    is the epoch now stored under that epoch's id.  With one epoch per id this
    is the epoch itself. *)
Theorem C50_epoch_by_hash : forall digest ops e,
  Forall op_ok ops ->
  no_collision digest (digest_inputs ops) ->
  InsEpoch e ∈ ops -> fits (wenc_header (ep_header e)) ->
  get_epoch_by_hash rocks_col (after rocks_col digest ops) (digest (wenc_header (ep_header e)))
    = or_none (last_epoch_at ops (eh_epoch_id (ep_header e))) /\
  ((forall e', InsEpoch e' ∈ ops -> eh_epoch_id (ep_header e') = eh_epoch_id (ep_header e) -> e' = e) ->
   get_epoch_by_hash rocks_col (after rocks_col digest ops) (digest (wenc_header (ep_header e))) = Ok e).
Proof.
  intros digest ops e Hok Hnc He Hf.
  pose proof (index_finds digest ops Hok Hnc e (op_in_epochs ops e He) Hf) as X. unfold epoch_index_key in X.
  split; [exact X|]. intros Hu. rewrite X.
  destruct (last_epoch_at ops _) as [e'|] eqn:E.
  - apply last_filter_in in E as [E1 E2]. apply in_written_epochs in E1. rewrite (Hu e' E1 E2). reflexivity.
  - exfalso. unfold last_epoch_at in E. apply last_None in E.
    assert (e ∈ filter (fun x => eh_epoch_id (ep_header x) = eh_epoch_id (ep_header e)) (written_epochs ops)) as Y
      by (apply elem_of_list_filter; split; [reflexivity|apply op_in_epochs, He]).
    rewrite E in Y. inversion Y.
Qed.
Print Assumptions C50_epoch_by_hash.

(** An unknown hash gives "none". *)
Theorem C50_unknown_hash : forall digest ops h,
  Forall op_ok ops ->
  h <> digest (ascii "latest_hash"%string) -> h <> digest (ascii "latest_proof"%string) ->
  (forall e, InsEpoch e ∈ ops -> digest (wenc_header (ep_header e)) <> h) ->
  get_epoch_by_hash rocks_col (after rocks_col digest ops) h = Err GetNone.
Proof.
  intros digest ops h Hok H1 H2 Hu. rewrite read_epoch_by_hash by assumption.
  destruct (last_epoch_hashed digest ops h) as [e|] eqn:E; [|reflexivity].
  exfalso. apply last_filter_in in E as [E1 E2]. apply in_written_epochs in E1. exact (Hu e E1 E2).
Qed.
Print Assumptions C50_unknown_hash.

(** False for deployments of anything but an asset: a stored App deployment is
    read back as a Library one, and a stored Native deployment cannot be read
    at all: it even fails every batch read that includes it. *)
Theorem C50_deployment_altered_refuted : forall digest c n t f code h pk sg hs,
  let tx ct := MkSigned (MkRaw c n t f (Deploy code ct)) h pk sg in
  let stored ct := after rocks_col digest [InsTransactions [tx ct]] in
  (fits (wenc_signed (tx CtApp)) ->
   get_transaction_by_hash rocks_col (stored CtApp) h = Ok (tx CtLibrary)) /\
  (fits (wenc_signed (tx CtLibrary)) ->
   get_transaction_by_hash rocks_col (stored CtLibrary) h = Ok (tx CtApp)) /\
  (fits (wenc_signed (tx CtNative)) ->
   get_transaction_by_hash rocks_col (stored CtNative) h = Err (SWire InvalidContractType) /\
   (h ∈ hs -> get_transactions rocks_col (stored CtNative) hs = Err (SWire InvalidContractType))).
Proof.
  intros digest c n t f code h pk sg hs tx stored.
  assert (forall ct, stored ct !! (2, wenc_hash h) = Some (wenc_signed (tx ct))) as L.
  { intros ct. unfold stored. rewrite tx_lookup.
    assert (last_tx [InsTransactions [tx ct]] h = Some (tx ct)) as ->; [|reflexivity].
    unfold last_tx, written_txs. cbn [map concat app]. rewrite filter_cons_True by reflexivity. reflexivity. }
  assert (forall ct, fits (wenc_signed (tx ct)) ->
            ad_get rocks_col TransactionSchema (stored ct) h =
            (let? v := map_err SWire (signed_received (tx ct)) in Ok (Some v))) as G.
  { intros ct Hf. unfold ad_get, ad_key. cbn [TransactionSchema sc_cat sc_kenc sc_vdec rocks_col].
    rewrite L, wire_signed by exact Hf. reflexivity. }
  split; [|split].
  - intros Hf. unfold get_transaction_by_hash, get_or_none. rewrite (G CtApp Hf). reflexivity.
  - intros Hf. unfold get_transaction_by_hash, get_or_none. rewrite (G CtLibrary Hf). reflexivity.
  - intros Hf. split.
    + unfold get_transaction_by_hash, get_or_none. rewrite (G CtNative Hf). reflexivity.
    + intros Hin. unfold get_transactions.
      assert (ad_get_batch rocks_col TransactionSchema (stored CtNative) hs = Err (SWire InvalidContractType)) as ->; [|reflexivity].
      induction hs as [|x hs IH]; [inversion Hin|]. cbn [ad_get_batch].
      destruct (decide (x = h)) as [->|Hne].
      * rewrite (G CtNative Hf). reflexivity.
      * apply elem_of_cons in Hin as [->|Hin]; [congruence|].
        assert (ad_get rocks_col TransactionSchema (stored CtNative) x = Ok None) as ->.
        { unfold ad_get, ad_key. cbn [TransactionSchema sc_cat sc_kenc sc_vdec rocks_col].
          unfold stored. rewrite tx_lookup.
          assert (last_tx [InsTransactions [tx CtNative]] x = None) as ->; [|reflexivity].
          unfold last_tx, written_txs. cbn [map concat app]. rewrite filter_cons_False by (intros X; apply Hne; symmetry; exact X).
          reflexivity. }
        cbn [rbind]. rewrite (IH Hin). reflexivity.
Qed.
Print Assumptions C50_deployment_altered_refuted.

(** ** C51: writes of one kind do not disturb reads of another, from ANY
    database content (RocksDB adapter). *)
Theorem C51_frame : forall digest (m : db),
  digest (ascii "latest_hash"%string) <> digest (ascii "latest_proof"%string) ->
  (forall l h i, let m' := apply_writes m (insert_transactions rocks_col l) in
     get_receipt rocks_col m' h = get_receipt rocks_col m h /\
     get_epoch_by_epoch_id rocks_col m' i = get_epoch_by_epoch_id rocks_col m i /\
     get_epoch_by_hash rocks_col m' h = get_epoch_by_hash rocks_col m h /\
     get_latest_epoch rocks_col digest m' = get_latest_epoch rocks_col digest m /\
     get_latest_proof rocks_col digest m' = get_latest_proof rocks_col digest m) /\
  (forall l h i, let m' := apply_writes m (insert_receipts rocks_col l) in
     get_transaction_by_hash rocks_col m' h = get_transaction_by_hash rocks_col m h /\
     get_epoch_by_epoch_id rocks_col m' i = get_epoch_by_epoch_id rocks_col m i /\
     get_epoch_by_hash rocks_col m' h = get_epoch_by_hash rocks_col m h /\
     get_latest_epoch rocks_col digest m' = get_latest_epoch rocks_col digest m /\
     get_latest_proof rocks_col digest m' = get_latest_proof rocks_col digest m) /\
  (forall e h i, let m' := apply_writes m (insert_epoch rocks_col digest e) in
     get_transaction_by_hash rocks_col m' h = get_transaction_by_hash rocks_col m h /\
     get_receipt rocks_col m' h = get_receipt rocks_col m h /\
     (i <> eh_epoch_id (ep_header e) -> get_epoch_by_epoch_id rocks_col m' i = get_epoch_by_epoch_id rocks_col m i) /\
     (digest (wenc_header (ep_header e)) <> digest (ascii "latest_proof"%string) ->
      get_latest_proof rocks_col digest m' = get_latest_proof rocks_col digest m)) /\
  (forall p h i, let m' := apply_writes m (update_latest_proof rocks_col digest p) in
     get_transaction_by_hash rocks_col m' h = get_transaction_by_hash rocks_col m h /\
     get_receipt rocks_col m' h = get_receipt rocks_col m h /\
     get_epoch_by_epoch_id rocks_col m' i = get_epoch_by_epoch_id rocks_col m i /\
     (h <> digest (ascii "latest_proof"%string) -> get_epoch_by_hash rocks_col m' h = get_epoch_by_hash rocks_col m h) /\
     get_latest_epoch rocks_col digest m' = get_latest_epoch rocks_col digest m).
Proof.
  intros digest m Hl.
  assert (forall m m' k, m' !! k = m !! k -> forall K V (s : schema K V) x, ad_key rocks_col s x = k ->
    get_or_none rocks_col s m' x = get_or_none rocks_col s m x) as R.
  { intros m1 m2 k E K V s x <-. unfold get_or_none, ad_get. rewrite E. reflexivity. }
  assert (forall (w : list (dbkey * option bytes)) c k, (forall p, p ∈ w -> fst (fst p) <> c) -> apply_write m w !! (c, k) = m !! (c, k)) as O.
  { intros w c k H. rewrite lookup_apply_write. destruct (last _) as [p|] eqn:E; [|reflexivity].
    apply last_Some_elem_of in E. apply elem_of_list_filter in E as [E1 E2]. exfalso. apply (H _ E2). rewrite E1. reflexivity. }
  split; [|split; [|split]].
  - intros l h i m'. assert (forall c k, c <> 2 -> m' !! (c, k) = m !! (c, k)) as F.
    { intros c k Hc. apply O. intros p Hp. unfold batch_insert in Hp. apply elem_of_list_fmap in Hp as (v & -> & _).
      intros <-. apply Hc. reflexivity. }
    split; [|split; [|split; [|split]]].
    + eapply R; [apply F|reflexivity]. discriminate.
    + eapply R; [apply F|reflexivity]. discriminate.
    + unfold get_epoch_by_hash.
      rewrite (R m m' (1, wenc_hash h)); [|apply F; discriminate|reflexivity].
      destruct (get_or_none rocks_col HashEpochSchema m h); [|reflexivity..]. cbn [rbind].
      eapply R; [apply F|reflexivity]. discriminate.
    + eapply R; [apply F|reflexivity]. discriminate.
    + eapply R; [apply F|reflexivity]. discriminate.
  - intros l h i m'. assert (forall c k, c <> 3 -> m' !! (c, k) = m !! (c, k)) as F.
    { intros c k Hc. apply O. intros p Hp. unfold batch_insert in Hp. apply elem_of_list_fmap in Hp as (v & -> & _).
      intros <-. apply Hc. reflexivity. }
    split; [|split; [|split; [|split]]].
    + eapply R; [apply F|reflexivity]. discriminate.
    + eapply R; [apply F|reflexivity]. discriminate.
    + unfold get_epoch_by_hash.
      rewrite (R m m' (1, wenc_hash h)); [|apply F; discriminate|reflexivity].
      destruct (get_or_none rocks_col HashEpochSchema m h); [|reflexivity..]. cbn [rbind].
      eapply R; [apply F|reflexivity]. discriminate.
    + eapply R; [apply F|reflexivity]. discriminate.
    + eapply R; [apply F|reflexivity]. discriminate.
  - intros e h i m'.
    assert (m' = <[(1, wenc_hash (LATEST_EPOCH_KEY digest)) := wenc_epoch e]>
                (<[(1, wenc_hash (epoch_index_key digest e)) := wenc_epoch_id (MkEpochId (eh_epoch_id (ep_header e)))]>
                (<[(1, wenc_epoch_id (MkEpochId (eh_epoch_id (ep_header e)))) := wenc_epoch e]> m))) as Em by reflexivity.
    clearbody m'. subst m'. split; [|split; [|split]].
    + eapply R; [|reflexivity]. unfold ad_key. cbn [TransactionSchema sc_cat rocks_col].
      rewrite !lookup_insert_ne by (intros X; discriminate X). reflexivity.
    + eapply R; [|reflexivity]. unfold ad_key. cbn [ReceiptSchema sc_cat rocks_col].
      rewrite !lookup_insert_ne by (intros X; discriminate X). reflexivity.
    + intros Hi. eapply R; [|reflexivity]. unfold ad_key. cbn [EpochSchema sc_cat sc_kenc rocks_col].
      rewrite lookup_insert_ne by (intros [= H]; exact (epoch_id_hash_disjoint _ _ (eq_sym H))).
      rewrite lookup_insert_ne by (intros [= H]; exact (epoch_id_hash_disjoint _ _ (eq_sym H))).
      rewrite lookup_insert_ne by (intros [= H]; apply wenc_epoch_id_inj in H; congruence). reflexivity.
    + intros Hi. eapply R; [|reflexivity]. unfold ad_key. cbn [LatestProofSchema sc_cat sc_kenc rocks_col].
      rewrite lookup_insert_ne by (intros [= H]; apply wenc_hash_inj in H; exact (Hl H)).
      rewrite lookup_insert_ne by (intros [= H]; apply wenc_hash_inj in H; exact (Hi H)).
      rewrite lookup_insert_ne by (intros [= H]; exact (epoch_id_hash_disjoint _ _ H)). reflexivity.
  - intros p h i m'.
    assert (m' = <[(1, wenc_hash (LATEST_PROOF_KEY digest)) := wenc_proof p]> m) as Em by reflexivity.
    clearbody m'. subst m'. split; [|split; [|split; [|split]]].
    + eapply R; [|reflexivity]. unfold ad_key. cbn [TransactionSchema sc_cat rocks_col].
      rewrite lookup_insert_ne by (intros X; discriminate X). reflexivity.
    + eapply R; [|reflexivity]. unfold ad_key. cbn [ReceiptSchema sc_cat rocks_col].
      rewrite lookup_insert_ne by (intros X; discriminate X). reflexivity.
    + eapply R; [|reflexivity]. unfold ad_key. cbn [EpochSchema sc_cat sc_kenc rocks_col].
      rewrite lookup_insert_ne by (intros [= H]; exact (epoch_id_hash_disjoint _ _ (eq_sym H))). reflexivity.
    + intros Hi. unfold get_epoch_by_hash.
      rewrite (R m (<[(1, wenc_hash (LATEST_PROOF_KEY digest)):=wenc_proof p]> m) (1, wenc_hash h)); [| |reflexivity].
      2:{ rewrite lookup_insert_ne by (intros [= H]; apply wenc_hash_inj in H; exact (Hi (eq_sym H))). reflexivity. }
      destruct (get_or_none rocks_col HashEpochSchema m h) as [[j]| |]; [|reflexivity..]. cbn [rbind].
      eapply R; [|reflexivity]. unfold ad_key. cbn [EpochSchema sc_cat sc_kenc rocks_col].
      rewrite lookup_insert_ne by (intros [= H]; exact (epoch_id_hash_disjoint _ _ (eq_sym H))). reflexivity.
    + eapply R; [|reflexivity]. unfold ad_key. cbn [LatestEpochSchema sc_cat sc_kenc rocks_col].
      rewrite lookup_insert_ne by (intros [= H]; apply wenc_hash_inj in H; exact (Hl (eq_sym H))). reflexivity.
Qed.
Print Assumptions C51_frame.

(** The in-memory adapter keeps all categories in one map, and receipts use
    the transaction hash as key: storing a receipt destroys its transaction. *)
Definition ex_hash (b : byte) : hash := @Sized 32 (repeat b 32) eq_refl.
Definition ex_user : user_address := UA (x10 :: repeat x05 20) eq_refl.
Definition ex_tx : signed_tx :=
  MkSigned (MkRaw (ex_hash x01) (ex_hash x02) (wrap64 300) (MkFee (ex_hash x03) (wrap64 7))
    (Transfer ex_user (MkCarrying (ex_hash x04) 5))) (ex_hash x09) [x01; x02] [x03].
Definition ex_receipt : receipt :=
  MkReceipt (ex_hash x0a) (wrap64 3) (ex_hash x09) (MkFee (ex_hash x03) (wrap64 7))
    (RTransfer ex_user (ex_hash x04) 1 2).
Theorem C51_memory_adapter_refuted : forall digest,
  st_tx_hash ex_tx = rc_tx_hash ex_receipt /\
  get_transaction_by_hash memory_col (after memory_col digest [InsTransactions [ex_tx]]) (st_tx_hash ex_tx) = Ok ex_tx /\
  get_transaction_by_hash memory_col (after memory_col digest [InsTransactions [ex_tx]; InsReceipts [ex_receipt]])
    (st_tx_hash ex_tx) = Err (SWire ProtobufDecode) /\
  get_transaction_by_hash rocks_col (after rocks_col digest [InsTransactions [ex_tx]; InsReceipts [ex_receipt]])
    (st_tx_hash ex_tx) = Ok ex_tx.
Proof. intros digest. split; [reflexivity|split; [|split]]; vm_compute; reflexivity. Qed.
Print Assumptions C51_memory_adapter_refuted.

(** ** C52: batch reads keep the order of the request and leave out exactly
    the missing values. *)
Theorem C52_batch_reads : forall digest ops hs,
  Forall op_ok ops ->
  get_transactions rocks_col (after rocks_col digest ops) hs = Ok (omap (last_tx ops) hs) /\
  get_receipts rocks_col (after rocks_col digest ops) hs = Ok (omap (last_receipt ops) hs).
Proof. intros digest ops hs Hok. split; [apply read_txs|apply read_receipts]; exact Hok. Qed.
Print Assumptions C52_batch_reads.

(** ** C53: [pre_hash] is the digest of the parent's RLP encoding, the index
    key is the digest of the header's protobuf encoding: the parent is never
    found, in any history, including those that stored it. *)
Theorem C53_parent_never_found_refuted : forall digest ops parent,
  Forall op_ok ops -> fits (enc_epoch parent) ->
  no_collision digest (enc_epoch parent :: digest_inputs ops) ->
  get_epoch_by_hash rocks_col (after rocks_col digest ops) (digest (enc_epoch parent)) = Err GetNone.
Proof. exact parent_not_found. Qed.
Print Assumptions C53_parent_never_found_refuted.

(** ** C55: a crash between any two writes leaves the epoch tables consistent:
    the latest epoch can be read by its id, and every index entry leads to an
    epoch. *)
Theorem C55_crash_consistent : forall digest ops n,
  Forall op_ok ops ->
  no_collision digest (digest_inputs ops) ->
  let m := apply_writes ∅ (take n (history_writes rocks_col digest ops)) in
  (forall e, get_latest_epoch rocks_col digest m = Ok e ->
     exists e', get_epoch_by_epoch_id rocks_col m (eh_epoch_id (ep_header e)) = Ok e' /\
                eh_epoch_id (ep_header e') = eh_epoch_id (ep_header e)) /\
  (forall h, h <> digest (ascii "latest_hash"%string) -> h <> digest (ascii "latest_proof"%string) ->
     ad_contains rocks_col HashEpochSchema m h = true ->
     exists e, get_epoch_by_hash rocks_col m h = Ok e).
Proof.
  intros digest ops n Hok Hnc m. apply consistent_reads. apply history_consistent.
  - exact Hok.
  - intros e He. apply (key_not_latest digest ops Hnc), op_in_epochs, He.
  - exact (latest_keys_differ digest ops Hnc).
  - apply empty_consistent.
Qed.
Print Assumptions C55_crash_consistent.

(** A finished history is one of the crash points. *)
Theorem C55_full_history_is_a_crash_point : forall digest ops,
  apply_writes ∅ (take (length (history_writes rocks_col digest ops)) (history_writes rocks_col digest ops))
  = after rocks_col digest ops.
Proof. intros digest ops. rewrite firstn_all. reflexivity. Qed.
Print Assumptions C55_full_history_is_a_crash_point.

(** ** C56: each schema of either adapter is a map under insert, remove and
    batch_modify; a batch whose lists differ in length changes nothing. *)
Theorem C56_adapter_is_a_map : forall (K V : Type) (EqK : EqDecision K) (col : category -> N) (s : schema K V) ops k,
  (forall a b, sc_kenc s a = sc_kenc s b -> a = b) ->
  Forall (values_ok s) ops ->
  let m := fold_left (ad_step col s) ops ∅ in
  let f := fold_left spec_step ops (fun _ => None) in
  ad_get col s m k = Ok (f k) /\
  ad_contains col s m k = match f k with Some _ => true | None => false end.
Proof.
  intros K V EqK col s ops k Hk Hv m f. apply agrees_get. apply agrees_run; [exact Hk|exact Hv|].
  intros x. split; [reflexivity|exact I].
Qed.
Print Assumptions C56_adapter_is_a_map.

(** Also for values that do not survive their own codec: such a value is
    contained, and reading it gives what the codec makes of it. *)
Theorem C56_any_value : forall (K V : Type) (EqK : EqDecision K) (col : category -> N) (s : schema K V) (ops : list (ad_op K V)) (k : K),
  (forall a b, sc_kenc s a = sc_kenc s b -> a = b) ->
  let m := fold_left (ad_step col s) ops ∅ in
  let f := fold_left spec_step ops (fun _ => None) in
  (ad_contains col s m k = true <-> f k <> None) /\
  (f k = None -> ad_get col s m k = Ok None) /\
  (forall v v', f k = Some v -> sc_vdec s (sc_venc s v) = Ok v' -> ad_get col s m k = Ok (Some v')) /\
  (forall v e, f k = Some v -> sc_vdec s (sc_venc s v) = Err e -> ad_get col s m k = Err (SWire e)).
Proof.
  intros K V EqK col s ops k Hk m f.
  assert (holds_bytes col s m f) as A by (apply bytes_run; [exact Hk|intros x; reflexivity]).
  specialize (A k). unfold ad_contains, ad_get. rewrite A. clearbody f.
  destruct (f k) as [v0|]; (split; [split; congruence|]); (split; [congruence|]); (split; [intros v v'|intros v e]); intros [= ->] E.
  - rewrite E. reflexivity.
  - rewrite E. reflexivity.
Qed.
Print Assumptions C56_any_value.

Theorem C56_batch_length_mismatch : forall (K V : Type) (col : category -> N) (s : schema K V) ks vs,
  length ks <> length vs <-> ad_batch col s ks vs = Err BatchLengthMismatch.
Proof.
  intros K V col s ks vs. unfold ad_batch. destruct (Nat.eqb_spec (length ks) (length vs)); split; intros; congruence.
Qed.
Print Assumptions C56_batch_length_mismatch.

(** The six schemas of the node have injective keys. *)
Theorem C56_keys_injective :
  (forall a b, sc_kenc TransactionSchema a = sc_kenc TransactionSchema b -> a = b) /\
  (forall a b, sc_kenc ReceiptSchema a = sc_kenc ReceiptSchema b -> a = b) /\
  (forall a b, sc_kenc EpochSchema a = sc_kenc EpochSchema b -> a = b) /\
  (forall a b, sc_kenc HashEpochSchema a = sc_kenc HashEpochSchema b -> a = b) /\
  (forall a b, sc_kenc LatestEpochSchema a = sc_kenc LatestEpochSchema b -> a = b) /\
  (forall a b, sc_kenc LatestProofSchema a = sc_kenc LatestProofSchema b -> a = b).
Proof.
  exact (conj wenc_hash_inj (conj wenc_hash_inj (conj wenc_epoch_id_inj (conj wenc_hash_inj (conj wenc_hash_inj wenc_hash_inj))))).
Qed.
Print Assumptions C56_keys_injective.
