(** * Facts about Storage (C50-C53, C55, C56). *)
From Verif Require Import Base BaseFacts Hex Types Rlp FixedCodec FixedCodecFacts CodecProps Proto ProtoFacts Wire WireFacts Storage StorageSpec.
From Coq Require Strings.String.
Import String.StringSyntax.
Delimit Scope string_scope with string.
Local Open Scope N_scope.

(** ** Lookup after writes *)
Lemma apply_writes_concat m ws : apply_writes m ws = apply_write m (concat ws).
Proof.
  revert m; induction ws as [|w ws IH]; intros m; [reflexivity|].
  unfold apply_writes, apply_write in *. cbn [fold_left concat]. rewrite fold_left_app. apply IH.
Qed.

Lemma apply_write_app m a b : apply_write m (a ++ b) = apply_write (apply_write m a) b.
Proof. apply fold_left_app. Qed.

Lemma last_map {A B} (f : A -> B) l : last (map f l) = match last l with Some a => Some (f a) | None => None end.
Proof.
  induction l as [|a l IH] using rev_ind; [reflexivity|].
  rewrite map_app. cbn [map]. rewrite !last_snoc. reflexivity.
Qed.

Lemma last_filter_snoc {A} (P : A -> Prop) `{forall x, Decision (P x)} l x :
  last (filter P (l ++ [x])) = if decide (P x) then Some x else last (filter P l).
Proof.
  rewrite filter_app. destruct (decide (P x)).
  - rewrite filter_cons_True by assumption. rewrite filter_nil, last_snoc. reflexivity.
  - rewrite filter_cons_False by assumption. rewrite filter_nil, app_nil_r. reflexivity.
Qed.

Lemma lookup_apply_write m (w : list (dbkey * option bytes)) k :
  apply_write m w !! k =
    match last (filter (fun p : dbkey * option bytes => p.1 = k) w) with
    | Some p => p.2
    | None => m !! k
    end.
Proof.
  induction w as [|p w IH] using rev_ind; [reflexivity|].
  rewrite apply_write_app, last_filter_snoc.
  change (apply_write (apply_write m w) [p]) with (apply1 (apply_write m w) p). unfold apply1.
  destruct (decide (p.1 = k)) as [<-|Hne].
  - destruct (p.2); [rewrite lookup_insert|rewrite lookup_delete]; reflexivity.
  - destruct (p.2); [rewrite lookup_insert_ne by exact Hne|rewrite lookup_delete_ne by exact Hne]; exact IH.
Qed.

(** ** Key bytes *)
Lemma wenc_hash_bytes h : wenc_hash h = x0a :: x20 :: sbytes h.
Proof.
  unfold wenc_hash, wenc, m_hash, to_hash. rewrite pencode_cons, pencode_nil, app_nil_r.
  cbn [p_bytes pc_out]. pose proof (sized_len h) as L. destruct (sbytes h) as [|x l] eqn:E; [discriminate|].
  rewrite <- E in *. unfold ser. cbn [map concat]. rewrite app_nil_r. unfold ser_field. cbn [fst snd wire_payload].
  unfold blen. rewrite L. reflexivity.
Qed.

Lemma wenc_hash_inj a b : wenc_hash a = wenc_hash b -> a = b.
Proof. rewrite !wenc_hash_bytes. intros [= H]. apply sized_eq, H. Qed.

Lemma wenc_epoch_id_head e : wenc_epoch_id e = [] \/ exists r, wenc_epoch_id e = x08 :: r.
Proof.
  unfold wenc_epoch_id, wenc, m_epoch_id, to_epoch_id. rewrite pencode_cons, pencode_nil, app_nil_r.
  cbn [p_u64 pc_out]. destruct (u64v (eid_id e) =? 0); [left; reflexivity|right].
  unfold ser. cbn [map concat]. rewrite app_nil_r. unfold ser_field. cbn [fst snd wire_payload wire_type].
  change (varint (1 * 8 + 0)) with [x08]. eexists; reflexivity.
Qed.

Lemma epoch_id_hash_disjoint e h : wenc_epoch_id e <> wenc_hash h.
Proof. rewrite wenc_hash_bytes. destruct (wenc_epoch_id_head e) as [->|[r ->]]; discriminate. Qed.

Lemma wenc_epoch_id_inj a b : wenc_epoch_id a = wenc_epoch_id b -> a = b.
Proof. intros H. pose proof (wire_epoch_id a) as Ha. rewrite H, wire_epoch_id in Ha. congruence. Qed.

(** ** Stored values decode *)
Lemma wdec_tx_plain t : tx_plain t -> fits (wenc_signed t) -> wdec_signed (wenc_signed t) = Ok t.
Proof.
  intros Hp Hf. rewrite wire_signed by exact Hf. destruct t as [[c n ti f a] h pk sg].
  unfold signed_received, raw_received. unfold tx_plain in Hp. cbn [st_raw rt_action] in *.
  destruct a as [| |code ct|]; try reflexivity. subst ct. reflexivity.
Qed.
Lemma wdec_receipt_plain r : receipt_plain r -> fits (wenc_receipt r) -> wdec_receipt (wenc_receipt r) = Ok r.
Proof.
  intros Hp Hf. rewrite wire_receipt by exact Hf. destruct r as [s e h c x].
  unfold receipt_received. unfold receipt_plain in Hp. cbn [rc_result] in *.
  destruct x as [| |c' ct| |]; try reflexivity. subst ct. reflexivity.
Qed.

(** ** Which writes of a history hit a key *)
Section Rocks.
  Context (digest : bytes -> hash).
  Notation W ops := (concat (history_writes rocks_col digest ops)).

  Lemma W_app a b : W (a ++ b) = W a ++ W b.
  Proof. unfold history_writes. rewrite map_app, concat_app, concat_app. reflexivity. Qed.

  Lemma W_one o : W [o] = concat (op_writes rocks_col digest o).
  Proof. unfold history_writes. cbn [map concat]. rewrite app_nil_r. reflexivity. Qed.

  (** Generic: if, op by op, the writes to [k] are the images of the values
      selected by [sel], the same is true of histories. *)
  Lemma history_key {V} (k : dbkey) (sel : st_op -> list V) (venc : V -> bytes) ops :
    (forall o, o ∈ ops ->
       filter (fun p : dbkey * option bytes => p.1 = k) (concat (op_writes rocks_col digest o))
               = map (fun v => (k, Some (venc v))) (sel o)) ->
    filter (fun p : dbkey * option bytes => p.1 = k) (W ops)
               = map (fun v => (k, Some (venc v))) (concat (map sel ops)).
  Proof.
    intros H. induction ops as [|o ops IH]; [reflexivity|].
    change (o :: ops) with ([o] ++ ops). rewrite W_app, filter_app, W_one.
    rewrite H by (apply elem_of_cons; left; reflexivity).
    rewrite IH by (intros o' Ho'; apply H; apply elem_of_cons; right; exact Ho').
    rewrite <- map_app. reflexivity.
  Qed.

  Lemma after_lookup_in {V} (k : dbkey) (sel : st_op -> list V) (venc : V -> bytes) ops :
    (forall o, o ∈ ops ->
       filter (fun p : dbkey * option bytes => p.1 = k) (concat (op_writes rocks_col digest o))
               = map (fun v => (k, Some (venc v))) (sel o)) ->
    after rocks_col digest ops !! k =
      match last (concat (map sel ops)) with Some v => Some (venc v) | None => None end.
  Proof.
    intros H. unfold after. rewrite apply_writes_concat, lookup_apply_write, (history_key _ _ _ _ H).
    rewrite lookup_empty, last_map. destruct (last _); reflexivity.
  Qed.
  Lemma after_lookup {V} (k : dbkey) (sel : st_op -> list V) (venc : V -> bytes) ops :
    (forall o, filter (fun p : dbkey * option bytes => p.1 = k) (concat (op_writes rocks_col digest o))
               = map (fun v => (k, Some (venc v))) (sel o)) ->
    after rocks_col digest ops !! k =
      match last (concat (map sel ops)) with Some v => Some (venc v) | None => None end.
  Proof. intros H. apply after_lookup_in. auto. Qed.

  Lemma batch_filter {V} (s : schema hash V) (key : V -> hash) l h c :
    (forall a b, sc_kenc s a = sc_kenc s b -> a = b) ->
    c = rocks_col (sc_cat s) ->
    filter (fun p : dbkey * option bytes => p.1 = (c, sc_kenc s h)) (batch_insert rocks_col s key l)
    = map (fun v => ((c, sc_kenc s h), Some (sc_venc s v))) (filter (fun v => key v = h) l).
  Proof.
    intros Hinj ->. unfold batch_insert. induction l as [|v l IH]; [reflexivity|].
    cbn [map]. destruct (decide (key v = h)) as [E|E].
    - rewrite (filter_cons_True _ _ l) by exact E.
      rewrite filter_cons_True by (cbn; unfold ad_key; rewrite E; reflexivity).
      rewrite IH. cbn [map]. unfold ad_key. rewrite E. reflexivity.
    - rewrite (filter_cons_False _ _ l) by exact E.
      rewrite filter_cons_False; [exact IH|]. cbn. unfold ad_key. intros [= Hk]. apply E, Hinj, Hk.
  Qed.

  Lemma batch_filter_other {V} (s : schema hash V) (key : V -> hash) l c b :
    c <> rocks_col (sc_cat s) ->
    filter (fun p : dbkey * option bytes => p.1 = (c, b)) (batch_insert rocks_col s key l) = [].
  Proof.
    intros H. unfold batch_insert. induction l as [|v l IH]; [reflexivity|].
    cbn [map]. rewrite filter_cons_False; [exact IH|]. cbn. unfold ad_key. intros [= Hk]. congruence.
  Qed.

  Lemma filter_pick {A} (P : A -> Prop) `{forall x, Decision (P x)} (x : A) l :
    filter P (x :: l) = (if decide (P x) then [x] else []) ++ filter P l.
  Proof. destruct (decide (P x)); [rewrite filter_cons_True|rewrite filter_cons_False]; auto. Qed.

  Lemma concat_filter {A B} (P : B -> Prop) `{forall x, Decision (P x)} (f : A -> list B) l :
    concat (map (fun o => filter P (f o)) l) = filter P (concat (map f l)).
  Proof. induction l as [|a l IH]; [reflexivity|]. cbn [map concat]. rewrite filter_app, IH. reflexivity. Qed.

  (** *** Transactions *)
  Lemma tx_lookup ops h :
    after rocks_col digest ops !! (2, wenc_hash h) =
      match last_tx ops h with Some t => Some (wenc_signed t) | None => None end.
  Proof.
    unfold last_tx, written_txs. rewrite <- (concat_filter (fun t => st_tx_hash t = h)).
    apply after_lookup. intros [l|l|e|p]; cbn [op_writes].
    - cbn [insert_transactions concat]. rewrite app_nil_r.
      apply (batch_filter TransactionSchema st_tx_hash); [apply wenc_hash_inj|reflexivity].
    - cbn [insert_receipts concat]. rewrite app_nil_r.
      apply batch_filter_other. discriminate.
    - reflexivity.
    - reflexivity.
  Qed.

  (** *** Receipts *)
  Lemma receipt_lookup ops h :
    after rocks_col digest ops !! (3, wenc_hash h) =
      match last_receipt ops h with Some t => Some (wenc_receipt t) | None => None end.
  Proof.
    unfold last_receipt, written_receipts. rewrite <- (concat_filter (fun t => rc_tx_hash t = h)).
    apply after_lookup. intros [l|l|e|p]; cbn [op_writes].
    - cbn [insert_transactions concat]. rewrite app_nil_r.
      apply batch_filter_other. discriminate.
    - cbn [insert_receipts concat]. rewrite app_nil_r.
      apply (batch_filter ReceiptSchema rc_tx_hash); [apply wenc_hash_inj|reflexivity].
    - reflexivity.
    - reflexivity.
  Qed.

  (** *** Epochs by id *)
  Lemma epoch_lookup ops i :
    after rocks_col digest ops !! (1, wenc_epoch_id (MkEpochId i)) =
      match last_epoch_at ops i with Some e => Some (wenc_epoch e) | None => None end.
  Proof.
    unfold last_epoch_at, written_epochs. rewrite <- (concat_filter (fun e => eh_epoch_id (ep_header e) = i)).
    apply after_lookup. intros [l|l|e|p]; cbn [op_writes].
    - cbn [insert_transactions concat]. rewrite app_nil_r. apply batch_filter_other. discriminate.
    - cbn [insert_receipts concat]. rewrite app_nil_r. apply batch_filter_other. discriminate.
    - cbn [insert_epoch concat app]. unfold ad_insert, ad_key.
      cbn [EpochSchema HashEpochSchema LatestEpochSchema sc_cat sc_kenc sc_venc rocks_col app].
      rewrite !filter_pick, !filter_nil, !app_nil_r. cbn [fst].
      rewrite (decide_False (P := (1, wenc_hash (epoch_index_key digest e)) = _))
        by (intros [= H]; exact (epoch_id_hash_disjoint _ _ (eq_sym H))).
      rewrite (decide_False (P := (1, wenc_hash (LATEST_EPOCH_KEY digest)) = _))
        by (intros [= H]; exact (epoch_id_hash_disjoint _ _ (eq_sym H))).
      rewrite app_nil_r. cbn [app].
      destruct (decide (eh_epoch_id (ep_header e) = i)) as [<-|Hne].
      + rewrite decide_True by reflexivity. reflexivity.
      + rewrite decide_False; [reflexivity|]. intros [= H]. apply wenc_epoch_id_inj in H. congruence.
    - cbn [update_latest_proof concat]. unfold ad_insert, ad_key.
      cbn [LatestProofSchema sc_cat sc_kenc sc_venc rocks_col app].
      rewrite filter_cons_False; [reflexivity|]. cbn [fst]. intros [= H]. exact (epoch_id_hash_disjoint _ _ (eq_sym H)).
  Qed.

  (** *** The hash-keyed entries of the epoch column *)
  Lemma index_lookup ops h :
    h <> LATEST_EPOCH_KEY digest -> h <> LATEST_PROOF_KEY digest ->
    after rocks_col digest ops !! (1, wenc_hash h) =
      match last_epoch_hashed digest ops h with
      | Some e => Some (wenc_epoch_id (MkEpochId (eh_epoch_id (ep_header e))))
      | None => None
      end.
  Proof.
    intros H1 H2.
    unfold last_epoch_hashed, written_epochs. rewrite <- (concat_filter (fun e => epoch_index_key digest e = h)).
    rewrite (after_lookup (1, wenc_hash h)
      (fun o => filter (fun e => epoch_index_key digest e = h) match o with InsEpoch e => [e] | _ => [] end)
      (fun e => wenc_epoch_id (MkEpochId (eh_epoch_id (ep_header e))))).
    { destruct (last _); reflexivity. }
    intros [l|l|e|p]; cbn [op_writes].
    - cbn [insert_transactions concat]. rewrite app_nil_r. apply batch_filter_other. discriminate.
    - cbn [insert_receipts concat]. rewrite app_nil_r. apply batch_filter_other. discriminate.
    - cbn [insert_epoch concat app]. unfold ad_insert, ad_key.
      cbn [EpochSchema HashEpochSchema LatestEpochSchema sc_cat sc_kenc sc_venc rocks_col app].
      rewrite !filter_pick, !filter_nil, !app_nil_r. cbn [fst].
      rewrite (decide_False (P := (1, wenc_epoch_id _) = _)) by (intros [= H]; exact (epoch_id_hash_disjoint _ _ H)).
      rewrite (decide_False (P := (1, wenc_hash (LATEST_EPOCH_KEY digest)) = _))
        by (intros [= H]; apply wenc_hash_inj in H; congruence).
      rewrite app_nil_r. cbn [app].
      destruct (decide (epoch_index_key digest e = h)) as [<-|Hne].
      + rewrite decide_True by reflexivity. reflexivity.
      + rewrite decide_False; [reflexivity|]. intros [= H]. apply wenc_hash_inj in H. congruence.
    - cbn [update_latest_proof concat]. unfold ad_insert, ad_key.
      cbn [LatestProofSchema sc_cat sc_kenc sc_venc rocks_col app].
      rewrite filter_cons_False; [reflexivity|]. cbn [fst]. intros [= H]. apply wenc_hash_inj in H. congruence.
  Qed.

  (** *** Latest epoch and proof *)
  Context (ops : list st_op) (Hnc : no_collision digest (digest_inputs ops)).

  Lemma header_nonfixed h b : wenc_header h = b -> b <> ascii "latest_hash"%string /\ b <> ascii "latest_proof"%string.
  Proof.
    intros <-. unfold wenc_header, wenc, m_header, to_header. rewrite pencode_cons.
    cbn [p_opt pc_out]. unfold ser at 1. cbn [map concat]. unfold ser_field. cbn [fst snd wire_payload wire_type].
    change (varint (1 * 8 + 2)) with [x0a].
    rewrite <- !app_assoc. cbn [app]. split; discriminate.
  Qed.

  Lemma in_inputs e : e ∈ written_epochs ops -> wenc_header (ep_header e) ∈ digest_inputs ops.
  Proof.
    intros H. unfold digest_inputs. apply elem_of_cons; right. apply elem_of_cons; right.
    apply elem_of_list_fmap_1_alt with e; [exact H|reflexivity].
  Qed.

  Lemma key_not_latest e : e ∈ written_epochs ops ->
    epoch_index_key digest e <> LATEST_EPOCH_KEY digest /\ epoch_index_key digest e <> LATEST_PROOF_KEY digest.
  Proof.
    intros He. unfold epoch_index_key, LATEST_EPOCH_KEY, LATEST_PROOF_KEY.
    destruct (header_nonfixed (ep_header e) _ eq_refl) as [N1 N2].
    split; intros H; apply Hnc in H; try (apply in_inputs, He); try congruence.
    - apply elem_of_cons; left; reflexivity.
    - apply elem_of_cons; right. apply elem_of_cons; left; reflexivity.
  Qed.

  Lemma latest_keys_differ : LATEST_EPOCH_KEY digest <> LATEST_PROOF_KEY digest.
  Proof.
    unfold LATEST_EPOCH_KEY, LATEST_PROOF_KEY. intros H. apply Hnc in H; [discriminate| |].
    - apply elem_of_cons; left; reflexivity.
    - apply elem_of_cons; right. apply elem_of_cons; left; reflexivity.
  Qed.

  Lemma op_in_epochs e : InsEpoch e ∈ ops -> e ∈ written_epochs ops.
  Proof.
    clear Hnc. intros H. unfold written_epochs. apply elem_of_list_In, in_concat. exists [e].
    split; [|left; reflexivity].
    apply in_map_iff. exists (InsEpoch e). split; [reflexivity|]. apply elem_of_list_In, H.
  Qed.

  Lemma latest_epoch_lookup :
    after rocks_col digest ops !! (1, wenc_hash (LATEST_EPOCH_KEY digest)) =
      match last (written_epochs ops) with Some e => Some (wenc_epoch e) | None => None end.
  Proof.
    unfold written_epochs. apply after_lookup_in. intros [l|l|e|p] Ho; cbn [op_writes].
    - cbn [insert_transactions concat]. rewrite app_nil_r. apply batch_filter_other. discriminate.
    - cbn [insert_receipts concat]. rewrite app_nil_r. apply batch_filter_other. discriminate.
    - cbn [insert_epoch concat app]. unfold ad_insert, ad_key.
      cbn [EpochSchema HashEpochSchema LatestEpochSchema sc_cat sc_kenc sc_venc rocks_col app].
      rewrite !filter_pick, !filter_nil, !app_nil_r. cbn [fst].
      rewrite (decide_False (P := (1, wenc_epoch_id _) = _)) by (intros [= H]; exact (epoch_id_hash_disjoint _ _ H)).
      rewrite (decide_False (P := (1, wenc_hash (epoch_index_key digest e)) = _)).
      2:{ intros [= H]. apply wenc_hash_inj in H. exact (proj1 (key_not_latest e (op_in_epochs e Ho)) H). }
      rewrite decide_True by reflexivity. reflexivity.
    - cbn [update_latest_proof concat]. unfold ad_insert, ad_key.
      cbn [LatestProofSchema sc_cat sc_kenc sc_venc rocks_col app].
      rewrite filter_cons_False; [reflexivity|]. cbn [fst]. intros [= H]. apply wenc_hash_inj in H.
      exact (latest_keys_differ (eq_sym H)).
  Qed.

  Lemma latest_proof_lookup :
    after rocks_col digest ops !! (1, wenc_hash (LATEST_PROOF_KEY digest)) =
      match last (written_proofs ops) with Some e => Some (wenc_proof e) | None => None end.
  Proof.
    unfold written_proofs. apply after_lookup_in. intros [l|l|e|p] Ho; cbn [op_writes].
    - cbn [insert_transactions concat]. rewrite app_nil_r. apply batch_filter_other. discriminate.
    - cbn [insert_receipts concat]. rewrite app_nil_r. apply batch_filter_other. discriminate.
    - cbn [insert_epoch concat app]. unfold ad_insert, ad_key.
      cbn [EpochSchema HashEpochSchema LatestEpochSchema sc_cat sc_kenc sc_venc rocks_col app].
      rewrite !filter_pick, !filter_nil, !app_nil_r. cbn [fst].
      rewrite (decide_False (P := (1, wenc_epoch_id _) = _)) by (intros [= H]; exact (epoch_id_hash_disjoint _ _ H)).
      rewrite (decide_False (P := (1, wenc_hash (epoch_index_key digest e)) = _)).
      2:{ intros [= H]. apply wenc_hash_inj in H. exact (proj2 (key_not_latest e (op_in_epochs e Ho)) H). }
      rewrite decide_False; [reflexivity|]. intros [= H]. apply wenc_hash_inj in H. exact (latest_keys_differ H).
    - cbn [update_latest_proof concat]. unfold ad_insert, ad_key.
      cbn [LatestProofSchema sc_cat sc_kenc sc_venc rocks_col app].
      rewrite filter_cons_True by reflexivity. reflexivity.
  Qed.
End Rocks.
