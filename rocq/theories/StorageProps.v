(** * Lemmas behind C50-C53, C55, C56. *)
From Verif Require Import Base BaseFacts Hex Types Rlp RlpFacts FixedCodec FixedCodecFacts CodecProps Proto ProtoFacts Wire WireFacts
  Storage StorageSpec StorageFacts.
From Coq Require Strings.String.
Import String.StringSyntax.
Delimit Scope string_scope with string.
Local Open Scope N_scope.

Lemma in_written_txs ops t : t ∈ written_txs ops -> exists l, InsTransactions l ∈ ops /\ t ∈ l.
Proof.
  unfold written_txs. rewrite elem_of_list_In, in_concat. intros (l & Hl & Ht).
  apply in_map_iff in Hl as (o & <- & Ho). destruct o as [l| | |]; try contradiction Ht.
  exists l. rewrite !elem_of_list_In. auto.
Qed.
Lemma in_written_receipts ops t : t ∈ written_receipts ops -> exists l, InsReceipts l ∈ ops /\ t ∈ l.
Proof.
  unfold written_receipts. rewrite elem_of_list_In, in_concat. intros (l & Hl & Ht).
  apply in_map_iff in Hl as (o & <- & Ho). destruct o as [|l| |]; try contradiction Ht.
  exists l. rewrite !elem_of_list_In. auto.
Qed.
Lemma in_written_epochs ops e : e ∈ written_epochs ops -> InsEpoch e ∈ ops.
Proof.
  unfold written_epochs. rewrite elem_of_list_In, in_concat. intros (l & Hl & Ht).
  apply in_map_iff in Hl as (o & <- & Ho). destruct o as [| |e'|]; try contradiction Ht.
  destruct Ht as [->|[]]. rewrite elem_of_list_In. auto.
Qed.
Lemma in_written_proofs ops e : e ∈ written_proofs ops -> UpdProof e ∈ ops.
Proof.
  unfold written_proofs. rewrite elem_of_list_In, in_concat. intros (l & Hl & Ht).
  apply in_map_iff in Hl as (o & <- & Ho). destruct o as [| | |e']; try contradiction Ht.
  destruct Ht as [->|[]]. rewrite elem_of_list_In. auto.
Qed.

Lemma last_filter_in {A} (P : A -> Prop) `{forall x, Decision (P x)} l x :
  last (filter P l) = Some x -> x ∈ l /\ P x.
Proof. intros E. apply last_Some_elem_of in E. apply elem_of_list_filter in E. tauto. Qed.

Section Reads.
  Context (digest : bytes -> hash) (ops : list st_op) (Hok : Forall op_ok ops).
  Notation m := (after rocks_col digest ops).

  Lemma ok_of o : o ∈ ops -> op_ok o.
  Proof. intros H. rewrite Forall_forall in Hok. auto. Qed.

  Lemma stored_tx_ok h t : last_tx ops h = Some t -> wdec_signed (wenc_signed t) = Ok t.
  Proof.
    intros E. apply last_filter_in in E as [E _]. apply in_written_txs in E as (l & Hl & Ht).
    apply ok_of in Hl. cbn [op_ok] in Hl. rewrite Forall_forall in Hl. destruct (Hl _ Ht). apply wdec_tx_plain; auto.
  Qed.
  Lemma stored_receipt_ok h t : last_receipt ops h = Some t -> wdec_receipt (wenc_receipt t) = Ok t.
  Proof.
    intros E. apply last_filter_in in E as [E _]. apply in_written_receipts in E as (l & Hl & Ht).
    apply ok_of in Hl. cbn [op_ok] in Hl. rewrite Forall_forall in Hl. destruct (Hl _ Ht). apply wdec_receipt_plain; auto.
  Qed.
  Lemma stored_epoch_ok e : e ∈ written_epochs ops -> wdec_epoch (wenc_epoch e) = Ok e.
  Proof. intros E. apply in_written_epochs in E. apply ok_of in E. apply wire_epoch, E. Qed.
  Lemma stored_proof_ok e : e ∈ written_proofs ops -> wdec_proof (wenc_proof e) = Ok e.
  Proof. intros E. apply in_written_proofs in E. apply ok_of in E. apply wire_proof, E. Qed.

  Lemma read_tx_opt h : ad_get rocks_col TransactionSchema m h = Ok (last_tx ops h).
  Proof.
    unfold ad_get, ad_key. cbn [TransactionSchema sc_cat sc_kenc sc_vdec rocks_col].
    rewrite tx_lookup. destruct (last_tx ops h) as [t|] eqn:E; [|reflexivity].
    rewrite (stored_tx_ok _ _ E). reflexivity.
  Qed.
  Lemma read_receipt_opt h : ad_get rocks_col ReceiptSchema m h = Ok (last_receipt ops h).
  Proof.
    unfold ad_get, ad_key. cbn [ReceiptSchema sc_cat sc_kenc sc_vdec rocks_col].
    rewrite receipt_lookup. destruct (last_receipt ops h) as [t|] eqn:E; [|reflexivity].
    rewrite (stored_receipt_ok _ _ E). reflexivity.
  Qed.
  Lemma read_tx h : get_transaction_by_hash rocks_col m h = or_none (last_tx ops h).
  Proof. unfold get_transaction_by_hash, get_or_none. rewrite read_tx_opt. destruct (last_tx ops h); reflexivity. Qed.
  Lemma read_receipt h : get_receipt rocks_col m h = or_none (last_receipt ops h).
  Proof. unfold get_receipt, get_or_none. rewrite read_receipt_opt. destruct (last_receipt ops h); reflexivity. Qed.
  Lemma read_txs hs : get_transactions rocks_col m hs = Ok (omap (last_tx ops) hs).
  Proof.
    unfold get_transactions.
    assert (ad_get_batch rocks_col TransactionSchema m hs = Ok (map (last_tx ops) hs)) as ->.
    { induction hs as [|h hs IH]; [reflexivity|]. cbn [ad_get_batch map]. rewrite read_tx_opt. cbn [rbind].
      rewrite IH. reflexivity. }
    cbn [rbind]. f_equal. unfold opts_to_flat. induction hs as [|h hs IH]; [reflexivity|].
    cbn [map omap list_omap]. unfold id at 1. destruct (last_tx ops h); [f_equal|]; exact IH.
  Qed.
  Lemma read_receipts hs : get_receipts rocks_col m hs = Ok (omap (last_receipt ops) hs).
  Proof.
    unfold get_receipts.
    assert (ad_get_batch rocks_col ReceiptSchema m hs = Ok (map (last_receipt ops) hs)) as ->.
    { induction hs as [|h hs IH]; [reflexivity|]. cbn [ad_get_batch map]. rewrite read_receipt_opt. cbn [rbind].
      rewrite IH. reflexivity. }
    cbn [rbind]. f_equal. unfold opts_to_flat. induction hs as [|h hs IH]; [reflexivity|].
    cbn [map omap list_omap]. unfold id at 1. destruct (last_receipt ops h); [f_equal|]; exact IH.
  Qed.
  Lemma read_epoch i : get_epoch_by_epoch_id rocks_col m i = or_none (last_epoch_at ops i).
  Proof.
    unfold get_epoch_by_epoch_id, get_or_none, ad_get, ad_key. cbn [EpochSchema sc_cat sc_kenc sc_vdec rocks_col].
    rewrite epoch_lookup. destruct (last_epoch_at ops i) as [e|] eqn:E; [|reflexivity].
    rewrite stored_epoch_ok; [reflexivity|]. apply last_filter_in in E. apply E.
  Qed.
  Lemma read_epoch_by_hash h :
    h <> LATEST_EPOCH_KEY digest -> h <> LATEST_PROOF_KEY digest ->
    get_epoch_by_hash rocks_col m h =
      match last_epoch_hashed digest ops h with
      | Some e => or_none (last_epoch_at ops (eh_epoch_id (ep_header e)))
      | None => Err GetNone
      end.
  Proof.
    intros H1 H2. unfold get_epoch_by_hash. unfold get_or_none at 1, ad_get, ad_key.
    cbn [HashEpochSchema sc_cat sc_kenc sc_vdec rocks_col].
    rewrite index_lookup by assumption. destruct (last_epoch_hashed digest ops h) as [e|]; [|reflexivity].
    rewrite wire_epoch_id. cbn [map_err rbind ok_or]. apply read_epoch.
  Qed.

  Context (Hnc : no_collision digest (digest_inputs ops)).
  Lemma read_latest_epoch : get_latest_epoch rocks_col digest m = or_none (last (written_epochs ops)).
  Proof.
    unfold get_latest_epoch, get_or_none, ad_get, ad_key. cbn [LatestEpochSchema sc_cat sc_kenc sc_vdec rocks_col].
    rewrite latest_epoch_lookup by exact Hnc. destruct (last (written_epochs ops)) as [e|] eqn:E; [|reflexivity].
    rewrite stored_epoch_ok; [reflexivity|]. apply last_Some_elem_of in E. exact E.
  Qed.
  Lemma read_latest_proof : get_latest_proof rocks_col digest m = or_none (last (written_proofs ops)).
  Proof.
    unfold get_latest_proof, get_or_none, ad_get, ad_key. cbn [LatestProofSchema sc_cat sc_kenc sc_vdec rocks_col].
    rewrite latest_proof_lookup by exact Hnc. destruct (last (written_proofs ops)) as [e|] eqn:E; [|reflexivity].
    rewrite stored_proof_ok; [reflexivity|]. apply last_Some_elem_of in E. exact E.
  Qed.

  (** A written epoch is found by its own index key (as long as the header
      encodings do not collide, its id). *)
  Lemma index_finds e : e ∈ written_epochs ops -> fits (wenc_header (ep_header e)) ->
    get_epoch_by_hash rocks_col m (epoch_index_key digest e) = or_none (last_epoch_at ops (eh_epoch_id (ep_header e))).
  Proof.
    intros He Hf. destruct (key_not_latest digest ops Hnc e He) as [N1 N2].
    rewrite read_epoch_by_hash by assumption.
    destruct (last_epoch_hashed digest ops (epoch_index_key digest e)) as [e'|] eqn:E.
    - apply last_filter_in in E as [He' Ek]. unfold epoch_index_key in Ek. apply Hnc in Ek.
      + assert (ep_header e' = ep_header e) as ->; [|reflexivity].
        symmetry in Ek. pose proof (wire_header _ Hf) as R. rewrite Ek in R, Hf.
        rewrite wire_header in R by exact Hf. congruence.
      + apply in_inputs, He'.
      + apply in_inputs, He.
    - exfalso. unfold last_epoch_hashed in E. apply last_None in E.
      assert (e ∈ filter (fun x => epoch_index_key digest x = epoch_index_key digest e) (written_epochs ops)) as X
        by (apply elem_of_list_filter; auto).
      rewrite E in X. inversion X.
  Qed.
End Reads.

(** ** C53 *)
Lemma enc_list_head l : fits (enc_list l) -> exists b r, enc_list l = b :: r /\ 192 <= bN b.
Proof.
  unfold enc_list, fits. set (p := concat l). intros Hf. rewrite blen_app in Hf.
  unfold enc_len in *. destruct (N.leb_spec (blen p) 55) as [H|H].
  - exists (byte_of (192 + blen p)), p. split; [reflexivity|]. rewrite bN_byte_of_small by lia. lia.
  - exists (byte_of (247 + blen (be_min (blen p)))), (be_min (blen p) ++ p). split; [reflexivity|].
    assert (blen (be_min (blen p)) <= 8).
    { apply be_min_len. change (256 ^ 8) with two64. lia. }
    rewrite bN_byte_of_small by lia. lia.
Qed.

Lemma wenc_header_head h : exists r, wenc_header h = x0a :: r.
Proof.
  unfold wenc_header, wenc, m_header, to_header. rewrite pencode_cons.
  cbn [p_opt pc_out]. unfold ser at 1. cbn [map concat]. unfold ser_field. cbn [fst snd wire_payload wire_type].
  change (varint (1 * 8 + 2)) with [x0a]. rewrite <- !app_assoc. cbn [app]. eexists; reflexivity.
Qed.

Lemma fixed_not_wire e h : fits (enc_epoch e) -> enc_epoch e <> wenc_header h.
Proof.
  intros Hf H. unfold enc_epoch in *. destruct (enc_list_head _ Hf) as (b & r & E & Hb).
  destruct (wenc_header_head h) as (r' & E'). rewrite E, E' in H. injection H as -> _.
  vm_compute in Hb. apply Hb. reflexivity.
Qed.
Lemma fixed_not_ascii e x l : fits (enc_epoch e) -> bN x < 192 -> enc_epoch e <> x :: l.
Proof.
  intros Hf Hx H. unfold enc_epoch in *. destruct (enc_list_head _ Hf) as (b & r & E & Hb).
  rewrite E in H. injection H as -> _. lia.
Qed.

Lemma parent_not_found digest ops e :
  Forall op_ok ops -> fits (enc_epoch e) ->
  no_collision digest (enc_epoch e :: digest_inputs ops) ->
  get_epoch_by_hash rocks_col (after rocks_col digest ops) (digest (enc_epoch e)) = Err GetNone.
Proof.
  intros Hok Hf Hnc.
  assert (forall b, b ∈ digest_inputs ops -> digest (enc_epoch e) <> digest b) as Hne.
  { intros b Hb H. apply Hnc in H; [|left|right; exact Hb]. subst b.
    unfold digest_inputs in Hb. apply elem_of_cons in Hb as [H|Hb].
    { revert H. apply fixed_not_ascii; [exact Hf|reflexivity]. }
    apply elem_of_cons in Hb as [H|Hb].
    { revert H. apply fixed_not_ascii; [exact Hf|reflexivity]. }
    apply elem_of_list_fmap in Hb as (e' & H & _). exact (fixed_not_wire _ _ Hf H). }
  rewrite read_epoch_by_hash.
  - destruct (last_epoch_hashed digest ops (digest (enc_epoch e))) as [e'|] eqn:E; [|reflexivity].
    exfalso. apply last_filter_in in E as [He' Ek]. symmetry in Ek.
    exact (Hne _ (in_inputs ops e' He') Ek).
  - exact Hok.
  - apply Hne. left.
  - apply Hne. right. left.
Qed.

(** ** C55: crash points *)
Section Crash.
  Context (digest : bytes -> hash).

  Definition has_id (m : db) (i : u64) : Prop :=
    exists e, m !! (1, wenc_epoch_id (MkEpochId i)) = Some (wenc_epoch e) /\ fits (wenc_epoch e) /\
              eh_epoch_id (ep_header e) = i.

  Definition consistent (m : db) : Prop :=
    (forall h b, h <> LATEST_EPOCH_KEY digest -> h <> LATEST_PROOF_KEY digest ->
       m !! (1, wenc_hash h) = Some b -> exists i, b = wenc_epoch_id (MkEpochId i) /\ has_id m i) /\
    (forall b, m !! (1, wenc_hash (LATEST_EPOCH_KEY digest)) = Some b ->
       exists e, b = wenc_epoch e /\ fits (wenc_epoch e) /\ has_id m (eh_epoch_id (ep_header e))).

  (** Writes outside the epoch column. *)
  Lemma other_column m (w : list (dbkey * option bytes)) k :
    (forall p, p ∈ w -> fst (fst p) <> 1) -> apply_write m w !! (1, k) = m !! (1, k).
  Proof.
    intros H. rewrite lookup_apply_write.
    destruct (last _) as [p|] eqn:E; [|reflexivity].
    apply last_Some_elem_of in E. apply elem_of_list_filter in E as [E1 E2].
    exfalso. apply (H _ E2). rewrite E1. reflexivity.
  Qed.

  Lemma consistent_ext m m' : (forall k, m' !! (1, k) = m !! (1, k)) -> consistent m -> consistent m'.
  Proof.
    intros E [C1 C2]. split.
    - intros h b H1 H2. rewrite E. intros Hb. destruct (C1 h b H1 H2 Hb) as (i & -> & e & He).
      exists i. split; [reflexivity|]. exists e. rewrite E. exact He.
    - intros b. rewrite E. intros Hb. destruct (C2 b Hb) as (e & -> & Hf & e' & He).
      exists e. split; [reflexivity|]. split; [exact Hf|]. exists e'. rewrite E. exact He.
  Qed.

  Lemma step1 m e : fits (wenc_epoch e) -> consistent m ->
    consistent (apply_write m (ad_insert rocks_col EpochSchema (MkEpochId (eh_epoch_id (ep_header e))) e)) /\
    has_id (apply_write m (ad_insert rocks_col EpochSchema (MkEpochId (eh_epoch_id (ep_header e))) e))
      (eh_epoch_id (ep_header e)).
  Proof.
    intros Hf [C1 C2]. set (m' := apply_write _ _).
    assert (m' = <[(1, wenc_epoch_id (MkEpochId (eh_epoch_id (ep_header e)))) := wenc_epoch e]> m) as Em by reflexivity.
    clearbody m'. subst m'.
    assert (forall i, has_id m i -> has_id (<[(1, wenc_epoch_id (MkEpochId (eh_epoch_id (ep_header e)))) := wenc_epoch e]> m) i) as Hmono.
    { intros i (e' & H1 & H2 & H3). destruct (decide (i = eh_epoch_id (ep_header e))) as [->|Hne].
      - exists e. rewrite lookup_insert. auto.
      - exists e'. rewrite lookup_insert_ne; [auto|]. intros [= H]. apply wenc_epoch_id_inj in H. congruence. }
    repeat split.
    - intros h b H1 H2. rewrite lookup_insert_ne by (intros [= H]; exact (epoch_id_hash_disjoint _ _ H)).
      intros Hb. destruct (C1 h b H1 H2 Hb) as (i & -> & Hi). exists i. auto.
    - intros b. rewrite lookup_insert_ne by (intros [= H]; exact (epoch_id_hash_disjoint _ _ H)).
      intros Hb. destruct (C2 b Hb) as (e' & -> & Hf' & Hi). exists e'. auto.
    - exists e. rewrite lookup_insert. auto.
  Qed.

  Lemma hash_write_has_id m h v i :
    has_id m i -> has_id (<[(1, wenc_hash h) := v]> m) i.
  Proof.
    intros (e & H1 & H2). exists e. rewrite lookup_insert_ne; [auto|].
    intros [= H]. exact (epoch_id_hash_disjoint _ _ (eq_sym H)).
  Qed.

  Lemma step2 m h i : h <> LATEST_EPOCH_KEY digest -> has_id m i -> consistent m ->
    consistent (apply_write m (ad_insert rocks_col HashEpochSchema h (MkEpochId i))).
  Proof.
    intros Hl Hi [C1 C2].
    change (apply_write _ _) with (<[(1, wenc_hash h) := wenc_epoch_id (MkEpochId i)]> m).
    split.
    - intros h' b H1 H2. destruct (decide (h' = h)) as [->|Hne].
      + rewrite lookup_insert. intros [= <-]. exists i. split; [reflexivity|]. apply hash_write_has_id, Hi.
      + rewrite lookup_insert_ne by (intros [= H]; apply wenc_hash_inj in H; congruence).
        intros Hb. destruct (C1 h' b H1 H2 Hb) as (j & -> & Hj). exists j. split; [reflexivity|].
        apply hash_write_has_id, Hj.
    - intros b. rewrite lookup_insert_ne by (intros [= H]; apply wenc_hash_inj in H; congruence).
      intros Hb. destruct (C2 b Hb) as (e' & -> & Hf' & Hj). exists e'. repeat split; auto. apply hash_write_has_id, Hj.
  Qed.

  Lemma step3 m e : fits (wenc_epoch e) -> has_id m (eh_epoch_id (ep_header e)) -> consistent m ->
    consistent (apply_write m (ad_insert rocks_col LatestEpochSchema (LATEST_EPOCH_KEY digest) e)).
  Proof.
    intros Hf Hi [C1 C2].
    change (apply_write _ _) with (<[(1, wenc_hash (LATEST_EPOCH_KEY digest)) := wenc_epoch e]> m).
    split.
    - intros h' b H1 H2. rewrite lookup_insert_ne by (intros [= H]; apply wenc_hash_inj in H; congruence).
      intros Hb. destruct (C1 h' b H1 H2 Hb) as (j & -> & Hj). exists j. split; [reflexivity|].
      apply hash_write_has_id, Hj.
    - intros b. rewrite lookup_insert. intros [= <-]. exists e. repeat split; auto. apply hash_write_has_id, Hi.
  Qed.

  Lemma step_proof m p : LATEST_EPOCH_KEY digest <> LATEST_PROOF_KEY digest -> consistent m ->
    consistent (apply_write m (ad_insert rocks_col LatestProofSchema (LATEST_PROOF_KEY digest) p)).
  Proof.
    intros Hl [C1 C2].
    change (apply_write _ _) with (<[(1, wenc_hash (LATEST_PROOF_KEY digest)) := wenc_proof p]> m).
    split.
    - intros h' b H1 H2. rewrite lookup_insert_ne by (intros [= H]; apply wenc_hash_inj in H; congruence).
      intros Hb. destruct (C1 h' b H1 H2 Hb) as (j & -> & Hj). exists j. split; [reflexivity|].
      apply hash_write_has_id, Hj.
    - intros b. rewrite lookup_insert_ne by (intros [= H]; apply wenc_hash_inj in H; congruence).
      intros Hb. destruct (C2 b Hb) as (e' & -> & Hf' & Hj). exists e'. repeat split; auto. apply hash_write_has_id, Hj.
  Qed.

  Lemma batch_other_column {V} (s : schema hash V) (key : V -> hash) l p :
    rocks_col (sc_cat s) <> 1 -> p ∈ batch_insert rocks_col s key l -> fst (fst p) <> 1.
  Proof.
    intros H Hp. unfold batch_insert in Hp. apply elem_of_list_fmap in Hp as (v & -> & _). exact H.
  Qed.

  Lemma op_consistent o n m :
    op_ok o ->
    (forall e, o = InsEpoch e -> epoch_index_key digest e <> LATEST_EPOCH_KEY digest) ->
    LATEST_EPOCH_KEY digest <> LATEST_PROOF_KEY digest ->
    consistent m -> consistent (apply_writes m (take n (op_writes rocks_col digest o))).
  Proof.
    intros Hok Hk Hl C. destruct o as [l|l|e|p]; cbn [op_writes].
    - destruct n as [|n]; [exact C|]. cbn [insert_transactions take]. rewrite take_nil.
      change (apply_writes m [?w]) with (apply_write m w).
      eapply consistent_ext; [|exact C]. intros k. apply other_column. intros p. apply batch_other_column. discriminate.
    - destruct n as [|n]; [exact C|]. cbn [insert_receipts take]. rewrite take_nil.
      change (apply_writes m [?w]) with (apply_write m w).
      eapply consistent_ext; [|exact C]. intros k. apply other_column. intros p. apply batch_other_column. discriminate.
    - cbn [op_ok] in Hok. specialize (Hk e eq_refl). destruct (step1 m e Hok C) as [S1 I1].
      unfold insert_epoch.
      destruct n as [|[|[|n]]]; cbn [take]; rewrite ?take_nil.
      + exact C.
      + exact S1.
      + change (apply_writes m [?a; ?b]) with (apply_write (apply_write m a) b). apply step2; assumption.
      + change (apply_writes m [?a; ?b; ?c]) with (apply_write (apply_write (apply_write m a) b) c).
        apply step3; [assumption| |apply step2; assumption].
        apply hash_write_has_id. exact I1.
    - destruct n as [|n]; [exact C|]. cbn [update_latest_proof take]. rewrite take_nil.
      change (apply_writes m [?w]) with (apply_write m w). apply step_proof; assumption.
  Qed.

  Lemma history_consistent ops n m :
    Forall op_ok ops ->
    (forall e, InsEpoch e ∈ ops -> epoch_index_key digest e <> LATEST_EPOCH_KEY digest) ->
    LATEST_EPOCH_KEY digest <> LATEST_PROOF_KEY digest ->
    consistent m -> consistent (apply_writes m (take n (history_writes rocks_col digest ops))).
  Proof.
    intros Hok Hk Hl. revert n m; induction ops as [|o ops IH]; intros n m C.
    - unfold history_writes. cbn [map concat]. rewrite take_nil. exact C.
    - apply Forall_cons in Hok as [Ho Hok]. unfold history_writes in *. cbn [map concat].
      rewrite firstn_app. unfold apply_writes. rewrite fold_left_app. apply IH.
      + exact Hok.
      + intros e He. apply Hk. right. exact He.
      + apply op_consistent; auto. intros e ->. apply Hk. left.
  Qed.

  Lemma empty_consistent : consistent ∅.
  Proof. split; intros *; rewrite ?lookup_empty; intros; rewrite ?lookup_empty in *; discriminate. Qed.

  Lemma has_id_read m i : has_id m i ->
    exists e, get_epoch_by_epoch_id rocks_col m i = Ok e /\ eh_epoch_id (ep_header e) = i.
  Proof.
    intros (e & H1 & H2 & H3). exists e. split; [|exact H3].
    unfold get_epoch_by_epoch_id, get_or_none, ad_get, ad_key. cbn [EpochSchema sc_cat sc_kenc sc_vdec rocks_col].
    rewrite H1, (wire_epoch e H2). reflexivity.
  Qed.

  Lemma consistent_reads m : consistent m ->
    (forall e, get_latest_epoch rocks_col digest m = Ok e ->
       exists e', get_epoch_by_epoch_id rocks_col m (eh_epoch_id (ep_header e)) = Ok e' /\
                  eh_epoch_id (ep_header e') = eh_epoch_id (ep_header e)) /\
    (forall h, h <> LATEST_EPOCH_KEY digest -> h <> LATEST_PROOF_KEY digest ->
       ad_contains rocks_col HashEpochSchema m h = true -> exists e, get_epoch_by_hash rocks_col m h = Ok e).
  Proof.
    intros [C1 C2]. split.
    - intros e. unfold get_latest_epoch, get_or_none, ad_get, ad_key. cbn [LatestEpochSchema sc_cat sc_kenc sc_vdec rocks_col].
      destruct (m !! (1, wenc_hash (LATEST_EPOCH_KEY digest))) as [b|] eqn:E; [|intros X; discriminate X].
      destruct (C2 b eq_refl) as (e' & -> & Hf & Hi).
      rewrite (wire_epoch e' Hf). cbn [map_err rbind ok_or]. intros [= <-]. apply has_id_read, Hi.
    - intros h H1 H2. unfold ad_contains, ad_key. cbn [HashEpochSchema sc_cat sc_kenc rocks_col].
      destruct (m !! (1, wenc_hash h)) as [b|] eqn:E; [|intros X; discriminate X]. intros _.
      destruct (C1 h b H1 H2 E) as (i & -> & Hi). destruct (has_id_read _ _ Hi) as (e & He & _). exists e.
      unfold get_epoch_by_hash. unfold get_or_none at 1, ad_get, ad_key. cbn [HashEpochSchema sc_cat sc_kenc sc_vdec rocks_col].
      rewrite E, wire_epoch_id. exact He.
  Qed.
End Crash.

(** ** C56: one schema of an adapter is a map *)
Section Map.
  Context {K V : Type} `{EqDecision K} (col : category -> N) (s : schema K V).
  Context (Hk : forall a b, sc_kenc s a = sc_kenc s b -> a = b).

  Definition agrees (m : db) (f : K -> option V) : Prop :=
    forall k, m !! ad_key col s k = match f k with Some v => Some (sc_venc s v) | None => None end /\
              match f k with Some v => sc_vdec s (sc_venc s v) = Ok v | None => True end.

  Lemma agrees_upd m f k v :
    match v with Some v => sc_vdec s (sc_venc s v) = Ok v | None => True end ->
    agrees m f ->
    agrees (apply1 m (ad_key col s k, match v with Some v => Some (sc_venc s v) | None => None end)) (upd f k v).
  Proof.
    intros Hv A x. unfold upd, apply1. cbn [fst snd]. destruct (decide (x = k)) as [->|Hne].
    - split; [|exact Hv]. destruct v; [rewrite lookup_insert|rewrite lookup_delete]; reflexivity.
    - destruct (A x) as [A1 A2]. split; [|exact A2]. rewrite <- A1.
      destruct v; [rewrite lookup_insert_ne|rewrite lookup_delete_ne]; auto;
        unfold ad_key; intros [= H]; apply Hk in H; congruence.
  Qed.

  Lemma agrees_step m f o : values_ok s o -> agrees m f -> agrees (ad_step col s m o) (spec_step f o).
  Proof.
    destruct o as [k v|k|ks vs]; intros Hv A.
    - exact (agrees_upd m f k (Some v) Hv A).
    - exact (agrees_upd m f k None I A).
    - cbn [ad_step spec_step values_ok] in *. unfold ad_batch.
      destruct (Nat.eqb_spec (length ks) (length vs)) as [E|E]; [|exact A].
      assert (Forall (fun p : K * option V => match snd p with Some v => sc_vdec s (sc_venc s v) = Ok v | None => True end)
                (combine ks vs)) as Hc.
      { apply Forall_forall. intros [k v] Hp. rewrite elem_of_list_In in Hp. apply in_combine_r in Hp.
        rewrite Forall_forall in Hv. apply Hv. rewrite elem_of_list_In. exact Hp. }
      clear Hv E. revert m f A. induction (combine ks vs) as [|[k v] l IH]; intros m f A; [exact A|].
      apply Forall_cons in Hc as [H1 H2]. cbn [map fold_left apply_write].
      apply (IH H2). apply agrees_upd; [exact H1|exact A].
  Qed.

  Lemma agrees_run ops m f : Forall (values_ok s) ops -> agrees m f ->
    agrees (fold_left (ad_step col s) ops m) (fold_left spec_step ops f).
  Proof.
    revert m f; induction ops as [|o ops IH]; intros m f H A; [exact A|].
    apply Forall_cons in H as [H1 H2]. cbn [fold_left]. apply IH; [exact H2|]. apply agrees_step; assumption.
  Qed.

  Lemma agrees_get m f k : agrees m f ->
    ad_get col s m k = Ok (f k) /\ ad_contains col s m k = match f k with Some _ => true | None => false end.
  Proof.
    intros A. destruct (A k) as [A1 A2]. unfold ad_get, ad_contains. rewrite A1.
    destruct (f k); [rewrite A2|]; auto.
  Qed.
  (** The same for any values: what is found is what the codec makes of the value written last. *)
  Definition holds_bytes (m : db) (f : K -> option V) : Prop :=
    forall k, m !! ad_key col s k = match f k with Some v => Some (sc_venc s v) | None => None end.
  Lemma bytes_upd (m : db) (f : K -> option V) (k : K) (v : option V) : holds_bytes m f ->
    holds_bytes (apply1 m (ad_key col s k, match v with Some v => Some (sc_venc s v) | None => None end)) (upd f k v).
  Proof.
    intros A x. unfold upd, apply1. cbn [fst snd]. destruct (decide (x = k)) as [-> | Hne].
    - destruct v; [rewrite lookup_insert|rewrite lookup_delete]; reflexivity.
    - rewrite <- (A x).
      destruct v; [rewrite lookup_insert_ne|rewrite lookup_delete_ne]; auto;
        unfold ad_key; intros [= H]; apply Hk in H; congruence.
  Qed.
  Lemma bytes_run ops : forall (m : db) (f : K -> option V), holds_bytes m f ->
    holds_bytes (fold_left (ad_step col s) ops m) (fold_left spec_step ops f).
  Proof.
    induction ops as [|o ops IH]; intros m f A; [exact A|]. cbn [fold_left]. apply IH. clear IH ops.
    destruct o as [k v|k|ks vs].
    - exact (bytes_upd m f k (Some v) A).
    - exact (bytes_upd m f k None A).
    - cbn [ad_step spec_step]. unfold ad_batch.
      destruct (Nat.eqb_spec (length ks) (length vs)) as [E|E]; [|exact A]. clear E.
      revert m f A. induction (combine ks vs) as [|[k v] l IH]; intros m f A; [exact A|].
      cbn [map fold_left apply_write]. apply IH, bytes_upd, A.
  Qed.
End Map.
