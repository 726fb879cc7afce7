(** * Messages between nodes: C48, C66; Merkle roots: C68. *)
From Verif Require Import Base BaseFacts Hex Types Rlp RlpFacts FixedCodec FixedCodecFacts CodecProps Proto ProtoFacts Wire WireFacts
  Bincode ConsMsg Storage StorageSpec StorageFacts Merkle.
From Coq Require Import Permutation.
Local Open Scope N_scope.

(** ** C66: what one node encodes, another decodes to the same value; bytes
    after a bincode message are ignored. *)
Theorem C66_roundtrip_proposal : forall p, fits (enc_fixed_pill p) -> dec_fixed_pill (enc_fixed_pill p) = Ok p.
Proof. intros p H. unfold dec_fixed_pill, enc_fixed_pill in *. rewrite dec_enc_pill by exact H. reflexivity. Qed.
Print Assumptions C66_roundtrip_proposal.

Theorem C66_roundtrip_epoch_id : forall i rest, dec_fixed_epoch_id (enc_fixed_epoch_id i ++ rest) = Ok i.
Proof. intros i r. unfold dec_fixed_epoch_id, enc_fixed_epoch_id. rewrite bdec_u64_app. reflexivity. Qed.
Print Assumptions C66_roundtrip_epoch_id.

Theorem C66_roundtrip_blob : forall b rest, fits b -> dec_blob (enc_blob b ++ rest) = Ok b.
Proof. intros b r H. unfold dec_blob, enc_blob. rewrite bdec_bytes_app by exact H. reflexivity. Qed.
Print Assumptions C66_roundtrip_blob.

Theorem C66_roundtrip_request : forall r rest, fits (enc_request r) -> dec_request (enc_request r ++ rest) = Ok r.
Proof.
  intros [i|l] rest Hf; unfold dec_request, enc_request in *; rewrite <- app_assoc, dec_le_app by (cbn; lia).
  - cbn [N.eqb]. rewrite C66_roundtrip_epoch_id. reflexivity.
  - unfold dec_hashes, enc_hashes. rewrite dec_enc_multi; [reflexivity| |intros; apply wire_hash].
    unfold fits in *. rewrite blen_app in Hf. unfold enc_hashes in Hf. lia.
Qed.
Print Assumptions C66_roundtrip_request.

(** Lists of transactions (pull answers, new-transaction gossip) and rpc
    responses, when no transaction deploys something else than an asset. *)
Theorem C66_roundtrip_transactions : forall l rest,
  Forall tx_plain l -> fits (enc_txs l) -> dec_txs (enc_txs l ++ rest) = Ok l.
Proof.
  intros l rest Hp Hf. unfold dec_txs, enc_txs in *. apply dec_enc_multi; [exact Hf|].
  intros t Ht. apply wdec_tx_plain; [|exact (multi_fits_elem _ _ _ Ht Hf)].
  rewrite Forall_forall in Hp. apply Hp, Ht.
Qed.
Print Assumptions C66_roundtrip_transactions.

Theorem C66_roundtrip_response :
  (forall e, fits (enc_epoch e) -> dec_response (enc_response (RpEpoch e)) = Ok (RpEpoch e)) /\
  (forall l, Forall tx_plain l -> fits (enc_txs l) -> dec_response (enc_response (RpTxs l)) = Ok (RpTxs l)).
Proof.
  split; intros x H; [|intros Hf]; unfold dec_response, enc_response; rewrite last_snoc, removelast_snoc.
  - rewrite dec_enc_epoch by exact H. reflexivity.
  - pose proof (C66_roundtrip_transactions x [] H Hf) as E. rewrite app_nil_r in E. rewrite E. reflexivity.
Qed.
Print Assumptions C66_roundtrip_response.

(** False: a peer can crash the handler of sync responses with an empty
    message or one whose last byte is not a known tag; deployments of
    applications arrive as deployments of libraries. *)
Theorem C66_response_panics_refuted :
  dec_response [] = Panic /\
  forall b x, x <> x61 -> x <> x62 -> dec_response (b ++ [x]) = Panic.
Proof.
  split; [reflexivity|]. intros b x H1 H2. unfold dec_response. rewrite last_snoc.
  destruct x; try reflexivity; congruence.
Qed.
Print Assumptions C66_response_panics_refuted.

Theorem C66_deployment_altered_refuted : forall c n t f code h pk sg,
  let tx ct := MkSigned (MkRaw c n t f (Deploy code ct)) h pk sg in
  (fits (enc_txs [tx CtApp]) -> dec_txs (enc_txs [tx CtApp]) = Ok [tx CtLibrary]) /\
  (fits (enc_txs [tx CtNative]) -> dec_txs (enc_txs [tx CtNative]) = Err (MWire InvalidContractType)).
Proof.
  intros c n t f code h pk sg tx.
  assert (forall ct, fits (enc_txs [tx ct]) ->
    dec_txs (enc_txs [tx ct]) = map_err MWire (let? x := signed_received (tx ct) in Ok [x])) as G.
  { intros ct Hf. unfold dec_txs, dec_multi, enc_txs, enc_multi in *.
    pose proof (bdec_vec_bytes wenc_signed [tx ct] [] Hf) as E. rewrite app_nil_r in E. rewrite E.
    cbn [map map_res]. rewrite wire_signed.
    2:{ apply (multi_fits_elem wenc_signed [tx ct] (tx ct)); [left|exact Hf]. }
    destruct (signed_received (tx ct)); reflexivity. }
  split; intros Hf; rewrite G by exact Hf; reflexivity.
Qed.
Print Assumptions C66_deployment_altered_refuted.

(** ** C48: a node never answers a request for transactions: the endpoint is
    registered with the handler of new transactions (src/main.rs:176-182),
    which decodes the request, a list of hashes, as a list of transactions,
    and that fails for every non-empty request. *)
Lemma hash_is_no_tx h : wdec_signed (wenc_hash h) = Err ProtobufDecode \/ wdec_signed (wenc_hash h) = Err MissingField.
Proof.
  assert (wenc_hash h = ser [(1, WLen (sbytes h))]) as ->.
  { unfold wenc_hash, wenc, pencode, m_hash, to_hash. cbn [pc_out pcons p_bytes pnil fst snd]. rewrite app_nil_r.
    pose proof (sized_len h) as L. destruct (sbytes h); [discriminate L|]. reflexivity. }
  unfold wdec_signed, wdec, pdecode, pmerge. rewrite parse_ser.
  2:{ constructor; [|constructor]. split; [cbn; lia|]. cbn. unfold blen. rewrite sized_len. unfold two64. lia. }
  cbn [merge_all].
  assert (pc_in m_signed 1 (WLen (sbytes h)) (pc_default m_signed) =
    match pmerge m_raw (sbytes h) (pc_default m_raw) with
    | Some r => Some (Some r, snd (pc_default m_signed))
    | None => None
    end) as ->.
  { unfold m_signed at 1. cbn [pc_in pcons pc_tags p_opt has_tag existsb app]. change (1 =? 1) with true. cbn [orb].
    change (fst (pc_default m_signed)) with (@None p_raw).
    destruct (pmerge m_raw (sbytes h) (pc_default m_raw)); reflexivity. }
  destruct (pmerge m_raw (sbytes h) (pc_default m_raw)) as [r|]; [right|left]; reflexivity.
Qed.

Theorem C48_pull_request_never_decodes_refuted : forall h hs,
  fits (enc_hashes (h :: hs)) -> exists e, dec_txs (enc_hashes (h :: hs)) = Err (MWire e).
Proof.
  intros h hs Hf. unfold dec_txs, dec_multi, enc_hashes, enc_multi in *.
  pose proof (bdec_vec_bytes wenc_hash (h :: hs) [] Hf) as E. rewrite app_nil_r in E. rewrite E.
  cbn [map map_res]. destruct (hash_is_no_tx h) as [-> | ->]; cbn [rbind map_err]; eauto.
Qed.
Print Assumptions C48_pull_request_never_decodes_refuted.

(** ** C68: the order root of a header binds the list of transaction hashes,
    among lists of the same length and whatever the shape of the tree ... *)
Theorem C68_order_root_binds : forall digest shapes a b,
  good_shapes shapes -> length a = length b ->
  no_collision digest (merkle_inputs digest shapes a ++ merkle_inputs digest shapes b) ->
  merkle_root_or_empty digest shapes a = merkle_root_or_empty digest shapes b -> a = b.
Proof.
  intros digest shapes a b Hg Hl Hnc Hr. apply (merkle_root_inj digest shapes a b Hg Hl Hnc).
  destruct a, b; try discriminate Hl; [reflexivity|].
  unfold merkle_root_or_empty, merkle_root in *. cbn [default] in Hr. f_equal. exact Hr.
Qed.
Print Assumptions C68_order_root_binds.

(** ... but not across lengths: two hashes have the root of a single one. *)
Theorem C68_order_root_length_refuted : forall digest shapes a b,
  good_shapes shapes -> exists h, merkle_root_or_empty digest shapes [h] = merkle_root_or_empty digest shapes [a; b].
Proof.
  intros digest shapes a b Hg. destruct (two_is_one digest shapes a b Hg) as [h H]. exists h.
  unfold merkle_root_or_empty. rewrite H. reflexivity.
Qed.
Print Assumptions C68_order_root_length_refuted.

(** The hypotheses are met: a tree shape for every length, and a message. *)
Fixpoint comb (n : nat) : shape := match n with O => Leaf 0 | S n => Branch (comb n) (Leaf (S n)) end.
Definition comb_shapes (n : nat) : shape := comb (Nat.pred n).
Example shapes_exist : good_shapes comb_shapes.
Proof.
  intros [|n] Hn; [lia|]. clear Hn. unfold comb_shapes. cbn [Nat.pred].
  induction n as [|n IH]; [reflexivity|]. cbn [comb leaves]. rewrite IH, (seq_S (S n) 0). reflexivity.
Qed.
Example small_messages_fit : fits (enc_hashes [@Sized 32 (repeat x07 32) eq_refl; @Sized 32 (repeat x08 32) eq_refl]).
Proof. vm_compute. reflexivity. Qed.
