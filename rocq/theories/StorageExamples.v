(** * A concrete history meeting the hypotheses of the storage theorems, with
    the real Keccak-256. *)
From Verif Require Import Base BaseFacts Hex Types Rlp RlpFacts FixedCodec Proto Wire Keccak Storage StorageSpec StorageProps PropStorage.
From Coq Require Strings.String.
Import String.StringSyntax.
Delimit Scope string_scope with string.
Local Open Scope N_scope.

Definition ex_bloom : Bloom := @Sized 256 (repeat x00 256) eq_refl.
Definition ex_epoch (i : N) : epoch :=
  MkEpoch (MkHeader (ex_hash x01) (wrap64 i) (ex_hash x02) (wrap64 9) ex_bloom (ex_hash x03) [ex_hash x04]
     (ex_hash x05) [] (wrap64 0) ex_user (MkProof (wrap64 i) (wrap64 0) (ex_hash x06) [x01] []) (wrap64 0) [])
   [ex_hash x09].
Definition ex_proof : proof := MkProof (wrap64 2) (wrap64 1) (ex_hash x07) [x01; x02] [x03].
Definition ex_ops : list st_op :=
  [UpdProof ex_proof; InsReceipts [ex_receipt]; InsTransactions [ex_tx]; InsEpoch (ex_epoch 1); InsEpoch (ex_epoch 2)].

Lemma fits_by_length b n : length b = n -> N.of_nat n < two64 -> fits b.
Proof. unfold fits, blen. intros ->. auto. Qed.

Example storage_ops_ok : Forall op_ok ex_ops.
Proof.
  unfold ex_ops. constructor; [|constructor; [|constructor; [|constructor; [|constructor; [|constructor]]]]]; cbn [op_ok].
  - eapply fits_by_length; [vm_compute; reflexivity|reflexivity].
  - constructor; [|constructor]. split; [exact I|]. eapply fits_by_length; [vm_compute; reflexivity|reflexivity].
  - constructor; [|constructor]. split; [exact I|]. eapply fits_by_length; [vm_compute; reflexivity|reflexivity].
  - eapply fits_by_length; [vm_compute; reflexivity|reflexivity].
  - eapply fits_by_length; [vm_compute; reflexivity|reflexivity].
Qed.

(** Keccak-256 does not collide on the inputs of this history, nor on them
    together with the RLP encoding of epoch 1 (C53). *)
Definition all_inputs : list bytes := enc_epoch (ex_epoch 1) :: digest_inputs ex_ops.
Lemma nodup_no_collision digest l : NoDup (map digest l) -> no_collision digest l.
Proof.
  induction l as [|x l IH]; intros H a b Ha Hb E; [inversion Ha|].
  cbn [map] in H. apply NoDup_cons in H as [Hn H].
  apply elem_of_cons in Ha as [->|Ha]; apply elem_of_cons in Hb as [->|Hb]; auto.
  - exfalso. apply Hn. rewrite E. apply elem_of_list_fmap_1. exact Hb.
  - exfalso. apply Hn. rewrite <- E. apply elem_of_list_fmap_1. exact Ha.
  - apply IH; auto.
Qed.
Definition first_bytes (l : list bytes) : list N := map (fun b => match keccak_bytes b with x :: y :: _ => bN x * 256 + bN y | _ => 0 end) l.
Lemma first_bytes_nodup l : NoDup (first_bytes l) -> NoDup (map keccak l).
Proof.
  unfold first_bytes. induction l as [|b l IH]; intros H; [constructor|].
  cbn [map] in *. apply NoDup_cons in H as [Hn H]. apply NoDup_cons. split; [|apply IH, H].
  intros Hin. apply Hn. apply elem_of_list_fmap in Hin as (c & Ec & Hc).
  assert (keccak_bytes b = keccak_bytes c) as -> by exact (f_equal sbytes Ec).
  apply (elem_of_list_fmap_1 (fun b => match keccak_bytes b with x :: y :: _ => bN x * 256 + bN y | _ => 0 end)). exact Hc.
Qed.
Example storage_no_collision : no_collision keccak all_inputs.
Proof.
  apply nodup_no_collision, first_bytes_nodup.
  assert (exists v, first_bytes all_inputs = v /\ NoDup v) as (v & -> & H); [|exact H].
  eexists. split; [vm_compute; reflexivity|]. apply (bool_decide_unpack _). vm_compute. reflexivity.
Qed.
Lemma sub_no_collision digest l l' : (forall x, x ∈ l -> x ∈ l') -> no_collision digest l' -> no_collision digest l.
Proof. intros H C a b Ha Hb. apply C; auto. Qed.

Example storage_nonvacuous :
  Forall op_ok ex_ops /\ no_collision keccak (digest_inputs ex_ops) /\
  get_transaction_by_hash rocks_col (after rocks_col keccak ex_ops) (ex_hash x09) = Ok ex_tx /\
  get_receipt rocks_col (after rocks_col keccak ex_ops) (ex_hash x09) = Ok ex_receipt /\
  get_epoch_by_epoch_id rocks_col (after rocks_col keccak ex_ops) (wrap64 1) = Ok (ex_epoch 1) /\
  get_epoch_by_hash rocks_col (after rocks_col keccak ex_ops) (keccak (wenc_header (ep_header (ex_epoch 1)))) = Ok (ex_epoch 1) /\
  get_latest_epoch rocks_col keccak (after rocks_col keccak ex_ops) = Ok (ex_epoch 2) /\
  get_latest_proof rocks_col keccak (after rocks_col keccak ex_ops) = Ok ex_proof /\
  get_transactions rocks_col (after rocks_col keccak ex_ops) [ex_hash x08; ex_hash x09; ex_hash x09] = Ok [ex_tx; ex_tx] /\
  get_epoch_by_hash rocks_col (after rocks_col keccak ex_ops) (keccak (enc_epoch (ex_epoch 1))) = Err GetNone.
Proof.
  assert (no_collision keccak (digest_inputs ex_ops)) as Hnc.
  { eapply sub_no_collision; [|exact storage_no_collision]. intros x Hx. apply elem_of_cons. right. exact Hx. }
  split; [exact storage_ops_ok|]. split; [exact Hnc|].
  split; [rewrite (read_tx keccak _ storage_ops_ok); reflexivity|].
  split; [rewrite (read_receipt keccak _ storage_ops_ok); reflexivity|].
  split; [rewrite (read_epoch keccak _ storage_ops_ok); reflexivity|].
  split.
  { apply C50_epoch_by_hash; [exact storage_ops_ok|exact Hnc| | |].
    - right. right. right. left.
    - eapply fits_by_length; [vm_compute; reflexivity|reflexivity].
    - intros e' He' Hid. repeat (apply elem_of_cons in He' as [He'|He']; [try discriminate He'|]); [..|inversion He'];
        injection He' as ->; [reflexivity|discriminate Hid]. }
  split; [rewrite (read_latest_epoch keccak _ storage_ops_ok Hnc); reflexivity|].
  split; [rewrite (read_latest_proof keccak _ storage_ops_ok Hnc); reflexivity|].
  split; [rewrite (read_txs keccak _ storage_ops_ok); reflexivity|].
  apply C53_parent_never_found_refuted; [exact storage_ops_ok| |exact storage_no_collision].
  eapply fits_by_length; [vm_compute; reflexivity|reflexivity].
Qed.

(** Crash points really differ: after 4 of the 9 writes the first epoch is
    stored by id but is not yet the latest. *)
Example crash_point_nonvacuous :
  length (history_writes rocks_col keccak ex_ops) = 9%nat /\
  get_epoch_by_epoch_id rocks_col (apply_writes ∅ (take 4 (history_writes rocks_col keccak ex_ops))) (wrap64 1) = Ok (ex_epoch 1) /\
  get_latest_epoch rocks_col keccak (apply_writes ∅ (take 4 (history_writes rocks_col keccak ex_ops))) = Err GetNone.
Proof. split; [reflexivity|]. split; vm_compute; reflexivity. Qed.
