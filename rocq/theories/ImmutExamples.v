(** * C96: concrete histories; a stored receipt changes. *)
From Verif Require Import Base BaseFacts Hex Types Rlp RlpFacts FixedCodec StateAdapter Executor ExecSpec Mempool Merkle Bincode ConsMsg PropConsMsg
  Proto Wire Storage StorageSpec StorageExamples Consensus ConsSpec ConsFacts ConsInv Keccak MixSetup ConsExamples ImmutFacts PropConsensus2.
Local Open Scope N_scope.

Definition l5 : list event :=
  [EvCall (CallPropose (wrap64 2) (wrap64 60)); EvCall (CallCommit (wrap64 2) (commit_of 2 p2)); EvCall rest].
Definition receipt_epoch (m : machine) (h : hash) : option N :=
  match get_receipt rocks_col (disk m).1 h with Ok r => Some (u64v (rc_epoch_id r)) | _ => None end.
Definition latest_id (m : machine) : option N :=
  match get_latest_epoch rocks_col mixd (disk m).1 with Ok e => Some (u64v (eh_epoch_id (ep_header e))) | _ => None end.

(** The hypotheses of [C96_epochs_stay] and [C96_transactions_stay]: the story
    of ConsExamples, cut after the first commit. *)
Example stay_hypotheses :
  epochs_ok mixd rootx showx verifyx comb_shapes cfx (l3 ++ l5) /\ alwaysx one_more (l3 ++ l5) /\ alwaysx replies_match (l3 ++ l5) /\
  latest_id (historyx l3) = Some 1 /\ latest_id (historyx (l3 ++ l5)) = Some 2.
Proof.
  pose proof story_hypotheses as (A & _ & (B1 & _ & B2 & _) & _). split; [exact A|]. split; [exact B2|]. split; [exact B1|].
  split; vm_compute; reflexivity.
Qed.

Lemma receipt_read m h i : receipt_epoch m h = Some i ->
  exists r, get_receipt rocks_col (disk m).1 h = Ok r /\ u64v (rc_epoch_id r) = i.
Proof. unfold receipt_epoch. destruct (get_receipt rocks_col (disk m).1 h) as [r|x|]; [|discriminate..]. intros [= <-]. eauto. Qed.
Lemma receipts_run : receipt_epoch (historyx l3) (st_tx_hash tx1) = Some 1 /\ receipt_epoch (historyx (l3 ++ l5)) (st_tx_hash tx1) = Some 2.
Proof. vm_compute. split; reflexivity. Qed.

(** The receipt of a committed transaction can change later: in a history in
    which everything committed extends the chain, without synchronisation, the
    receipt of a transaction of the latest epoch is replaced by the next
    commit (the transaction is executed again, C67). *)
Theorem C96_receipts_stay_refuted :
  exists (digest : bytes -> hash) (root_of : gmap bytes bytes -> hash) (show : exec_err -> rstring)
         (verify : bytes -> bytes -> bytes -> bool) (shapes : nat -> shape) (cf : config) (l l' : list event) (h : hash) (r r' : receipt),
  epochs_ok digest root_of show verify shapes cf (l ++ l') /\
  along digest root_of show verify shapes cf one_more (Down (∅, ∅)) (l ++ l') /\
  along digest root_of show verify shapes cf commits_only (Down (∅, ∅)) (l ++ l') /\
  get_receipt rocks_col (disk (history digest root_of show verify shapes cf l)).1 h = Ok r /\
  get_receipt rocks_col (disk (history digest root_of show verify shapes cf (l ++ l'))).1 h = Ok r' /\
  u64v (rc_epoch_id r) = 1 /\ u64v (rc_epoch_id r') = 2.
Proof.
  pose proof story_hypotheses as (A & _ & (_ & _ & B2 & B3) & _). destruct receipts_run as [R1 R2].
  apply receipt_read in R1 as (r & R1 & I1). apply receipt_read in R2 as (r' & R2 & I2).
  exists mixd, rootx, showx, verifyx, comb_shapes, cfx, l3, l5, (st_tx_hash tx1), r, r'.
  split; [exact A|]. split; [exact B2|]. split; [exact B3|]. split; [exact R1|]. split; [exact R2|]. split; [exact I1|exact I2].
Qed.
Print Assumptions C96_receipts_stay_refuted.

(** The hypotheses of [C96_peer_rewrites_history_refuted]: the node that
    committed epoch 1 was told of epoch 5; a forged epoch 0 links to its latest
    epoch. *)
Definition lf : list event := l3 ++ [announce 5].
Definition forged : epoch :=
  MkEpoch (MkHeader (mixd [x01]) (wrap64 0) (epoch_hash mixd (pl_epoch p1)) (wrap64 9) zero_bloom (mixd [x03]) [] (mixd [x04]) [] (wrap64 0) bob
     (MkProof (wrap64 6) (wrap64 0) (mixd [x05]) [] []) (wrap64 0) []) [].
Definition forge_ready (m : machine) : bool :=
  match m with
  | Up n => match nd_busy n with
            | Syncing next rich ch sr => (next <=? u64v rich) && heqb (eh_pre_hash (ep_header forged)) ch &&
                is_ok (Executor.from_root mixd chainx sr (nd_disk n).2 (wrap64 0) (cs_price (nd_status n)) (AUser bob)) &&
                match get_epoch_by_epoch_id rocks_col (nd_disk n).1 (wrap64 0) with
                | Ok e => negb (heqb (eh_pre_hash (ep_header e)) (eh_pre_hash (ep_header forged)))
                | _ => false
                end
            | _ => false
            end
  | Down _ => false
  end.
Example forge_hypotheses : forge_ready (historyx lf) = true /\ fits (wenc_epoch forged).
Proof. vm_compute. split; reflexivity. Qed.
