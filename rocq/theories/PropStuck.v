(** * C94: a node can always go on from what it has stored. *)
From Verif Require Import Base BaseFacts Hex Types FixedCodec StateAdapter Executor Mempool Merkle Bincode ConsMsg
  Proto Wire Storage StorageSpec Consensus ConsSpec ConsFacts ConsInv StuckFacts.
Local Open Scope N_scope.

(** A machine whose latest epoch, not the first, names a state root at which
    no executor opens is stuck for ever: started and stopped any number of
    times, whatever the engine, clients and peers do, its epochs, transactions,
    receipts and states stay what they are, it stays at the same number, no
    commit is completed and no epoch pulled from a peer is applied. *)
Theorem C94_stuck_forever_refuted :
  forall digest root_of show verify shapes cf (d : durable) e l,
  LATEST_EPOCH_KEY digest <> LATEST_PROOF_KEY digest ->
  get_latest_epoch rocks_col digest d.1 = Ok e ->
  get_epoch_by_epoch_id rocks_col d.1 (eh_epoch_id (ep_header e)) = Ok e ->
  eh_epoch_id (ep_header e) <> wrap64 0 ->
  (forall chain id price cb x, Executor.from_root digest chain (eh_state_root (ep_header e)) d.2 id price cb <> Ok x) ->
  let m := fold_left (happens digest root_of show verify shapes cf) l (Down d) in
  get_latest_epoch rocks_col digest (disk m).1 = Ok e /\
  (forall i, get_epoch_by_epoch_id rocks_col (disk m).1 i = get_epoch_by_epoch_id rocks_col d.1 i) /\
  (forall h, get_transaction_by_hash rocks_col (disk m).1 h = get_transaction_by_hash rocks_col d.1 h) /\
  (forall h, get_receipt rocks_col (disk m).1 h = get_receipt rocks_col d.1 h) /\
  (disk m).2 = d.2 /\
  forall n, m = Up n ->
    cs_epoch_id (nd_status n) = wrap64 (eh_epoch_id (ep_header e) + 1) /\
    (forall os sent, is_ok (run_call digest root_of show verify shapes cf (CallCommitRest os sent) n).1.1 = false) /\
    (forall next rich ch sr os re rt, nd_busy n = Syncing next rich ch sr -> next <= rich ->
       is_ok (run_call digest root_of show verify shapes cf (CallSyncEpoch os re rt) n).1.1 = false).
Proof.
  intros digest root_of show verify shapes cf d e l HLP Hl Ha Hid Hu m.
  pose proof (stuck_run digest root_of show verify shapes cf d e HLP Hl Ha Hid Hu l (Down d) (sbp_refl digest d)) as H. fold m in H.
  assert (same_but_proof digest d (disk m)) as Hp by (destruct m; [exact H|apply H]).
  split; [rewrite (sbp_latest digest _ _ HLP Hp); exact Hl|].
  split; [intros i; apply (sbp_at digest _ _ _ Hp)|]. split; [intros h; apply (sbp_tx digest _ _ _ Hp)|].
  split; [intros h; apply (sbp_rc digest _ _ _ Hp)|]. split; [apply Hp|].
  intros n E. rewrite E in H. destruct H as [Hd Hs]. split; [rewrite (proj1 Hs); reflexivity|]. split.
  - intros os sent. destruct (run_call digest root_of show verify shapes cf (CallCommitRest os sent) n) as [[r n'] t] eqn:Er.
    exact (stuck_rest digest root_of show verify shapes cf d e Hu n os sent r n' t Hd Hs Er).
  - intros next rich ch sr os re rt Eb Hle.
    destruct (run_call digest root_of show verify shapes cf (CallSyncEpoch os re rt) n) as [[r n'] t] eqn:Er.
    exact (stuck_pull digest root_of show verify shapes cf d e Hu n os re rt r n' t next rich ch sr Hd Hs Eb Hle Er).
Qed.
Print Assumptions C94_stuck_forever_refuted.
