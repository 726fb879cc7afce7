(** * C94: catching up from an honest peer leaves such a disk. *)
From Verif Require Import Base BaseFacts Hex Types Rlp RlpFacts FixedCodec StateAdapter Executor ExecSpec Mempool Merkle Bincode ConsMsg PropConsMsg
  Proto Wire WireFacts Storage StorageSpec StorageFacts StorageExamples Consensus ConsSpec ConsFacts ConsInv ConsChain SyncSpec SyncFacts PropSync Keccak
  MixSetup ConsExamples SyncExamples.
Local Open Scope N_scope.

Notation synced := (after_pulls mixd rootx showx verifyx comb_shapes cfx peerx
  (announced mixd rootx showx verifyx comb_shapes cfx peerx nodex 1 3).1.2 (repeat canons (3 - 1 + 1))).
Definition idle_b (n : node) : bool := match nd_busy n with Idle => true | _ => false end.
Lemma idle_b_ok n : idle_b n = true -> nd_busy n = Idle.
Proof. unfold idle_b. destruct (nd_busy n); [reflexivity|discriminate..]. Qed.
Lemma synced_check :
  match historyx l3 with Up _ => true | Down _ => false end && idle_b synced &&
  same_epoch (get_latest_epoch rocks_col mixd (nd_disk synced).1) (pl_epoch p3) &&
  same_epoch (get_epoch_by_epoch_id rocks_col (nd_disk synced).1 (eh_epoch_id (ep_header (pl_epoch p3)))) (pl_epoch p3) &&
  negb (u64v (eh_epoch_id (ep_header (pl_epoch p3))) =? 0) &&
  negb (heqb (eh_state_root (ep_header (pl_epoch p3))) (hash_from_empty mixd)) &&
  negb (is_ok (trie_from (eh_state_root (ep_header (pl_epoch p3))) (nd_disk synced).2)) &&
  is_ok (Executor.from_root mixd chainx (eh_state_root (ep_header (pl_epoch p3))) peerx.2 (wrap64 4) (wrap64 1) (AUser alice)) &&
  negb (heqb (LATEST_EPOCH_KEY mixd) (LATEST_PROOF_KEY mixd)) = true.
Proof. vm_compute. reflexivity. Qed.

Lemma unknown_root (digest : bytes -> hash) (root : hash) (tr : gmap hash (gmap bytes bytes)) : root <> hash_from_empty digest ->
  is_ok (trie_from root tr) = false ->
  forall chain id price cb x, Executor.from_root digest chain root tr id price cb <> Ok x.
Proof.
  intros H1 H2 chain id price cb x. unfold Executor.from_root. rewrite decide_False by exact H1.
  destruct (trie_from root tr); [discriminate H2|discriminate..].
Qed.
Lemma heqb_refl (h : hash) : heqb h h = true.
Proof. unfold heqb. apply bytes_eqb_eq. reflexivity. Qed.

(** A node with the first epochs of its peer's chain, told of the peer's
    latest epoch, pulls the missing ones and ends, idle, with the peer's
    latest epoch as its own -- whose state root it cannot open, although the
    peer can: by C94_stuck_forever_refuted its next restart is its last. *)
Theorem C94_catching_up_gets_stuck_refuted :
  exists l n (peer : durable) (c : list epoch) (k L : nat) e,
  let n1 := (announced mixd rootx showx verifyx comb_shapes cfx peer n k L).1.2 in
  let n2 := after_pulls mixd rootx showx verifyx comb_shapes cfx peer n1 (repeat canons (L - k + 1)) in
  historyx l = Up n /\ good_peer mixd peer c /\ answers_fit peer c /\ stands_at mixd n c k /\ (k + 2 <= L < length c)%nat /\
  pulls_ok mixd rootx showx verifyx comb_shapes cfx peer n1 (repeat canons (L - k + 1)) /\
  nd_busy n2 = Idle /\ c !! L = Some e /\
  LATEST_EPOCH_KEY mixd <> LATEST_PROOF_KEY mixd /\
  get_latest_epoch rocks_col mixd (nd_disk n2).1 = Ok e /\
  get_epoch_by_epoch_id rocks_col (nd_disk n2).1 (eh_epoch_id (ep_header e)) = Ok e /\
  eh_epoch_id (ep_header e) <> wrap64 0 /\
  (forall chain id price cb x, Executor.from_root mixd chain (eh_state_root (ep_header e)) (nd_disk n2).2 id price cb <> Ok x) /\
  is_ok (Executor.from_root mixd chainx (eh_state_root (ep_header e)) peer.2 (wrap64 4) (wrap64 1) (AUser alice)) = true.
Proof.
  pose proof synced_check as H.
  apply andb_true_iff in H as [H H9]. apply andb_true_iff in H as [H H8]. apply andb_true_iff in H as [H H7]. apply andb_true_iff in H as [H H6].
  apply andb_true_iff in H as [H H5]. apply andb_true_iff in H as [H H4]. apply andb_true_iff in H as [H H3]. apply andb_true_iff in H as [H1 H2].
  destruct sync_story_hypotheses as (_ & _ & _ & G1 & G2 & _ & G4 & G5).
  exists l3, nodex, peerx, cx, 1%nat, 3%nat, (pl_epoch p3). cbv zeta.
  split. { unfold nodex. destruct (historyx l3); [discriminate H1|reflexivity]. }
  split; [exact G1|]. split; [exact G2|]. split; [exact G4|]. split; [exact G5|].
  split; [exact sync_story_pulls_ok|].
  split. { exact (idle_b_ok _ H2). }
  split; [reflexivity|].
  split. { intros X. rewrite X, heqb_refl in H9. discriminate H9. }
  apply same_epoch_ok in H3 as [H3 _]. apply same_epoch_ok in H4 as [H4 _].
  split; [exact H3|]. split; [exact H4|].
  split. { intros X. rewrite X in H5. discriminate H5. }
  split; [|exact H8]. apply unknown_root.
  - intros X. rewrite X, heqb_refl in H6. discriminate H6.
  - exact (proj1 (negb_true_iff _) H7).
Qed.
Print Assumptions C94_catching_up_gets_stuck_refuted.
