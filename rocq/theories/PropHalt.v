(** * C93: a commit that fails loses nothing and can be made again. *)
From Verif Require Import Base BaseFacts Hex Types FixedCodec StateAdapter Executor ExecSpec ExecBlock ExecMore
  Mempool MempoolSpec MempoolFacts MempoolProps MempoolMore
  Merkle Bincode ConsMsg Proto Wire WireFacts Storage StorageSpec StorageFacts Consensus ConsSpec ConsFacts ConsInv ConsChain
  StuckFacts LedgerRun NodePool HaltFacts CodecProps.
Local Open Scope N_scope.

(** The engine commits an epoch, its execution fails.  The node is where it
    was -- number, status, epochs, transactions, receipts, states, nothing
    announced -- but its latest proof is already that of the failed epoch, the
    pool no longer has the transactions, and committing the epoch again fails,
    now and after a restart. *)
Theorem C93_failed_commit_is_lost_refuted :
  forall digest root_of show verify shapes cf n id c n1 t1 os r2 n2 t2,
  LATEST_EPOCH_KEY digest <> LATEST_PROOF_KEY digest ->
  run_call digest root_of show verify shapes cf (CallCommit id c) n = (Ok RepUnit, n1, t1) ->
  run_call digest root_of show verify shapes cf (CallCommitRest os (Ok tt)) n1 = (r2, n2, t2) ->
  is_ok r2 = false ->
  let hs := ep_ordered_tx_hashes (pl_epoch (cm_pill c)) in
  (nd_status n2 = nd_status n /\ nd_out n2 = nd_out n /\ nd_busy n2 = Idle /\
   get_latest_epoch rocks_col digest (nd_disk n2).1 = get_latest_epoch rocks_col digest (nd_disk n).1 /\
   (forall i, get_epoch_by_epoch_id rocks_col (nd_disk n2).1 i = get_epoch_by_epoch_id rocks_col (nd_disk n).1 i) /\
   (forall h, get_transaction_by_hash rocks_col (nd_disk n2).1 h = get_transaction_by_hash rocks_col (nd_disk n).1 h) /\
   (forall h, get_receipt rocks_col (nd_disk n2).1 h = get_receipt rocks_col (nd_disk n).1 h) /\
   (nd_disk n2).2 = (nd_disk n).2) /\
  (exists eh, let pf := MkProof (cm_proof_epoch_id c) (cm_round c) eh (cm_signature c) (cm_bitmap c) in
     sbytes eh = cm_epoch_hash c /\
     (fits (wenc_proof pf) -> get_latest_proof rocks_col digest (nd_disk n2).1 = Ok pf)) /\
  (forall h, h ∈ hs -> mp_lookup (nd_pool n) h <> None /\ mp_lookup (nd_pool n2) h = None) /\
  (hs <> [] -> forall id' c', cm_pill c' = cm_pill c ->
     is_ok (run_call digest root_of show verify shapes cf (CallCommit id' c') n2).1.1 = false /\
     forall n3, start digest cf (nd_disk n2) = Ok n3 ->
       is_ok (run_call digest root_of show verify shapes cf (CallCommit id' c') n3).1.1 = false).
Proof.
  intros digest root_of show verify shapes cf n id c n1 t1 os r2 n2 t2 HLP E1 E2 Hr hs.
  apply commit_ok in E1 as (eh & txs & Eb & Hh & Hg & ->).
  set (n1 := set_busy _ _) in E2.
  assert (n2 = set_busy n1 Idle) as -> by (eapply rest_failed; [reflexivity|exact E2|exact Hr]).
  assert (same_but_proof digest (nd_disk n) (with_proof digest (nd_disk n) (commit_proof c eh))) as Hp by apply sbp_proof, sbp_refl.
  cbn [nd_status nd_out nd_busy nd_disk nd_pool n1 set_busy set_pool set_disk].
  split.
  { split; [reflexivity|]. split; [reflexivity|]. split; [reflexivity|]. split; [apply (sbp_latest digest _ _ HLP Hp)|].
    split; [intros i; apply (sbp_at digest _ _ _ Hp)|]. split; [intros h; apply (sbp_tx digest _ _ _ Hp)|].
    split; [intros h; apply (sbp_rc digest _ _ _ Hp)|]. apply Hp. }
  split.
  { exists eh. split; [apply hash_from_bytes_spec in Hh; congruence|]. intros Hf. apply read_proof; [|exact Hf].
    rewrite with_proof_db. cbn [fst]. unfold w_proof. apply lookup_insert. }
  split.
  { intros h Hin. split; [|apply flush_lookup, Hin]. apply get_full_iff in Hg. intros E.
    destruct (elem_of_list_lookup_1 _ _ Hin) as [i Hi]. destruct (Forall2_lookup_l _ _ _ _ _ Hg Hi) as (t & _ & Ht).
    rewrite E in Ht. discriminate Ht. }
  intros Hne id' c' Hc. split.
  { apply commit_needs_txs. cbn [nd_pool set_busy set_pool set_disk]. rewrite Hc. apply no_full; [exact Hne|].
    intros h Hin. apply flush_lookup, Hin. }
  intros n3 Es. apply start_out in Es as (e & _ & ->). apply commit_needs_txs. cbn [nd_pool]. rewrite Hc.
  apply no_full; [exact Hne|]. intros h _. unfold mp_lookup, tc_get, mp_new, tc_new. cbn [mp_tc tc_map mp_cb]. rewrite !lookup_empty. reflexivity.
Qed.
Print Assumptions C93_failed_commit_is_lost_refuted.

(** One client is enough.  It sends a running node whose pool is empty a
    transaction signed with a key that has no account; the transaction is
    accepted, the node's next proposal orders it, and the commit of that
    proposal fails, whatever the iteration orders. *)
Theorem C93_one_client_fails_a_commit_refuted :
  forall digest root_of show verify shapes cf l n e net t n1 t1 now a,
  history digest root_of show verify shapes cf l = Up n ->
  nd_busy n = Idle -> mp_len (nd_pool n) = 0%nat ->
  get_latest_epoch rocks_col digest (nd_disk n).1 = Ok e ->
  let id := cs_epoch_id (nd_status n) in
  (* what the node's state says of the sender *)
  is_sender digest t a ->
  (forall x, Executor.from_root digest (cf_chain_id cf) (cs_state_root (nd_status n)) (nd_disk n).2 id (cs_price (nd_status n))
     (AUser (cf_self cf)) = Ok x -> wf_accounts (committed x) /\ committed x !! a = None) ->
  (* the transaction is accepted, not over the limit, not about to expire *)
  run_call digest root_of show verify shapes cf (CallInsert net t (Ok tt)) n = (Ok RepUnit, n1, t1) ->
  small (cs_limit (nd_status n)) -> fee_cycle (rt_fee (st_raw t)) <= cs_limit (nd_status n) ->
  eh_epoch_id (ep_header e) < rt_timeout (st_raw t) ->
  exists p h n2,
    run_call digest root_of show verify shapes cf (CallPropose id now) n1 = (Ok (RepPill p h), n2, []) /\
    ep_ordered_tx_hashes (pl_epoch p) = [st_tx_hash t] /\
    forall c, cm_pill c = p -> length (cm_epoch_hash c) = 32%nat ->
    exists n3 t3,
      run_call digest root_of show verify shapes cf (CallCommit id c) n2 = (Ok RepUnit, n3, t3) /\
      forall os sent, (forall k, order_ok (os k)) ->
        is_ok (run_call digest root_of show verify shapes cf (CallCommitRest os sent) n3).1.1 = false.
Proof.
  intros digest root_of show verify shapes cf l n e net t n1 t1 now a Hh Hb Hl He id Hs Hx Ei Hsm Hc Hto.
  destruct (lone_proposal digest root_of show verify shapes cf l n n1 net t t1 e now Hh Hl He Ei Hsm Hc Hto)
    as (p & h & n2 & Ep & Ho & _ & Hpr & _ & Hb2 & Hs2 & Hd2 & _ & Hlk).
  exists p, h, n2. split; [exact Ep|]. split; [exact Ho|]. intros c Hcp Hlen.
  assert (exists eh, hash_from_bytes (cm_epoch_hash c) = Ok eh) as [eh Hhash].
  { exists (@Sized 32 (cm_epoch_hash c) (proj2 (Nat.eqb_eq _ _) Hlen)). apply hash_from_bytes_spec. reflexivity. }
  assert (mp_get_full_txs (nd_pool n2) (ep_ordered_tx_hashes (pl_epoch (cm_pill c))) = Ok [t]) as Hg.
  { rewrite Hcp, Ho. apply get_full_iff. constructor; [exact Hlk|constructor]. }
  destruct (commit_goes digest root_of show verify shapes cf id c n2 eh [t] (eq_trans Hb2 Hb) Hhash Hg) as (t3 & E3).
  eexists _, t3. split; [exact E3|]. intros os sent Hos.
  eapply rest_exec; [reflexivity|]. cbn [nd_status nd_disk set_busy set_pool set_disk].
  rewrite Hcp, Hs2, Hpr. intros x Hox.
  change ((with_proof digest (nd_disk n2) (commit_proof c eh)).2) with ((nd_disk n2).2) in Hox. rewrite Hd2 in Hox.
  destruct (Hx x Hox) as [Hw Hn]. apply (unknown_sender_fails digest root_of show os x t [] a Hos (open_fresh _ _ _ _ _ _ _ _ Hox) Hw Hs Hn).
Qed.
Print Assumptions C93_one_client_fails_a_commit_refuted.
