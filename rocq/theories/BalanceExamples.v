(** * C112 on a concrete node: the transfer of EndExamples.v, and the epoch
    after it. *)
From Verif Require Import Base BaseFacts Hex Types Rlp RlpFacts FixedCodec StateAdapter Executor ExecSpec Mempool MempoolSpec MempoolMore Merkle Bincode ConsMsg PropConsMsg
  Proto Wire WireFacts Storage StorageSpec StorageFacts StorageExamples Consensus ConsSpec ConsFacts ConsInv LedgerSpec Keccak MixSetup ConsExamples LedgerExamples
  SyncExamples StuckExamples HaltExamples Api ApiSpec ApiFacts PropApi ApiExamples PropEnd EndFacts EndExamples PropBalance.
Local Open Scope N_scope.

Definition pb : pill := Eval vm_compute in propose_at lqq 4 80.
Definition lb2 : list event := [EvCall (CallPropose (wrap64 4) (wrap64 80)); EvCall (CallCommit (wrap64 4) (commit_of 4 pb))].
Definition lb : list event := (lqq ++ lb2) ++ [EvCall (CallCommitRest canons (Ok tt))].
Notation nq := (node_of (historyx lqq)).
Notation nc := (node_of (historyx (lqq ++ lb2))).
Notation nb := (node_of (historyx lb)).
Definition on_header_b (n : node) (i : N) (root : hash) : bool :=
  match nd_busy n with
  | Committing _ p _ _ => (u64v (eh_epoch_id (ep_header (pl_epoch p))) =? i) && heqb (eh_state_root (ep_header (pl_epoch p))) root
  | _ => false
  end.
Definition balance_check : bool :=
  up_b (historyx lqq) && fits_b (nd_disk nq) && up_b (historyx (lqq ++ lb2)) && on_header_b nc 4 (cs_state_root (nd_status nq)) &&
  up_b (historyx lb) && fits_b (nd_disk nb) && states_b lb && seen_b lb && along_b (Down (∅, ∅)) lb &&
  unit_ok (fst (fst (runx (CallCommitRest canons (Ok tt)) nc))).
Lemma balance_good : balance_check = true.
Proof. vm_compute. reflexivity. Qed.
Definition says (m : machine) (who : user_address) (qid : option text) : option text :=
  match query_balance mixd (disk m) (out_address (AUser who)) (out_hash stok) qid with Ok t => Some t | _ => None end.
(** bob has 23 at epoch 3, before and after the commit of epoch 4, and 33 at
    epoch 4; alice goes from 980 to 970.  A node asked for an epoch it does not
    have answers 0 (C81). *)
Lemma balance_answers :
  says (historyx lqq) bob (Some [51]) = Some [49; 55] /\ says (historyx lb) bob (Some [51]) = Some [49; 55] /\
  says (historyx lb) bob (Some [52]) = Some [50; 49] /\ says (historyx lb) bob None = Some [50; 49] /\
  says (historyx lb) alice (Some [51]) = Some [48; 51; 100; 52] /\ says (historyx lb) alice (Some [52]) = Some [48; 51; 99; 97] /\
  says (historyx lqq) bob (Some [52]) = Some [48; 48].
Proof. vm_compute. repeat split. Qed.

Lemma lb_orders : Forall (fun e => forall m, orders_ok m e) lb.
Proof.
  unfold lb, lb2. apply Forall_app. split; [apply Forall_app; split; [exact lqq_orders|]|];
    repeat (apply Forall_cons; split; [intros m; first [exact I|exact canons_ok]|]); apply Forall_nil; exact I.
Qed.
Lemma on_header_b_ok n i root : on_header_b n i root = true -> exists id p pf txs, nd_busy n = Committing id p pf txs /\
  u64v (eh_epoch_id (ep_header (pl_epoch p))) = i /\ eh_state_root (ep_header (pl_epoch p)) = root.
Proof.
  unfold on_header_b. destruct (nd_busy n) as [|id p pf txs|]; try discriminate. intros H. apply andb_true_iff in H as [H1 H2].
  exists id, p, pf, txs. split; [reflexivity|]. split; [exact (proj1 (N.eqb_eq _ _) H1)|exact (heqb_eq _ _ H2)].
Qed.
Lemma after_call l c n : historyx l = Up n -> historyx (l ++ [EvCall c]) = Up (snd (fst (runx c n))).
Proof.
  intros H. destruct (runx c n) as [[r n'] t] eqn:E. exact (history_call mixd rootx showx verifyx comb_shapes cfx l c n n' r t H E).
Qed.
(** The hypotheses of C112_transfer_shown that EndExamples does not show: the
    commit of epoch 4, on the state epoch 3 left. *)
Example balance_hypotheses :
  let fin := EvCall (CallCommitRest canons (Ok tt)) in
  let h := (lqq ++ lb2) ++ [fin] in
  epochs_ok mixd rootx showx verifyx comb_shapes cfx (h ++ []) /\ states_ok mixd rootx showx verifyx comb_shapes cfx (h ++ []) /\
  alwaysx replies_match (h ++ []) /\ alwaysx one_more (h ++ []) /\
  exists n4 n5 n6 id' p' pf' txs' r' t', historyx lqq = Up n4 /\ db_fits (nd_disk n4).1 /\
    historyx (lqq ++ lb2) = Up n5 /\ nd_busy n5 = Committing id' p' pf' txs' /\
    eh_state_root (ep_header (pl_epoch p')) = cs_state_root (nd_status n4) /\ u64v (eh_epoch_id (ep_header (pl_epoch p'))) = 4 /\
    runx (CallCommitRest canons (Ok tt)) n5 = (Ok r', n6, t') /\ db_fits (nd_disk n6).1 /\
    names (out_address (AUser bob)) (out_hash stok) (AUser bob) stok /\ numbers [51] (wrap64 3) /\ numbers [52] (wrap64 4).
Proof.
  cbv zeta. rewrite app_nil_r. fold lb.
  pose proof balance_good as H. unfold balance_check in H.
  apply andb_true_iff in H as [H H10]. apply andb_true_iff in H as [H H9]. apply andb_true_iff in H as [H H8]. apply andb_true_iff in H as [H H7]. apply andb_true_iff in H as [H H6].
  apply andb_true_iff in H as [H H5]. apply andb_true_iff in H as [H H4]. apply andb_true_iff in H as [H H3]. apply andb_true_iff in H as [H1 H2].
  split; [exact (seen_b_ok _ H8)|]. split; [exact (states_b_ok _ lb_orders H7)|].
  split; [exact (proj1 (along_b_ok _ H9))|]. split; [exact (proj1 (proj2 (proj2 (along_b_ok _ H9))))|].
  destruct (on_header_b_ok _ _ _ H4) as (id' & p' & pf' & txs' & A & B & C).
  pose proof (up_b_ok _ H3) as E5.
  pose proof (after_call _ (CallCommitRest canons (Ok tt)) _ E5) as E6. fold lb in E6.
  destruct (runx (CallCommitRest canons (Ok tt)) nc) as [[r n6] t] eqn:Er. cbn [fst snd] in H10, E6. apply unit_ok_eq in H10. subst r.
  rewrite E6 in H6. cbn [node_of] in H6.
  exists nq, nc, n6, id', p', pf', txs', RepUnit, t.
  split; [exact (up_b_ok _ H1)|]. split; [exact (fits_b_ok _ H2)|]. split; [exact E5|]. split; [exact A|]. split; [exact C|]. split; [exact B|].
  split; [exact Er|]. split; [exact (fits_b_ok _ H6)|].
  split. { split; [apply plain_text_of|]. split; [apply spells_encode|]. split; [apply plain_text_of|apply spells_encode]. }
  split; (split; [apply plain_b_ok; vm_compute; reflexivity|]).
  - exists [51], [51], [3]. split; [left; reflexivity|]. split; [left; reflexivity|]. split; [discriminate|]. split; [|reflexivity].
    apply Forall2_cons. split; [|apply Forall2_nil; exact I]. unfold digit; lia.
  - exists [52], [52], [4]. split; [left; reflexivity|]. split; [left; reflexivity|]. split; [discriminate|]. split; [|reflexivity].
    apply Forall2_cons. split; [|apply Forall2_nil; exact I]. unfold digit; lia.
Qed.
