(** * C102 on a concrete node, after the history [lqq] of EndExamples. *)
From Verif Require Import Base BaseFacts Hex Types Rlp RlpFacts FixedCodec StateAdapter Executor ExecSpec Mempool MempoolSpec MempoolMore Merkle Bincode ConsMsg PropConsMsg
  Proto Wire WireFacts Storage StorageSpec StorageFacts StorageExamples Consensus ConsSpec ConsFacts ConsInv LedgerSpec Keccak MixSetup ConsExamples LedgerExamples
  SyncExamples StuckExamples HaltExamples EndExamples PropEnd PropOnce OnceExamples PropOwn OwnExamples PropChain.
Local Open Scope N_scope.

(** *** A transfer of another chain that timed out at once *)
Definition rawl : raw_tx := MkRaw (mixd [x6f]) (rt_nonce rawq) (wrap64 0) (rt_fee rawq) (rt_action rawq).
Definition txl : signed_tx := MkSigned rawl (mixd (enc_raw rawl)) [x01] [x05].
Definition pl : pill := Eval vm_compute in MkPill (MkEpoch (ep_header (pl_epoch (propose_at lqq 4 80))) [st_tx_hash txl]) [].
Definition ll : list event := lqq ++ [EvCall (CallCheck hr pl (Ok []) (Ok [txl])); EvCall (CallCommit (cs_epoch_id (nd_status nr)) (commit_of 4 pl)); EvCall (CallCommitRest canons (Ok tt))].
Definition missing_b (n : node) (t : signed_tx) : bool := match mp_lookup (nd_pool n) (st_tx_hash t) with None => true | _ => false end.
Lemma missing_b_ok n t : missing_b n t = true -> mp_lookup (nd_pool n) (st_tx_hash t) = None.
Proof. unfold missing_b. destruct (mp_lookup _ _); [discriminate|reflexivity]. Qed.
Definition late_b (n : node) (t : signed_tx) : bool := u64v (rt_timeout (st_raw t)) <? u64v (cs_epoch_id (nd_status n)).
Lemma late_b_ok n t : late_b n t = true -> u64v (rt_timeout (st_raw t)) < u64v (cs_epoch_id (nd_status n)).
Proof. apply N.ltb_lt. Qed.
Definition late_check : bool := missing_b nr txl && late_b nr txl && alices_b txl && states_b ll && seen_b ll && fitting_b (historyx ll).
Lemma late_good : late_check = true.
Proof. vm_compute. reflexivity. Qed.
Lemma ll_orders : Forall (fun e => forall m, orders_ok m e) ll.
Proof. repeat (apply Forall_cons; split; [intros m; first [exact I|split; apply (canons_ok O)|exact canons_ok]|]); apply Forall_nil; exact I. Qed.
Lemma late_orders : bl_eqb (ids (ep_ordered_tx_hashes (pl_epoch pl))) (ids [st_tx_hash txl]) = true.
Proof. vm_compute. reflexivity. Qed.
(** The hypotheses of C102_executed_anyway_refuted *)
Example late_hypotheses :
  rootx ∅ = hash_from_empty mixd /\ parsed_genesis (cf_genesis cfx) [x60; x61] gen0_allocs /\
  along mixd rootx showx verifyx comb_shapes cfx replies_match (Down (∅, ∅)) lqq /\ historyx lqq = Up nr /\ nd_busy nr = Idle /\
  u64v (rt_timeout (st_raw txl)) < u64v (cs_epoch_id (nd_status nr)) /\ mp_lookup (nd_pool nr) (st_tx_hash txl) = None /\
  hr ∉ nd_exempt nr /\ pl_propose_hashes pl = [] /\ ep_ordered_tx_hashes (pl_epoch pl) = [st_tx_hash txl] /\
  rt_action (st_raw txl) = Transfer bob (MkCarrying stok 10) /\ is_sender mixd txl (AUser alice) /\
  (exists m b, ledger_at mixd (nd_disk nr) (cs_state_root (nd_status nr)) m b /\ is_Some (b !! stok) /\ 10 <= bal m (AUser alice) stok) /\
  210 <= fee_cycle (rt_fee (st_raw txl)) /\ cm_pill (commit_of 4 pl) = pl /\ length (cm_epoch_hash (commit_of 4 pl)) = 32%nat /\
  states_ok mixd rootx showx verifyx comb_shapes cfx ll /\ epochs_ok mixd rootx showx verifyx comb_shapes cfx ll /\
  exists n, historyx ll = Up n /\ db_fits (nd_disk n).1.
Proof.
  pose proof late_good as H. unfold late_check in H.
  apply andb_true_iff in H as [H H6]. apply andb_true_iff in H as [H H5]. apply andb_true_iff in H as [H H4].
  apply andb_true_iff in H as [H H3]. apply andb_true_iff in H as [H1 H2].
  pose proof replay_hypotheses as (A1 & A2 & A3 & A4 & A5 & _ & _ & A8 & _ & _ & _ & _ & A13 & _).
  split; [exact A1|]. split; [exact A2|]. split; [exact A3|]. split; [exact A4|]. split; [exact A5|].
  split. { exact (late_b_ok _ _ H2). }
  split. { exact (missing_b_ok _ _ H1). }
  split. { exact A8. }
  split. { reflexivity. }
  split. { exact (hashes_eqb_eq _ _ late_orders). }
  split. { reflexivity. }
  split. { exact (alices_b_ok _ H3). }
  split. { exact A13. }
  split. { exact cycles_q. }
  split. { reflexivity. }
  split. { exact (sized_len _). }
  split. { exact (states_b_ok _ ll_orders H4). }
  split. { exact (seen_b_ok _ H5). }
  exact (fitting_b_ok _ H6).
Qed.

(** *** A proposal that names another chain *)
Definition rename (h : epoch_header) : epoch_header :=
  MkHeader (mixd [x6f]) (eh_epoch_id h) (eh_pre_hash h) (eh_timestamp h) (eh_logs_bloom h) (eh_order_root h) (eh_confirm_root h) (eh_state_root h)
    (eh_receipt_root h) (eh_cycles_used h) (eh_proposer h) (eh_proof h) (eh_validator_version h) (eh_validators h).
Definition pn : pill := Eval vm_compute in MkPill (MkEpoch (rename (ep_header (pl_epoch (propose_at lqq 4 80)))) []) [].
Definition ln : list event := lqq ++ [EvCall (CallCommit (cs_epoch_id (nd_status nr)) (commit_of 4 pn))].
Definition ln2 : list event := ln ++ [EvCall (CallCommitRest canons (Ok tt))].
Definition rename_check : bool := negb (heqb (eh_chain_id (ep_header (pl_epoch pn))) (cf_chain_id cfx)) && states_b lqq && seen_b ln && fitting_b (historyx ln2).
Lemma rename_good : rename_check = true.
Proof. vm_compute. reflexivity. Qed.
Lemma lqq_orders : Forall (fun e => forall m, orders_ok m e) lqq.
Proof. repeat (apply Forall_cons; split; [intros m; first [exact I|split; apply (canons_ok O)|exact canons_ok]|]); apply Forall_nil; exact I. Qed.
Lemma heqb_ne a b : negb (heqb a b) = true -> a <> b.
Proof. intros H ->. rewrite heqb_refl in H. discriminate H. Qed.
(** The hypotheses of C102_renamed_refuted *)
Example rename_hypotheses :
  rootx ∅ = hash_from_empty mixd /\ parsed_genesis (cf_genesis cfx) [x60; x61] gen0_allocs /\
  states_ok mixd rootx showx verifyx comb_shapes cfx lqq /\
  along mixd rootx showx verifyx comb_shapes cfx replies_match (Down (∅, ∅)) lqq /\ historyx lqq = Up nr /\ nd_busy nr = Idle /\
  (exists m b, ledger_at mixd (nd_disk nr) (cs_state_root (nd_status nr)) m b) /\ (forall i, order_ok (canons i)) /\
  hr ∉ nd_exempt nr /\ pl_propose_hashes pn = [] /\ ep_ordered_tx_hashes (pl_epoch pn) = [] /\
  eh_chain_id (ep_header (pl_epoch pn)) <> cf_chain_id cfx /\
  cm_pill (commit_of 4 pn) = pn /\ length (cm_epoch_hash (commit_of 4 pn)) = 32%nat /\
  epochs_ok mixd rootx showx verifyx comb_shapes cfx ln /\ exists n, historyx ln2 = Up n /\ db_fits (nd_disk n).1.
Proof.
  pose proof rename_good as H. unfold rename_check in H.
  apply andb_true_iff in H as [H H4]. apply andb_true_iff in H as [H H3]. apply andb_true_iff in H as [H1 H2].
  pose proof replay_hypotheses as (A1 & A2 & A3 & A4 & A5 & _ & _ & A8 & _ & _ & _ & _ & (m & b & A13 & _) & _).
  split; [exact A1|]. split; [exact A2|]. split. { exact (states_b_ok _ lqq_orders H2). }
  split; [exact A3|]. split; [exact A4|]. split; [exact A5|].
  split. { exists m, b. exact A13. }
  split. { exact canons_ok. }
  split. { exact A8. }
  split. { reflexivity. }
  split. { reflexivity. }
  split. { exact (heqb_ne _ _ H1). }
  split. { reflexivity. }
  split. { exact (sized_len _). }
  split. { exact (seen_b_ok _ H3). }
  exact (fitting_b_ok _ H4).
Qed.

(** *** The history of OwnExamples is of this chain and executes a block; the
    node proposes a transaction in time. *)
Definition tx_chain_b (t : signed_tx) : bool := heqb (rt_chain_id (st_raw t)) (cf_chain_id cfx).
Definition chain_b (e : event) : bool :=
  match event_call e with
  | Some c => forallb (fun ep => heqb (eh_chain_id (ep_header ep)) (cf_chain_id cfx)) (call_epochs c) && forallb tx_chain_b (pulled c)
  | None => true end.
Lemma chain_b_ok e m : chain_b e = true -> of_this_chain cfx m e.
Proof.
  unfold chain_b, of_this_chain. intros H c Hc. rewrite Hc in H. apply andb_true_iff in H as [H1 H2]. rewrite forallb_forall in H1, H2.
  split; apply Forall_forall; intros x Hx; apply elem_of_list_In in Hx; apply heqb_eq; [apply H1|apply H2]; exact Hx.
Qed.
Lemma chain_all l : forallb chain_b l = true -> forall m, along mixd rootx showx verifyx comb_shapes cfx (of_this_chain cfx) m l.
Proof.
  induction l as [|e l IH]; intros H m; [exact I|]. cbn [forallb] in H. apply andb_true_iff in H as [H1 H2].
  split; [apply chain_b_ok, H1|apply IH, H2].
Qed.
Lemma chain_good : forallb chain_b (lm ++ [lend]) && seen_b (lm ++ [lend]) = true.
Proof. vm_compute. reflexivity. Qed.
Example chain_hypotheses :
  epochs_ok mixd rootx showx verifyx comb_shapes cfx (lm ++ [lend]) /\
  along mixd rootx showx verifyx comb_shapes cfx (of_this_chain cfx) (Down (∅, ∅)) (lm ++ [lend]) /\
  historyx lm = Up nm /\ event_call lend = Some (CallCommitRest canons (Ok tt)) /\
  exists x txs x', runs_block mixd rootx showx cfx nm (CallCommitRest canons (Ok tt)) x txs x'.
Proof.
  pose proof chain_good as H. apply andb_true_iff in H as [H1 H2].
  pose proof spending_hypotheses as (_ & _ & _ & _ & A1 & A2 & x & txs & x' & A3 & _).
  split; [exact (seen_b_ok _ H2)|]. split; [exact (chain_all _ H1 _)|]. split; [exact A1|]. split; [exact A2|]. exists x, txs, x'. exact A3.
Qed.

Definition timely_b (m : machine) : bool :=
  match m with
  | Up n => negb (u64v (cs_epoch_id (nd_status n)) =? 0) &&
      match runx (CallPropose (cs_epoch_id (nd_status n)) (wrap64 70)) n with
      | (Ok (RepPill p _), _, _) => negb (bool_decide (ep_ordered_tx_hashes (pl_epoch p) = []))
      | _ => false end
  | _ => false end.
Lemma timely_b_ok m : timely_b m = true -> exists n p ph n' tr, m = Up n /\ cs_epoch_id (nd_status n) <> wrap64 0 /\
  runx (CallPropose (cs_epoch_id (nd_status n)) (wrap64 70)) n = (Ok (RepPill p ph), n', tr) /\ ep_ordered_tx_hashes (pl_epoch p) <> [].
Proof.
  destruct m as [d|n]; [discriminate|]. unfold timely_b. intros H. apply andb_true_iff in H as [H1 H2].
  destruct (runx (CallPropose (cs_epoch_id (nd_status n)) (wrap64 70)) n) as [[r n'] tr] eqn:E. destruct r as [[|p ph|]|e|]; try discriminate H2.
  exists n, p, ph, n', tr. split; [reflexivity|]. split; [intros X; rewrite X in H1; discriminate H1|]. split; [exact E|].
  apply (proj1 (negb_true_iff _)) in H2. apply bool_decide_eq_false in H2. exact H2.
Qed.
Lemma timely_good : along_b (Down (∅, ∅)) lA && seen_b lA && timely_b (historyx lA) = true.
Proof. vm_compute. reflexivity. Qed.
(** The hypotheses of C102_own_proposals_in_time *)
Example timely_hypotheses :
  epochs_ok mixd rootx showx verifyx comb_shapes cfx lA /\ along mixd rootx showx verifyx comb_shapes cfx one_more (Down (∅, ∅)) lA /\
  exists n p ph n' tr, historyx lA = Up n /\ cs_epoch_id (nd_status n) <> wrap64 0 /\
    runx (CallPropose (cs_epoch_id (nd_status n)) (wrap64 70)) n = (Ok (RepPill p ph), n', tr) /\ ep_ordered_tx_hashes (pl_epoch p) <> [].
Proof.
  pose proof timely_good as H. apply andb_true_iff in H as [H H3]. apply andb_true_iff in H as [H1 H2].
  split; [exact (seen_b_ok _ H2)|]. split; [exact (proj1 (proj2 (proj2 (along_b_ok _ H1))))|exact (timely_b_ok _ H3)].
Qed.
