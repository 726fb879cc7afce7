(** * C100 on a concrete node. *)
From Verif Require Import Base BaseFacts Hex Types Rlp RlpFacts FixedCodec StateAdapter Executor ExecSpec Mempool MempoolSpec MempoolMore Merkle Bincode ConsMsg PropConsMsg
  Proto Wire WireFacts Storage StorageSpec StorageFacts StorageExamples Consensus ConsSpec ConsFacts ConsInv LedgerSpec Keccak MixSetup ConsExamples LedgerExamples
  SyncExamples StuckExamples HaltExamples EndExamples PropEnd PropOnce.
Local Open Scope N_scope.

(** *** Careful: one transaction committed, another submitted and proposed *)
Definition lA : list event := l2 ++ [EvCall rest; EvCall (CallInsert false txq (Ok tt))].
Definition under_b (n : node) (h : hash) : bool :=
  match nd_busy n with Committing _ _ _ txs => existsb (fun t => heqb (st_tx_hash t) h) txs | _ => false end.
Definition none_b (n : node) (h : hash) : bool :=
  match get_transaction_by_hash rocks_col (nd_disk n).1 h with Err GetNone => true | _ => false end.
Definition careful_b (m : machine) (e : event) : bool :=
  match m, e with
  | Up n, EvCall (CallInsert _ t _) => negb (under_b n (st_tx_hash t))
  | Up n, EvCall (CallCheck _ _ (Ok l) _) => forallb (fun t => none_b n (st_tx_hash t) && negb (under_b n (st_tx_hash t))) l
  | Up n, EvCall (CallSyncEpoch _ _ (Ok (RpTxs l))) => forallb (fun t => negb (bool_decide (is_Some (mp_pooled (nd_pool n) (st_tx_hash t))))) l
  | _, _ => true
  end.
Fixpoint careful_along (m : machine) (l : list event) : bool :=
  match l with [] => true | e :: r => careful_b m e && careful_along (happens mixd rootx showx verifyx comb_shapes cfx m e) r end.
Lemma under_b_ok n h : under_b n h = false -> ~ under_way n h.
Proof.
  unfold under_b, under_way. destruct (nd_busy n); auto. intros H X. apply elem_of_list_fmap in X as (t & -> & Ht).
  apply elem_of_list_In in Ht. assert (existsb (fun t0 => heqb (st_tx_hash t0) (st_tx_hash t)) txs = true) as Y; [|congruence].
  apply existsb_exists. exists t. split; [exact Ht|]. apply heqb_refl.
Qed.
Lemma careful_b_ok m e : careful_b m e = true -> careful m e.
Proof.
  unfold careful_b, careful. destruct m as [d|n]; [auto|]. destruct e as [c| | |]; auto. destruct c as [net t s| |h p pl1 pl2| | | |os re rt]; auto.
  - intros H. apply under_b_ok. apply negb_true_iff, H.
  - destruct pl1 as [l| |]; auto. intros H t Ht. apply elem_of_list_In in Ht. rewrite forallb_forall in H. specialize (H t Ht).
    apply andb_true_iff in H as [H1 H2]. split; [|apply under_b_ok, negb_true_iff, H2]. unfold none_b in H1.
    destruct (get_transaction_by_hash rocks_col (nd_disk n).1 (st_tx_hash t)) as [v|[]|]; try discriminate H1. reflexivity.
  - destruct rt as [[|l]| |]; auto. intros H t Ht. apply elem_of_list_In in Ht. rewrite forallb_forall in H. specialize (H t Ht).
    apply negb_true_iff, bool_decide_eq_false in H. destruct (mp_pooled (nd_pool n) (st_tx_hash t)); [|reflexivity]. destruct H. eauto.
Qed.
Lemma careful_along_ok l : forall m, careful_along m l = true -> along mixd rootx showx verifyx comb_shapes cfx careful m l.
Proof.
  induction l as [|e l IH]; intros m; cbn [careful_along along]; [auto|]. intros H. apply andb_true_iff in H as [H1 H2].
  split; [apply careful_b_ok, H1|apply IH, H2].
Qed.
Definition proposes_b (l : list event) (id : N) (h : hash) : bool :=
  match historyx l with
  | Up n => match runx (CallPropose (wrap64 id) (wrap64 70)) n with
            | (Ok (RepPill p _), _, _) => bl_eqb (ids (ep_ordered_tx_hashes (pl_epoch p))) (ids [h])
            | _ => false end
  | _ => false end.
Lemma careful_check : careful_along (Down (∅, ∅)) lA && proposes_b lA 2 (st_tx_hash txq) = true.
Proof. vm_compute. reflexivity. Qed.
(** The hypotheses of C100_own_proposals_fresh, with a proposal naming one transaction *)
Example careful_hypotheses : along mixd rootx showx verifyx comb_shapes cfx careful (Down (∅, ∅)) lA /\
  exists n p ph n' tr, historyx lA = Up n /\ runx (CallPropose (wrap64 2) (wrap64 70)) n = (Ok (RepPill p ph), n', tr) /\
    ep_ordered_tx_hashes (pl_epoch p) = [st_tx_hash txq].
Proof.
  pose proof careful_check as H. apply andb_true_iff in H as [H1 H2]. split; [apply careful_along_ok, H1|].
  unfold proposes_b in H2. destruct (historyx lA) as [d|n]; [discriminate H2|].
  destruct (runx (CallPropose (wrap64 2) (wrap64 70)) n) as [[r n'] tr] eqn:E. destruct r as [[|p ph|]|e|]; try discriminate H2.
  exists n, p, ph, n', tr. split; [reflexivity|]. split; [exact E|]. apply hashes_eqb_eq, H2.
Qed.

(** *** Replayed: [txq], committed in epoch 3, is proposed for epoch 4 *)
Notation nr := (node_of (historyx lqq)).
Definition again (e : epoch) : epoch := MkEpoch (ep_header e) [st_tx_hash txq].
Definition pr : pill := Eval vm_compute in MkPill (again (pl_epoch (propose_at lqq 4 80))) [].
Definition hr : hash := mixd [x77].
Definition lr : list event := lqq ++ [EvCall (CallCheck hr pr (Ok []) (Ok [txq])); EvCall (CallCommit (cs_epoch_id (nd_status nr)) (commit_of 4 pr)); EvCall (CallCommitRest canons (Ok tt))].
Definition stored_b (n : node) (t : signed_tx) : bool :=
  match get_transaction_by_hash rocks_col (nd_disk n).1 (st_tx_hash t) with
  | Ok v => bytes_eqb (wenc_signed v) (wenc_signed t) && (blen (wenc_signed v) <? two64) && match rt_action (st_raw v) with Transfer _ _ => true | _ => false end
  | _ => false end.
Lemma stored_b_ok n : stored_b n txq = true -> get_transaction_by_hash rocks_col (nd_disk n).1 (st_tx_hash txq) = Ok txq.
Proof.
  unfold stored_b. destruct (get_transaction_by_hash rocks_col (nd_disk n).1 (st_tx_hash txq)) as [t|e|]; try discriminate.
  intros H. apply andb_true_iff in H as [H H4]. apply andb_true_iff in H as [H1 H2]. apply bytes_eqb_eq in H1. apply N.ltb_lt in H2.
  assert (t = txq) as ->; [|reflexivity].
  assert (tx_plain t) as P by (unfold tx_plain; destruct (rt_action (st_raw t)); try discriminate H4; exact I).
  pose proof (wdec_tx_plain t P H2) as W. unfold fits in H2. rewrite H1 in W, H2.
  rewrite (wdec_tx_plain txq I H2) in W. injection W as <-. reflexivity.
Qed.
Definition free_b (n : node) : bool := match mp_lookup (nd_pool n) (st_tx_hash txq) with None => true | _ => false end.
Lemma free_b_ok n : free_b n = true -> mp_lookup (nd_pool n) (st_tx_hash txq) = None.
Proof. unfold free_b. destruct (mp_lookup _ _); [discriminate|reflexivity]. Qed.
Definition exempt_b (n : node) : bool := existsb (heqb hr) (nd_exempt n).
Lemma exempt_b_ok n : exempt_b n = false -> hr ∉ nd_exempt n.
Proof.
  unfold exempt_b. intros H X. apply elem_of_list_In in X. assert (existsb (heqb hr) (nd_exempt n) = true) as Y; [|congruence].
  apply existsb_exists. exists hr. split; [exact X|]. apply heqb_refl.
Qed.
Definition fitting_b (m : machine) : bool := match m with Up n => fits_b (nd_disk n) | _ => false end.
Lemma fitting_b_ok m : fitting_b m = true -> exists n, m = Up n /\ db_fits (nd_disk n).1.
Proof. destruct m as [d|n]; [discriminate|]. intros H. exists n. split; [reflexivity|exact (fits_b_ok _ H)]. Qed.
Definition replay_check : bool :=
  along_b (Down (∅, ∅)) lqq && up_b (historyx lqq) && idle_b nr && stored_b nr txq && free_b nr && negb (exempt_b nr) &&
  rich_b nr alice stok 10 && states_b lr && seen_b lr && fitting_b (historyx lr).
Lemma replay_good : replay_check = true.
Proof. vm_compute. reflexivity. Qed.
Lemma lr_orders : Forall (fun e => forall m, orders_ok m e) lr.
Proof. repeat (apply Forall_cons; split; [intros m; first [exact I|split; apply (canons_ok O)|exact canons_ok]|]); apply Forall_nil; exact I. Qed.

(** The hypotheses of C100_replayed_refuted: [txq] has been committed once
    ([lqq]), alice can pay again. *)
Example replay_hypotheses :
  rootx ∅ = hash_from_empty mixd /\ parsed_genesis (cf_genesis cfx) [x60; x61] gen0_allocs /\
  along mixd rootx showx verifyx comb_shapes cfx replies_match (Down (∅, ∅)) lqq /\ historyx lqq = Up nr /\ nd_busy nr = Idle /\
  get_transaction_by_hash rocks_col (nd_disk nr).1 (st_tx_hash txq) = Ok txq /\ mp_lookup (nd_pool nr) (st_tx_hash txq) = None /\
  hr ∉ nd_exempt nr /\ pl_propose_hashes pr = [] /\ ep_ordered_tx_hashes (pl_epoch pr) = [st_tx_hash txq] /\
  rt_action (st_raw txq) = Transfer bob (MkCarrying stok 10) /\ is_sender mixd txq (AUser alice) /\
  (exists m b, ledger_at mixd (nd_disk nr) (cs_state_root (nd_status nr)) m b /\ is_Some (b !! stok) /\ 10 <= bal m (AUser alice) stok) /\
  210 <= fee_cycle (rt_fee (st_raw txq)) /\ cm_pill (commit_of 4 pr) = pr /\ length (cm_epoch_hash (commit_of 4 pr)) = 32%nat /\
  states_ok mixd rootx showx verifyx comb_shapes cfx lr /\ epochs_ok mixd rootx showx verifyx comb_shapes cfx lr /\
  exists n, historyx lr = Up n /\ db_fits (nd_disk n).1.
Proof.
  pose proof replay_good as H. unfold replay_check in H.
  apply andb_true_iff in H as [H H10]. apply andb_true_iff in H as [H H9]. apply andb_true_iff in H as [H H8]. apply andb_true_iff in H as [H H7].
  apply andb_true_iff in H as [H H6]. apply andb_true_iff in H as [H H5]. apply andb_true_iff in H as [H H4]. apply andb_true_iff in H as [H H3].
  apply andb_true_iff in H as [H1 H2].
  pose proof end_hypotheses as (_ & _ & _ & _ & _ & _ & _ & _ & _ & _ & _ & _ & A1 & _ & A2 & _).
  split; [exact (proj1 ledger_story_hypotheses)|]. split; [exact gen0_parsed|].
  split. { exact (proj1 (along_b_ok _ H1)). }
  split. { exact (up_b_ok _ H2). }
  split. { exact (idle_b_ok _ H3). }
  split. { exact (stored_b_ok _ H4). }
  split. { exact (free_b_ok _ H5). }
  split. { exact (exempt_b_ok _ (proj1 (negb_true_iff _) H6)). }
  split. { reflexivity. }
  split. { apply hashes_eqb_eq. vm_compute. reflexivity. }
  split. { reflexivity. }
  split. { exact A1. }
  split. { exact (rich_b_ok _ _ _ _ H7). }
  split. { exact A2. }
  split. { reflexivity. }
  split. { exact (sized_len _). }
  split. { exact (states_b_ok _ lr_orders H8). }
  split. { exact (seen_b_ok _ H9). }
  exact (fitting_b_ok _ H10).
Qed.

(** *** Caught up: a peer commits [txq] in epoch 2 and an empty epoch 3; the
    node, at epoch 1 with [txq] in its pool, pulls both. *)
Definition lp2 : list event := l2 ++ [EvCall rest; EvCall (CallInsert false txq (Ok tt))].
Definition e2 : pill := Eval vm_compute in propose_at lp2 2 70.
Definition lp3 : list event := lp2 ++ [EvCall (CallPropose (wrap64 2) (wrap64 70)); EvCall (CallCommit (wrap64 2) (commit_of 2 e2)); EvCall rest].
Definition e3 : pill := Eval vm_compute in propose_at lp3 3 80.
Definition lb : list event := l2 ++ [EvCall rest].
Notation nb := (node_of (historyx lb)).
Definition lsync : list event := [EvCall (CallSync (enc_fixed_epoch_id (wrap64 4)) (Ok (RpEpoch (pl_epoch e2))));
  EvCall (CallSyncEpoch canons (Ok (RpEpoch (pl_epoch e2))) (Ok (RpTxs [txq])));
  EvCall (CallSyncEpoch canons (Ok (RpEpoch (pl_epoch e3))) (Ok (RpTxs [])));
  EvCall (CallSyncEpoch canons (Ok (RpEpoch (pl_epoch e3))) (Ok (RpTxs [])))].
Definition ls : list event := lb ++ EvCall (CallInsert false txq (Ok tt)) :: lsync.
Notation ns := (node_of (historyx ls)).
Definition taken_b (n : node) : bool := match (runx (CallInsert false txq (Ok tt)) n).1.1 with Ok RepUnit => true | _ => false end.
Lemma taken_b_ok n : taken_b n = true -> exists n1 tr, runx (CallInsert false txq (Ok tt)) n = (Ok RepUnit, n1, tr).
Proof.
  unfold taken_b. destruct (runx (CallInsert false txq (Ok tt)) n) as [[r n1] tr]. cbn [fst]. destruct r as [[]| |]; try discriminate. eauto.
Qed.
Definition sync_check : bool :=
  up_b (historyx lb) && (mp_len (nd_pool nb) =? 0)%nat && taken_b nb && up_b (historyx ls) && stored_b ns txq &&
  same_epoch (get_latest_epoch rocks_col mixd (nd_disk ns).1) (pl_epoch e3) &&
  (u64v (eh_epoch_id (ep_header (pl_epoch e3))) <? u64v (rt_timeout (st_raw txq))) &&
  (u64v (rt_timeout (st_raw txq)) <=? (u64v (eh_epoch_id (ep_header (pl_epoch e3))) + u64v (cf_gap cfx)) mod two64) &&
  (u64v (cs_limit (nd_status ns)) <? 9223372036854775808) && (u64v (fee_cycle (rt_fee (st_raw txq))) <=? u64v (cs_limit (nd_status ns))) &&
  bl_eqb (ids (ep_ordered_tx_hashes (pl_epoch e2))) (ids [st_tx_hash txq]).
Lemma sync_good : sync_check = true.
Proof. vm_compute. reflexivity. Qed.
(** The hypotheses of C100_proposed_again_after_sync_refuted *)
Example sync_hypotheses :
  historyx lb = Up nb /\ mp_len (nd_pool nb) = 0%nat /\
  (exists n1 tr, runx (CallInsert false txq (Ok tt)) nb = (Ok RepUnit, n1, tr)) /\ Forall sync_event lsync /\
  historyx (lb ++ EvCall (CallInsert false txq (Ok tt)) :: lsync) = Up ns /\
  get_transaction_by_hash rocks_col (nd_disk ns).1 (st_tx_hash txq) = Ok txq /\
  get_latest_epoch rocks_col mixd (nd_disk ns).1 = Ok (pl_epoch e3) /\
  eh_epoch_id (ep_header (pl_epoch e3)) < rt_timeout (st_raw txq) /\
  rt_timeout (st_raw txq) <= (eh_epoch_id (ep_header (pl_epoch e3)) + cf_gap cfx) mod two64 /\
  small (cs_limit (nd_status ns)) /\ fee_cycle (rt_fee (st_raw txq)) <= cs_limit (nd_status ns).
Proof.
  pose proof sync_good as H. unfold sync_check in H. apply andb_true_iff in H as [H _].
  apply andb_true_iff in H as [H H10]. apply andb_true_iff in H as [H H9]. apply andb_true_iff in H as [H H8]. apply andb_true_iff in H as [H H7].
  apply andb_true_iff in H as [H H6]. apply andb_true_iff in H as [H H5]. apply andb_true_iff in H as [H H4]. apply andb_true_iff in H as [H H3].
  apply andb_true_iff in H as [H1 H2].
  split; [exact (up_b_ok _ H1)|]. split; [exact (proj1 (Nat.eqb_eq _ _) H2)|]. split; [exact (taken_b_ok _ H3)|].
  split. { repeat (apply Forall_cons; split; [exact I|]). apply Forall_nil; exact I. }
  split. { exact (up_b_ok _ H4). }
  split. { exact (stored_b_ok _ H5). }
  split. { exact (proj1 (same_epoch_ok _ _ H6)). }
  split. { exact (proj1 (N.ltb_lt _ _) H7). }
  split. { exact (proj1 (N.leb_le _ _) H8). }
  split. { exact (proj1 (N.ltb_lt _ _) H9). }
  exact (proj1 (N.leb_le _ _) H10).
Qed.
