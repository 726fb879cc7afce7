(** * C93 and C95 on a concrete node. *)
From Verif Require Import Base BaseFacts Hex Types Rlp RlpFacts FixedCodec StateAdapter Executor ExecSpec Mempool MempoolSpec MempoolMore Merkle Bincode ConsMsg PropConsMsg
  Proto Wire WireFacts Storage StorageSpec StorageExamples Consensus ConsSpec ConsFacts ConsInv LedgerSpec Keccak MixSetup ConsExamples LedgerExamples
  SyncExamples StuckExamples PropHalt PropProgress.
Local Open Scope N_scope.

Definition kind_b (p : address * account) : bool :=
  match p with (AUser _, AccUser _) | (AContract _, AccContract _) => true | _ => false end.
Lemma kinds_b_ok (m : accounts) : forallb kind_b (map_to_list m) = true -> wf_accounts m.
Proof.
  rewrite forallb_forall. intros H a acc Ha. apply elem_of_map_to_list, elem_of_list_In in Ha. specialize (H _ Ha). cbn [kind_b] in H.
  destruct a, acc; try discriminate H; exact I.
Qed.
Definition open_at (n : node) (id : u64) (cb : user_address) : res exec_err executor :=
  Executor.from_root mixd (cf_chain_id cfx) (cs_state_root (nd_status n)) (nd_disk n).2 id (cs_price (nd_status n)) (AUser cb).
(** [a] has (or has not) an account, in a well-formed state, if it opens. *)
Definition account_b (n : node) (id : u64) (cb a : user_address) (present : bool) : bool :=
  match open_at n id cb with
  | Ok x => forallb kind_b (map_to_list (committed x)) &&
            match committed x !! AUser a with Some _ => present | None => negb present end
  | _ => false
  end.
Lemma absent_ok n id cb a : account_b n id cb a false = true ->
  forall x, open_at n id cb = Ok x -> wf_accounts (committed x) /\ committed x !! AUser a = None.
Proof.
  unfold account_b. intros H x E. rewrite E in H. apply andb_true_iff in H as [H1 H2]. split; [apply kinds_b_ok, H1|].
  destruct (committed x !! AUser a); [discriminate H2|reflexivity].
Qed.
Lemma present_ok n id cb a : account_b n id cb a true = true ->
  forall x, open_at n id cb = Ok x -> is_Some (committed x !! AUser a).
Proof.
  unfold account_b. intros H x E. rewrite E in H. apply andb_true_iff in H as [H1 H2].
  destruct (committed x !! AUser a); [eauto|discriminate H2].
Qed.

(** ** C93: dave, who has no account, sends a transfer after two commits. *)
Definition dave := user_of [x04].
Definition rawd : raw_tx := MkRaw chainx (mixd [x01]) (wrap64 20) (MkFee stok (wrap64 1000)) (Transfer bob (MkCarrying stok 1)).
Definition txd : signed_tx := MkSigned rawd (mixd (enc_raw rawd)) [x04] [x05].
Definition node_of (m : machine) : node :=
  match m with Up n => n | Down d => MkNode (start_status mixd cfx (genesis_epoch mixd cfx (mixd []))) [] (mp_new 1%nat (wrap64 1)) d Idle [] end.
Notation n4 := (node_of (historyx l4)).
Notation n4i := (runx (CallInsert false txd (Ok tt)) n4).

Definition up_b (m : machine) : bool := match m with Up _ => true | Down _ => false end.
Lemma up_b_ok m : up_b m = true -> m = Up (node_of m).
Proof. destruct m; [discriminate|reflexivity]. Qed.
Definition unit_ok (r : res cn_err reply) : bool := match r with Ok RepUnit => true | _ => false end.
Lemma unit_ok_eq r : unit_ok r = true -> r = Ok RepUnit.
Proof. destruct r as [[]|x|]; try discriminate. reflexivity. Qed.

Lemma halt_check :
  up_b (historyx l4) && idle_b n4 && (mp_len (nd_pool n4) =? 0)%nat &&
  same_epoch (get_latest_epoch rocks_col mixd (nd_disk n4).1) (pl_epoch p2) &&
  bytes_eqb (ua dave) (sender_bytes mixd txd) &&
  account_b n4 (cs_epoch_id (nd_status n4)) (cf_self cfx) dave false &&
  unit_ok n4i.1.1 &&
  (u64v (cs_limit (nd_status n4)) <? 9223372036854775808) &&
  (u64v (fee_cycle (rt_fee (st_raw txd))) <=? u64v (cs_limit (nd_status n4))) &&
  (u64v (eh_epoch_id (ep_header (pl_epoch p2))) <? u64v (rt_timeout (st_raw txd))) &&
  negb (heqb (LATEST_EPOCH_KEY mixd) (LATEST_PROOF_KEY mixd)) = true.
Proof. vm_compute. reflexivity. Qed.

(** The hypotheses of C93_one_client_fails_a_commit_refuted are met, and so,
    with its conclusion, are those of C93_failed_commit_is_lost_refuted. *)
Example halt_hypotheses :
  LATEST_EPOCH_KEY mixd <> LATEST_PROOF_KEY mixd /\
  historyx l4 = Up n4 /\ nd_busy n4 = Idle /\ mp_len (nd_pool n4) = 0%nat /\
  get_latest_epoch rocks_col mixd (nd_disk n4).1 = Ok (pl_epoch p2) /\
  is_sender mixd txd (AUser dave) /\
  (forall x, Executor.from_root mixd (cf_chain_id cfx) (cs_state_root (nd_status n4)) (nd_disk n4).2 (cs_epoch_id (nd_status n4))
     (cs_price (nd_status n4)) (AUser (cf_self cfx)) = Ok x -> wf_accounts (committed x) /\ committed x !! AUser dave = None) /\
  n4i.1.1 = Ok RepUnit /\
  small (cs_limit (nd_status n4)) /\ fee_cycle (rt_fee (st_raw txd)) <= cs_limit (nd_status n4) /\
  eh_epoch_id (ep_header (pl_epoch p2)) < rt_timeout (st_raw txd).
Proof.
  pose proof halt_check as H.
  apply andb_true_iff in H as [H H11]. apply andb_true_iff in H as [H H10]. apply andb_true_iff in H as [H H9]. apply andb_true_iff in H as [H H8].
  apply andb_true_iff in H as [H H7]. apply andb_true_iff in H as [H H6]. apply andb_true_iff in H as [H H5]. apply andb_true_iff in H as [H H4].
  apply andb_true_iff in H as [H H3]. apply andb_true_iff in H as [H1 H2].
  split. { intros X. rewrite X, heqb_refl in H11. discriminate H11. }
  split. { exact (up_b_ok _ H1). }
  split. { exact (idle_b_ok _ H2). }
  split. { exact (proj1 (Nat.eqb_eq _ _) H3). }
  split. { exact (proj1 (same_epoch_ok _ _ H4)). }
  split. { exact (proj1 (bytes_eqb_eq _ _) H5). }
  split. { exact (absent_ok _ _ _ _ H6). }
  split. { exact (unit_ok_eq _ H7). }
  split. { exact (proj1 (N.ltb_lt _ _) H8). }
  split. { exact (proj1 (N.leb_le _ _) H9). }
  exact (proj1 (N.ltb_lt _ _) H10).
Qed.

(** ** C95: alice's transaction, in the middle of its commit *)
Notation n2 := (node_of (historyx l2)).
Definition committing_b (n : node) (id : N) (hs : list hash) (a : user_address) : bool :=
  match nd_busy n with
  | Committing i p _ txs =>
      (u64v i =? id) && bl_eqb (ids (map st_tx_hash txs)) (ids hs) &&
      forallb (fun t => match rt_action (st_raw t) with Transfer _ _ => true | _ => false end) txs &&
      forallb (fun t => bytes_eqb (ua a) (sender_bytes mixd t)) txs &&
      account_b n i (eh_proposer (ep_header (pl_epoch p))) a true
  | _ => false
  end.
Lemma committing_b_ok n id hs a : committing_b n id hs a = true -> exists i p pf txs, nd_busy n = Committing i p pf txs /\
  u64v i = id /\ map st_tx_hash txs = hs /\
  Forall (fun t => supported t /\ exists a, is_sender mixd t a /\
    forall x, Executor.from_root mixd (cf_chain_id cfx) (cs_state_root (nd_status n)) (nd_disk n).2 i (cs_price (nd_status n))
      (AUser (eh_proposer (ep_header (pl_epoch p)))) = Ok x -> is_Some (committed x !! a)) txs.
Proof.
  unfold committing_b. destruct (nd_busy n) as [|i p pf txs|]; [discriminate| |discriminate]. intros H.
  apply andb_true_iff in H as [H H5]. apply andb_true_iff in H as [H H4]. apply andb_true_iff in H as [H H3]. apply andb_true_iff in H as [H1 H2].
  exists i, p, pf, txs. split; [reflexivity|]. split; [exact (proj1 (N.eqb_eq _ _) H1)|]. split; [exact (hashes_eqb_eq _ _ H2)|].
  apply Forall_forall. intros t Ht. apply elem_of_list_In in Ht. rewrite forallb_forall in H3, H4. specialize (H3 t Ht). specialize (H4 t Ht).
  split; [unfold supported; destruct (rt_action (st_raw t)); try discriminate H3; exact I|].
  exists (AUser a). split; [exact (proj1 (bytes_eqb_eq _ _) H4)|]. exact (present_ok _ _ _ _ H5).
Qed.
Lemma progress_check : up_b (historyx l2) && committing_b n2 1 [st_tx_hash tx1] alice && states_b l2 && seen_b l2 && roots_along_b (Down (∅, ∅)) l2 = true.
Proof. vm_compute. reflexivity. Qed.
Lemma l2_orders : Forall (fun e => forall m, orders_ok m e) l2.
Proof. repeat (apply Forall_cons; split; [intros m; first [exact I|split; apply (canons_ok O)|exact canons_ok]|]); apply Forall_nil; exact I. Qed.
Example progress_hypotheses :
  rootx ∅ = hash_from_empty mixd /\ parsed_genesis (cf_genesis cfx) [x60; x61] gen0_allocs /\
  states_ok mixd rootx showx verifyx comb_shapes cfx l2 /\ epochs_ok mixd rootx showx verifyx comb_shapes cfx l2 /\
  alwaysx never_syncs l2 /\ alwaysx roots_agree l2 /\
  exists n id p pf txs, historyx l2 = Up n /\ nd_busy n = Committing id p pf txs /\ map st_tx_hash txs = [st_tx_hash tx1] /\
  Forall (fun t => supported t /\ exists a, is_sender mixd t a /\
    forall x, Executor.from_root mixd (cf_chain_id cfx) (cs_state_root (nd_status n)) (nd_disk n).2 id (cs_price (nd_status n))
      (AUser (eh_proposer (ep_header (pl_epoch p)))) = Ok x -> is_Some (committed x !! a)) txs.
Proof.
  pose proof progress_check as H. apply andb_true_iff in H as [H H5]. apply andb_true_iff in H as [H H4]. apply andb_true_iff in H as [H H3]. apply andb_true_iff in H as [H1 H2].
  split; [exact (proj1 ledger_story_hypotheses)|]. split; [exact gen0_parsed|].
  split; [exact (states_b_ok _ l2_orders H3)|]. split; [exact (seen_b_ok _ H4)|].
  split. { apply along_forall. repeat (apply Forall_cons; split; [intros m; exact I|]). apply Forall_nil; exact I. }
  split; [exact (roots_along_b_ok _ _ H5)|].
  destruct (committing_b_ok _ _ _ _ H2) as (i & p & pf & txs & A & _ & B & C).
  exists n2, i, p, pf, txs. split; [exact (up_b_ok _ H1)|]. split; [exact A|]. split; [exact B|exact C].
Qed.
