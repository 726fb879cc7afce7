(** * C29 on a concrete node: after two commits, alice asks it to send 10 to
    bob. *)
From Verif Require Import Base BaseFacts Hex Types Rlp RlpFacts FixedCodec StateAdapter Executor ExecSpec Mempool MempoolSpec MempoolMore Merkle Bincode ConsMsg PropConsMsg
  Proto Wire WireFacts Storage StorageSpec StorageFacts StorageExamples Consensus ConsSpec ConsFacts ConsInv LedgerSpec Keccak MixSetup ConsExamples LedgerExamples
  SyncExamples StuckExamples HaltExamples Api ApiSpec PropApi ApiExamples PropEnd.
Local Open Scope N_scope.

Definition rawq : raw_tx := MkRaw chainx (mixd [x02]) (wrap64 20) (MkFee stok (wrap64 1000)) (Transfer bob (MkCarrying stok 10)).
Definition in_rawq : input_raw :=
  MkInRaw (zx (out_hash chainx)) [51; 69; 56] (out_hash stok) (cap (out_hash (mixd [x02]))) (43 :: out_u64 (wrap64 20)).
Definition in_encq : input_encryption := MkInEnc (out_hash (mixd (enc_raw rawq))) [48; 49] [48; 53].
Notation askq := (send_transfer (fun t => fst (mp_insert mixd verifyx (cf_gap cfx) (nd_pool n4) false t (env_of mixd (nd_disk n4)) (Ok tt))) in_rawq in_act1 in_encq).
Definition txq : signed_tx := MkSigned rawq (mixd (enc_raw rawq)) [x01] [x05].
Definition hq : text := Eval vm_compute in match askq with (_, Ok h) => h | _ => [] end.
Definition lq : list event := Eval cbn [app l4 l3 l2 l1] in l4 ++ [EvCall (CallInsert false txq (Ok tt))].
Definition pq : pill := Eval vm_compute in propose_at lq 3 70.
Definition lqq : list event := l4 ++ [EvCall (CallInsert false txq (Ok tt)); EvCall (CallPropose (cs_epoch_id (nd_status n4)) (wrap64 70));
  EvCall (CallCommit (cs_epoch_id (nd_status n4)) (commit_of 3 pq)); EvCall (CallCommitRest canons (Ok tt))].

Definition ask_b : bool := match askq with (Some t, Ok h) => bytes_eqb (wenc_signed t) (wenc_signed txq) && (blen (wenc_signed t) <? two64) && bool_decide (h = hq) &&
  match rt_action (st_raw t) with Transfer _ _ => true | _ => false end | _ => false end.
Definition rich_b (n : node) (a : user_address) (asset : hash) (v : N) : bool :=
  match open_at n (wrap64 0) a with
  | Ok x => bool_decide (is_Some (committed_assets x !! asset)) && (v <=? bal (committed x) (AUser a) asset)
  | _ => false
  end.
Definition end_check : bool :=
  idle_b n4 && (mp_len (nd_pool n4) =? 0)%nat && same_epoch (get_latest_epoch rocks_col mixd (nd_disk n4).1) (pl_epoch p2) &&
  ask_b && bytes_eqb (ua alice) (sender_bytes mixd txq) && rich_b n4 alice stok 10 &&
  (210 <=? u64v (fee_cycle (rt_fee (st_raw txq)))) && (u64v (fee_cycle (rt_fee (st_raw txq))) <=? u64v (cs_limit (nd_status n4))) &&
  (u64v (cs_limit (nd_status n4)) <? 9223372036854775808) && (u64v (eh_epoch_id (ep_header (pl_epoch p2))) <? u64v (rt_timeout (st_raw txq))) &&
  states_b lqq && seen_b lqq && along_b (Down (∅, ∅)) l4 && up_b (historyx lqq) &&
  match historyx lqq with Up n => fits_b (nd_disk n) | _ => false end.
Lemma end_good : end_check = true.
Proof. vm_compute. reflexivity. Qed.

Lemma ask_b_ok : ask_b = true -> askq = (Some txq, Ok hq).
Proof.
  unfold ask_b. destruct askq as [[t|] [h|e|]]; try discriminate. intros H. apply andb_true_iff in H as [H H4]. apply andb_true_iff in H as [H H3].
  apply andb_true_iff in H as [H1 H2]. apply bytes_eqb_eq in H1. apply N.ltb_lt in H2. apply bool_decide_eq_true in H3. subst h.
  assert (t = txq) as ->; [|reflexivity].
  assert (tx_plain t) as P by (unfold tx_plain; destruct (rt_action (st_raw t)); try discriminate H4; exact I).
  pose proof (wdec_tx_plain t P H2) as W. unfold fits in H2. rewrite H1 in W, H2.
  rewrite (wdec_tx_plain txq I H2) in W. injection W as <-. reflexivity.
Qed.
Lemma rich_b_ok n a asset v : rich_b n a asset v = true ->
  exists m b, ledger_at mixd (nd_disk n) (cs_state_root (nd_status n)) m b /\ is_Some (b !! asset) /\ v <= bal m (AUser a) asset.
Proof.
  unfold rich_b. destruct (open_at n (wrap64 0) a) as [x|e|] eqn:E; try discriminate. intros H. apply andb_true_iff in H as [H1 H2].
  apply bool_decide_eq_true in H1. apply N.leb_le in H2. exists (committed x), (committed_assets x).
  split; [|auto]. eexists _, _, _, _, x. split; [exact E|auto].
Qed.
Lemma lqq_orders : Forall (fun e => forall m, orders_ok m e) lqq.
Proof. repeat (apply Forall_cons; split; [intros m; first [exact I|split; apply (canons_ok O)|exact canons_ok]|]); apply Forall_nil; exact I. Qed.

(** The hypotheses of C29_transfer_carried_out, those for the commit included. *)
Example end_hypotheses :
  rootx ∅ = hash_from_empty mixd /\ parsed_genesis (cf_genesis cfx) [x60; x61] gen0_allocs /\ alwaysx replies_match l4 /\
  historyx l4 = Up n4 /\ nd_busy n4 = Idle /\ mp_len (nd_pool n4) = 0%nat /\
  get_latest_epoch rocks_col mixd (nd_disk n4).1 = Ok (pl_epoch p2) /\
  plain_raw in_rawq /\ plain_transfer in_act1 /\ plain_enc in_encq /\
  askq = (Some txq, Ok hq) /\ rt_action (st_raw txq) = Transfer bob (MkCarrying stok 10) /\ is_sender mixd txq (AUser alice) /\
  (exists m b, ledger_at mixd (nd_disk n4) (cs_state_root (nd_status n4)) m b /\ is_Some (b !! stok) /\ 10 <= bal m (AUser alice) stok) /\
  210 <= fee_cycle (rt_fee (st_raw txq)) /\ fee_cycle (rt_fee (st_raw txq)) <= cs_limit (nd_status n4) /\ small (cs_limit (nd_status n4)) /\
  eh_epoch_id (ep_header (pl_epoch p2)) < rt_timeout (st_raw txq) /\
  states_ok mixd rootx showx verifyx comb_shapes cfx lqq /\ epochs_ok mixd rootx showx verifyx comb_shapes cfx lqq /\
  exists n, historyx lqq = Up n /\ db_fits (nd_disk n).1.
Proof.
  pose proof end_good as H. unfold end_check in H.
  apply andb_true_iff in H as [H H15]. apply andb_true_iff in H as [H H14]. apply andb_true_iff in H as [H H13]. apply andb_true_iff in H as [H H12].
  apply andb_true_iff in H as [H H11]. apply andb_true_iff in H as [H H10]. apply andb_true_iff in H as [H H9]. apply andb_true_iff in H as [H H8].
  apply andb_true_iff in H as [H H7]. apply andb_true_iff in H as [H H6]. apply andb_true_iff in H as [H H5]. apply andb_true_iff in H as [H H4].
  apply andb_true_iff in H as [H H3]. apply andb_true_iff in H as [H1 H2].
  split; [exact (proj1 ledger_story_hypotheses)|]. split; [exact gen0_parsed|].
  split. { exact (proj1 (along_b_ok _ H13)). }
  split. { exact (proj1 (proj2 halt_hypotheses)). }
  split. { exact (idle_b_ok _ H1). }
  split. { exact (proj1 (Nat.eqb_eq _ _) H2). }
  split. { exact (proj1 (same_epoch_ok _ _ H3)). }
  split. { repeat split; apply plain_b_ok; vm_compute; reflexivity. }
  split. { exact (proj1 (proj2 request_plain)). }
  split. { repeat split; apply plain_b_ok; vm_compute; reflexivity. }
  split. { exact (ask_b_ok H4). }
  split. { reflexivity. }
  split. { exact (proj1 (bytes_eqb_eq _ _) H5). }
  split. { exact (rich_b_ok _ _ _ _ H6). }
  split. { exact (proj1 (N.leb_le _ _) H7). }
  split. { exact (proj1 (N.leb_le _ _) H8). }
  split. { exact (proj1 (N.ltb_lt _ _) H9). }
  split. { exact (proj1 (N.ltb_lt _ _) H10). }
  split. { exact (states_b_ok _ lqq_orders H11). }
  split. { exact (seen_b_ok _ H12). }
  exists (node_of (historyx lqq)). split; [exact (up_b_ok _ H14)|]. rewrite (up_b_ok _ H14) in H15. exact (fits_b_ok _ H15).
Qed.
