(** * C99 on two concrete nodes: one commit, then alice asks the first node to
    send 10 to bob, and the second proposes. *)
From Verif Require Import Base BaseFacts Hex Types Rlp RlpFacts FixedCodec StateAdapter Executor ExecSpec Mempool MempoolSpec MempoolMore Merkle Bincode ConsMsg PropConsMsg
  Proto Wire WireFacts Storage StorageSpec StorageFacts StorageExamples Consensus ConsSpec ConsFacts ConsInv LedgerSpec ReplicaSpec Keccak MixSetup ConsExamples LedgerExamples
  SyncExamples StuckExamples HaltExamples Api ApiSpec PropApi ApiExamples PropEnd EndExamples ReplicaExamples.
From Coq Require Strings.String.
Import String.StringSyntax.
Delimit Scope string_scope with string.
Local Open Scope N_scope.

Definition cfz : config := MkConfig chainx bob (wrap64 1) (wrap64 20000) (wrap64 5000) [alice; carol] 3%nat (cf_gap cfx) gen0.
Notation historyz := (history mixd rootx showx verifyx comb_shapes cfz).
Definition lz_rest : list event := [EvCall (CallCheck (mixd (enc_pill p1)) p1 (Ok []) (Ok [tx1])); EvCall (CallCommit (wrap64 1) (commit_of 1 p1)); EvCall restb].
Definition hx : list event := EvBoot canon_order canon_order :: lx_rest.
Definition hz : list event := EvBoot back back :: lz_rest.
Definition node_ofz (m : machine) : node :=
  match m with Up n => n | Down d => MkNode (start_status mixd cfz (genesis_epoch mixd cfz (mixd []))) [] (mp_new 1%nat (wrap64 1)) d Idle [] end.
Notation nx := (node_of (historyx hx)).
Notation nz := (node_ofz (historyz hz)).
Notation askz := (send_transfer (fun t => fst (mp_insert mixd verifyx (cf_gap cfx) (nd_pool nx) false t (env_of mixd (nd_disk nx)) (Ok tt))) in_rawq in_act1 in_encq).
Definition pz : pill := Eval vm_compute in
  match historyz (hz ++ [EvCall (CallInsert true txq (Ok tt))]) with
  | Up n => pill_of (run_call mixd rootx showx verifyx comb_shapes cfz (CallPropose (wrap64 2) (wrap64 70)) n)
  | _ => p1
  end.
Definition fullx : list event := hx ++ [EvCall (CallInsert false txq (Ok tt)); EvCall (CallCommit (cs_epoch_id (nd_status nx)) (commit_of 2 pz)); EvCall rest].
Definition fullz : list event := hz ++ [EvCall (CallInsert true txq (Ok tt)); EvCall (CallPropose (cs_epoch_id (nd_status nx)) (wrap64 70));
  EvCall (CallCommit (cs_epoch_id (nd_status nx)) (commit_of 2 pz)); EvCall (CallCommitRest (fun _ => back) (Ok tt))].

Definition askz_b : bool := match askz with (Some t, Ok h) => bytes_eqb (wenc_signed t) (wenc_signed txq) && (blen (wenc_signed t) <? two64) && bool_decide (h = hq) &&
  match rt_action (st_raw t) with Transfer _ _ => true | _ => false end | _ => false end.
Definition statesz_b (l : list event) : bool :=
  let xs := execs_seen mixd rootx showx verifyx comb_shapes cfz (Down (∅, ∅)) l in forallb fits_check xs && clash_check (∅ :: concat (map tries_of xs)).
Definition seenz_b (l : list event) : bool :=
  let es := epochs_seen mixd rootx showx verifyx comb_shapes cfz (Down (∅, ∅)) l in
  forallb (fun e => blen (wenc_epoch e) <? two64) es &&
  nocoll_b (ascii "latest_hash"%string :: ascii "latest_proof"%string :: map (fun e => wenc_header (ep_header e)) es).
Lemma statesz_b_ok l : Forall (fun e => forall m, orders_ok m e) l -> statesz_b l = true ->
  states_ok mixd rootx showx verifyx comb_shapes cfz l.
Proof.
  intros Ho H. unfold statesz_b in H. cbn zeta in H. apply andb_true_iff in H as [H1 H2]. split.
  - apply along_forall_cf, Ho.
  - rewrite forallb_forall in H1. apply Forall_forall. intros x Hx. apply fits_check_ok, H1, elem_of_list_In, Hx.
  - apply clash_check_ok, H2.
Qed.
Lemma seenz_b_ok l : seenz_b l = true -> epochs_ok mixd rootx showx verifyx comb_shapes cfz l.
Proof.
  unfold seenz_b, epochs_ok. intros H. apply andb_true_iff in H as [H1 H2]. split.
  - rewrite forallb_forall in H1. apply Forall_forall. intros e He. apply elem_of_list_In in He. unfold fits. apply N.ltb_lt, H1, He.
  - apply nocoll_b_ok, H2.
Qed.
Lemma askz_ok : askz_b = true -> askz = (Some txq, Ok hq).
Proof.
  unfold askz_b. destruct askz as [[t|] [h|e|]]; try discriminate. intros H. apply andb_true_iff in H as [H H4]. apply andb_true_iff in H as [H H3].
  apply andb_true_iff in H as [H1 H2]. apply bytes_eqb_eq in H1. apply N.ltb_lt in H2. apply bool_decide_eq_true in H3. subst h.
  assert (t = txq) as ->; [|reflexivity].
  assert (tx_plain t) as P by (unfold tx_plain; destruct (rt_action (st_raw t)); try discriminate H4; exact I).
  pose proof (wdec_tx_plain t P H2) as W. unfold fits in H2. rewrite H1 in W, H2.
  rewrite (wdec_tx_plain txq I H2) in W. injection W as <-. reflexivity.
Qed.
Definition upz_b (m : machine) : bool := match m with Up n => fits_b (nd_disk n) | Down _ => false end.
Lemma upz_b_ok m : upz_b m = true -> exists n, m = Up n /\ db_fits (nd_disk n).1.
Proof. destruct m as [d|n]; [discriminate|]. intros H. exists n. split; [reflexivity|apply fits_b_ok, H]. Qed.

Definition c1 := up_b (historyx hx) && up_b (historyz hz).
Definition c2 := blks_eqb (handedx hx) (handed mixd rootx showx verifyx comb_shapes cfz (Down (∅, ∅)) hz).
Definition c3 := runs_b cfx hx && runs_b cfz hz.
Definition c4 := idle_b nx && idle_b nz && (mp_len (nd_pool nz) =? 0)%nat && (mp_slots (nd_pool nz) <? 12)%nat && same_epoch (get_latest_epoch rocks_col mixd (nd_disk nx).1) (pl_epoch p1).
Definition c5 := askz_b && (blen (enc_txs [txq]) <? two64) && bytes_eqb (ua alice) (sender_bytes mixd txq) && rich_b nx alice stok 10.
Definition c6 := (210 <=? u64v (fee_cycle (rt_fee (st_raw txq)))) && (u64v (fee_cycle (rt_fee (st_raw txq))) <=? u64v (cs_limit (nd_status nz))) &&
  (u64v (cs_limit (nd_status nz)) <? 9223372036854775808) && (u64v (eh_epoch_id (ep_header (pl_epoch p1))) <? u64v (rt_timeout (st_raw txq))).
Definition c7 := states_b fullx && seen_b fullx && statesz_b fullz && seenz_b fullz && upz_b (historyx fullx) && upz_b (historyz fullz).
Lemma nodes_good : c1 && c2 && c3 && c4 && c5 && c6 && c7 = true.
Proof. vm_compute. reflexivity. Qed.
Lemma up_bz_ok m : up_b m = true -> m = Up (node_ofz m).
Proof. destruct m; [discriminate|reflexivity]. Qed.
Lemma hx_orders : Forall (fun e => forall m, orders_ok m e) hx.
Proof. repeat (apply Forall_cons; split; [intros m; first [exact I|split; apply (canons_ok O)|exact canons_ok]|]); apply Forall_nil; exact I. Qed.
Lemma fullx_orders : Forall (fun e => forall m, orders_ok m e) fullx.
Proof. repeat (apply Forall_cons; split; [intros m; first [exact I|split; apply (canons_ok O)|exact canons_ok]|]); apply Forall_nil; exact I. Qed.
Lemma hz_orders : Forall (fun e => forall m, orders_ok m e) hz.
Proof. repeat (apply Forall_cons; split; [intros m; first [exact I|split; apply back_ok|exact (fun _ => back_ok)]|]); apply Forall_nil; exact I. Qed.
Lemma fullz_orders : Forall (fun e => forall m, orders_ok m e) fullz.
Proof. repeat (apply Forall_cons; split; [intros m; first [exact I|split; apply back_ok|exact (fun _ => back_ok)]|]); apply Forall_nil; exact I. Qed.

(** The hypotheses of C99_transfer_everywhere, those for the commits included. *)
Example nodes_hypotheses :
  (rootx ∅ = hash_from_empty mixd /\ parsed_genesis (cf_genesis cfx) [x60; x61] gen0_allocs /\
   LATEST_EPOCH_KEY mixd <> LATEST_PROOF_KEY mixd /\ same_rules cfx cfz /\ cf_gap cfx = cf_gap cfz /\
   Forall plain_event lx_rest /\ Forall plain_event lz_rest) /\
  (historyx hx = Up nx /\ historyz hz = Up nz /\
   handedx hx = handed mixd rootx showx verifyx comb_shapes cfz (Down (∅, ∅)) hz /\
   runs_ok mixd rootx showx verifyx comb_shapes cfx hx /\ runs_ok mixd rootx showx verifyx comb_shapes cfz hz) /\
  (nd_busy nx = Idle /\ nd_busy nz = Idle /\ mp_len (nd_pool nz) = 0%nat /\ (0 < cf_pool_size cfz)%nat /\
   (mp_slots (nd_pool nz) < 4 * cf_pool_size cfz)%nat /\ get_latest_epoch rocks_col mixd (nd_disk nx).1 = Ok (pl_epoch p1)) /\
  (plain_raw in_rawq /\ plain_transfer in_act1 /\ plain_enc in_encq /\ askz = (Some txq, Ok hq) /\ fits (enc_txs [txq])) /\
  (rt_action (st_raw txq) = Transfer bob (MkCarrying stok 10) /\ is_sender mixd txq (AUser alice) /\
   exists m b, ledger_at mixd (nd_disk nx) (cs_state_root (nd_status nx)) m b /\ is_Some (b !! stok) /\ 10 <= bal m (AUser alice) stok) /\
  (210 <= fee_cycle (rt_fee (st_raw txq)) /\ fee_cycle (rt_fee (st_raw txq)) <= cs_limit (nd_status nz) /\ small (cs_limit (nd_status nz)) /\
   eh_epoch_id (ep_header (pl_epoch p1)) < rt_timeout (st_raw txq)) /\
  states_ok mixd rootx showx verifyx comb_shapes cfx fullx /\ epochs_ok mixd rootx showx verifyx comb_shapes cfx fullx /\
  states_ok mixd rootx showx verifyx comb_shapes cfz fullz /\ epochs_ok mixd rootx showx verifyx comb_shapes cfz fullz /\
  (exists n, historyx fullx = Up n /\ db_fits (nd_disk n).1) /\ exists n, historyz fullz = Up n /\ db_fits (nd_disk n).1.
Proof.
  pose proof nodes_good as H.
  apply andb_true_iff in H as [H H7]. apply andb_true_iff in H as [H H6]. apply andb_true_iff in H as [H H5]. apply andb_true_iff in H as [H H4].
  apply andb_true_iff in H as [H H3]. apply andb_true_iff in H as [H1 H2].
  unfold c1 in H1. apply andb_true_iff in H1 as [H1 H1'].
  unfold c3 in H3. apply andb_true_iff in H3 as [H3 H3'].
  unfold c4 in H4. apply andb_true_iff in H4 as [H4 E5]. apply andb_true_iff in H4 as [H4 E4]. apply andb_true_iff in H4 as [H4 E3]. apply andb_true_iff in H4 as [E1 E2].
  unfold c5 in H5. apply andb_true_iff in H5 as [H5 G4]. apply andb_true_iff in H5 as [H5 G3]. apply andb_true_iff in H5 as [G1 G2].
  unfold c6 in H6. apply andb_true_iff in H6 as [H6 K4]. apply andb_true_iff in H6 as [H6 K3]. apply andb_true_iff in H6 as [K1 K2].
  unfold c7 in H7. apply andb_true_iff in H7 as [H7 L6]. apply andb_true_iff in H7 as [H7 L5]. apply andb_true_iff in H7 as [H7 L4]. apply andb_true_iff in H7 as [H7 L3].
  apply andb_true_iff in H7 as [L1 L2].
  split; [|split; [|split; [|split; [|split; [|split]]]]].
  - split; [exact (proj1 ledger_story_hypotheses)|]. split; [exact gen0_parsed|]. split; [exact (proj1 replicas_hypotheses)|].
    split; [split; [reflexivity|split; reflexivity]|]. split; [reflexivity|].
    split; (repeat (apply Forall_cons; split; [exact I|]); apply Forall_nil; exact I).
  - split; [exact (up_b_ok _ H1)|]. split; [exact (up_bz_ok _ H1')|]. split; [exact (blks_eqb_eq _ _ H2)|].
    split; [exact (runs_b_ok _ _ hx_orders H3)|exact (runs_b_ok _ _ hz_orders H3')].
  - split; [exact (idle_b_ok _ E1)|]. split; [exact (idle_b_ok _ E2)|]. split; [exact (proj1 (Nat.eqb_eq _ _) E3)|].
    split; [change (0 < 3)%nat; lia|]. split; [exact (proj1 (Nat.ltb_lt _ _) E4)|]. exact (proj1 (same_epoch_ok _ _ E5)).
  - split. { repeat split; apply plain_b_ok; vm_compute; reflexivity. }
    split; [exact (proj1 (proj2 request_plain))|]. split. { repeat split; apply plain_b_ok; vm_compute; reflexivity. }
    split; [exact (askz_ok G1)|exact (proj1 (N.ltb_lt _ _) G2)].
  - split; [reflexivity|]. split; [exact (proj1 (bytes_eqb_eq _ _) G3)|exact (rich_b_ok _ _ _ _ G4)].
  - split; [exact (proj1 (N.leb_le _ _) K1)|]. split; [exact (proj1 (N.leb_le _ _) K2)|]. split; [exact (proj1 (N.ltb_lt _ _) K3)|exact (proj1 (N.ltb_lt _ _) K4)].
  - split; [exact (states_b_ok _ fullx_orders L1)|]. split; [exact (seen_b_ok _ L2)|]. split; [exact (statesz_b_ok _ fullz_orders L3)|].
    split; [exact (seenz_b_ok _ L4)|]. split; [exact (upz_b_ok _ L5)|exact (upz_b_ok _ L6)].
Qed.
