(** * C101 on a concrete node: alice's transfer [txq] of EndExamples. *)
From Verif Require Import Base BaseFacts Hex Types Rlp RlpFacts FixedCodec StateAdapter Executor ExecSpec Mempool MempoolSpec MempoolMore Merkle Bincode ConsMsg PropConsMsg
  Proto Wire WireFacts Storage StorageSpec StorageFacts StorageExamples Consensus ConsSpec ConsFacts ConsInv LedgerSpec Keccak MixSetup ConsExamples LedgerExamples
  SyncExamples StuckExamples HaltExamples EndExamples PropEnd PropOnce OnceExamples PropOwn.
Local Open Scope N_scope.

Definition lend : event := EvCall (CallCommitRest canons (Ok tt)).
Definition lm : list event := l4 ++ [EvCall (CallInsert false txq (Ok tt)); EvCall (CallPropose (cs_epoch_id (nd_status n4)) (wrap64 70));
  EvCall (CallCommit (cs_epoch_id (nd_status n4)) (commit_of 3 pq))].
Notation nm := (node_of (historyx lm)).
Definition spend_b (n : node) : bool :=
  match nd_busy n with
  | Committing id p _ txs =>
      match Executor.from_root mixd (cf_chain_id cfx) (cs_state_root (nd_status n)) (nd_disk n).2 id (cs_price (nd_status n))
              (AUser (eh_proposer (ep_header (pl_epoch p)))) with
      | Ok x => match exec mixd rootx showx canons x txs with
                | Ok (_, x') => bal (committed x') (AUser alice) stok <? bal (committed x) (AUser alice) stok
                | _ => false end
      | _ => false end
  | _ => false end.
Lemma spend_b_ok n : spend_b n = true -> exists x txs x', runs_block mixd rootx showx cfx n (CallCommitRest canons (Ok tt)) x txs x' /\
  bal (committed x') (AUser alice) stok < bal (committed x) (AUser alice) stok.
Proof.
  unfold spend_b. destruct (nd_busy n) as [|id p pf txs|] eqn:Eb; try discriminate.
  destruct (Executor.from_root _ _ _ _ _ _ _) as [x|e|] eqn:Ex; try discriminate.
  destruct (exec mixd rootx showx canons x txs) as [[resp x']|e|] eqn:Ee; try discriminate. intros H. apply N.ltb_lt in H.
  exists x, txs, x'. split; [|exact H]. econstructor; eassumption.
Qed.
Lemma spend_good : up_b (historyx lm) && spend_b nm = true.
Proof. vm_compute. reflexivity. Qed.
Lemma lqq_split : lm ++ [lend] = lqq.
Proof. unfold lm, lqq, lend. rewrite <- app_assoc. reflexivity. Qed.

Lemma lqq_peers : Forall (fun e => forall m, peers_signed mixd verifyx m e) lqq.
Proof.
  repeat (apply Forall_cons; split; [intros m c t Hc Ht; first [discriminate Hc|injection Hc as <-; apply elem_of_nil in Ht; destruct Ht]|]).
  apply Forall_nil; exact I.
Qed.
(** The hypotheses of C101_spending_is_signed; alice's balance does go down. *)
Example spending_hypotheses :
  rootx ∅ = hash_from_empty mixd /\ parsed_genesis (cf_genesis cfx) [x60; x61] gen0_allocs /\
  states_ok mixd rootx showx verifyx comb_shapes cfx (lm ++ [lend]) /\
  along mixd rootx showx verifyx comb_shapes cfx (peers_signed mixd verifyx) (Down (∅, ∅)) (lm ++ [lend]) /\
  historyx lm = Up nm /\ event_call lend = Some (CallCommitRest canons (Ok tt)) /\
  exists x txs x', runs_block mixd rootx showx cfx nm (CallCommitRest canons (Ok tt)) x txs x' /\
    bal (committed x') (AUser alice) stok < bal (committed x) (AUser alice) stok.
Proof.
  rewrite lqq_split. pose proof spend_good as H. apply andb_true_iff in H as [H1 H2].
  pose proof end_hypotheses as (A1 & A2 & _ & _ & _ & _ & _ & _ & _ & _ & _ & _ & _ & _ & _ & _ & _ & _ & A3 & _).
  split; [exact A1|]. split; [exact A2|]. split; [exact A3|]. split; [exact (along_forall _ _ lqq_peers _)|].
  split; [exact (up_b_ok _ H1)|]. split; [reflexivity|]. exact (spend_b_ok _ H2).
Qed.

(** The hypotheses of C101_silent_account_loses_nothing, for carol: both
    transactions are alice's, and bob's balance changes. *)
Lemma carol_else : negb (bytes_eqb (ua carol) (sender_bytes mixd tx1)) && negb (bytes_eqb (ua carol) (sender_bytes mixd txq)) = true.
Proof. vm_compute. reflexivity. Qed.
Lemma not_carol t : bytes_eqb (ua carol) (sender_bytes mixd t) = false -> ~ is_sender mixd t (AUser carol).
Proof. intros H X. apply (proj2 (bytes_eqb_eq _ _)) in X. unfold address_bytes in X. congruence. Qed.
Lemma lqq_carol : Forall (fun e => forall m, owner_silent mixd verifyx (AUser carol) m e) lqq.
Proof.
  pose proof carol_else as H. apply andb_true_iff in H as [H1 H2]. apply (proj1 (negb_true_iff _)) in H1. apply (proj1 (negb_true_iff _)) in H2.
  apply not_carol in H1. apply not_carol in H2.
  repeat (apply Forall_cons; split; [intros m c t Hc Ht _; first [discriminate Hc|injection Hc as <-; destruct Ht as [Ht|(net & s & Ht)];
    [apply elem_of_nil in Ht; destruct Ht|first [discriminate Ht|injection Ht as _ Ht _; subst t; first [exact H1|exact H2]]]]|]).
  apply Forall_nil; exact I.
Qed.
Definition l5q : list event := [EvCall (CallInsert false txq (Ok tt)); EvCall (CallPropose (cs_epoch_id (nd_status n4)) (wrap64 70));
  EvCall (CallCommit (cs_epoch_id (nd_status n4)) (commit_of 3 pq)); EvCall (CallCommitRest canons (Ok tt))].
Definition opens_b (n : node) : bool := is_ok (open_at n (wrap64 0) alice).
Lemma opens_b_ok n : opens_b n = true -> exists m b, ledger_at mixd (nd_disk n) (cs_state_root (nd_status n)) m b.
Proof.
  unfold opens_b. destruct (open_at n (wrap64 0) alice) as [x|e|] eqn:E; try discriminate. intros _. exists (committed x), (committed_assets x).
  eexists _, _, _, _, x. split; [exact E|auto].
Qed.
Lemma opens_good : opens_b n4 && opens_b nr = true.
Proof. vm_compute. reflexivity. Qed.
Example silent_hypotheses :
  states_ok mixd rootx showx verifyx comb_shapes cfx (l4 ++ l5q) /\
  along mixd rootx showx verifyx comb_shapes cfx (peers_signed mixd verifyx) (Down (∅, ∅)) (l4 ++ l5q) /\
  along mixd rootx showx verifyx comb_shapes cfx (owner_silent mixd verifyx (AUser carol)) (Down (∅, ∅)) (l4 ++ l5q) /\
  historyx l4 = Up n4 /\ Forall plain_event l5q /\ historyx (l4 ++ l5q) = Up nr /\
  (exists m b, ledger_at mixd (nd_disk n4) (cs_state_root (nd_status n4)) m b) /\
  (exists m b, ledger_at mixd (nd_disk nr) (cs_state_root (nd_status nr)) m b).
Proof.
  change (l4 ++ l5q) with lqq. pose proof opens_good as H. apply andb_true_iff in H as [H1 H2].
  pose proof end_hypotheses as (_ & _ & _ & A4 & _ & _ & _ & _ & _ & _ & _ & _ & _ & _ & _ & _ & _ & _ & A3 & _).
  pose proof replay_hypotheses as (_ & _ & _ & B & _).
  split; [exact A3|]. split; [exact (along_forall _ _ lqq_peers _)|]. split; [exact (along_forall _ _ lqq_carol _)|].
  split; [exact A4|]. split; [repeat (apply Forall_cons; split; [exact I|]); apply Forall_nil; exact I|].
  split; [exact B|]. split; [exact (opens_b_ok _ H1)|exact (opens_b_ok _ H2)].
Qed.

(** The hypotheses of C101_unsigned_transfer_refuted: [txu] names alice's public
    key, its hash is not even that of its content. *)
Definition txu : signed_tx := MkSigned rawq (mixd [x09]) [x01] [x00].
Definition pu : pill := Eval vm_compute in MkPill (MkEpoch (ep_header (pl_epoch (propose_at lqq 4 80))) [st_tx_hash txu]) [].
Definition lu : list event := lqq ++ [EvCall (CallCheck hr pu (Ok []) (Ok [txu])); EvCall (CallCommit (cs_epoch_id (nd_status nr)) (commit_of 4 pu)); EvCall (CallCommitRest canons (Ok tt))].
Definition absent_b (n : node) : bool := match mp_lookup (nd_pool n) (st_tx_hash txu) with None => true | _ => false end.
Lemma absent_b_ok n : absent_b n = true -> mp_lookup (nd_pool n) (st_tx_hash txu) = None.
Proof. unfold absent_b. destruct (mp_lookup _ _); [discriminate|reflexivity]. Qed.
Definition unsigned_b (t : signed_tx) : bool := negb (heqb (st_tx_hash t) (mixd (enc_raw (st_raw t)))).
Lemma unsigned_b_ok t : unsigned_b t = true -> ~ signed mixd verifyx t.
Proof. unfold unsigned_b. intros H [X _]. rewrite <- X, heqb_refl in H. discriminate H. Qed.
Definition alices_b (t : signed_tx) : bool := bytes_eqb (ua alice) (sender_bytes mixd t).
Lemma alices_b_ok t : alices_b t = true -> is_sender mixd t (AUser alice).
Proof. intros H. exact (proj1 (bytes_eqb_eq _ _) H). Qed.
Definition unsigned_check : bool :=
  absent_b nr && unsigned_b txu && alices_b txu &&
  states_b lu && seen_b lu && fitting_b (historyx lu).
Lemma unsigned_good : unsigned_check = true.
Proof. vm_compute. reflexivity. Qed.
Lemma lu_orders : Forall (fun e => forall m, orders_ok m e) lu.
Proof. repeat (apply Forall_cons; split; [intros m; first [exact I|split; apply (canons_ok O)|exact canons_ok]|]); apply Forall_nil; exact I. Qed.
Lemma cycles_b : 210 <=? u64v (fee_cycle (rt_fee rawq)) = true.
Proof. vm_compute. reflexivity. Qed.
Lemma cycles_q : 210 <= fee_cycle (rt_fee rawq).
Proof. exact (proj1 (N.leb_le _ _) cycles_b). Qed.
Example unsigned_hypotheses :
  rootx ∅ = hash_from_empty mixd /\ parsed_genesis (cf_genesis cfx) [x60; x61] gen0_allocs /\
  along mixd rootx showx verifyx comb_shapes cfx replies_match (Down (∅, ∅)) lqq /\ historyx lqq = Up nr /\ nd_busy nr = Idle /\
  ~ signed mixd verifyx txu /\ mp_lookup (nd_pool nr) (st_tx_hash txu) = None /\
  hr ∉ nd_exempt nr /\ pl_propose_hashes pu = [] /\ ep_ordered_tx_hashes (pl_epoch pu) = [st_tx_hash txu] /\
  rt_action (st_raw txu) = Transfer bob (MkCarrying stok 10) /\ is_sender mixd txu (AUser alice) /\
  (exists m b, ledger_at mixd (nd_disk nr) (cs_state_root (nd_status nr)) m b /\ is_Some (b !! stok) /\ 10 <= bal m (AUser alice) stok) /\
  210 <= fee_cycle (rt_fee (st_raw txu)) /\ cm_pill (commit_of 4 pu) = pu /\ length (cm_epoch_hash (commit_of 4 pu)) = 32%nat /\
  states_ok mixd rootx showx verifyx comb_shapes cfx lu /\ epochs_ok mixd rootx showx verifyx comb_shapes cfx lu /\
  exists n, historyx lu = Up n /\ db_fits (nd_disk n).1.
Proof.
  pose proof unsigned_good as H. unfold unsigned_check in H.
  apply andb_true_iff in H as [H H6]. apply andb_true_iff in H as [H H5]. apply andb_true_iff in H as [H H4].
  apply andb_true_iff in H as [H H3]. apply andb_true_iff in H as [H1 H2].
  pose proof replay_hypotheses as (A1 & A2 & A3 & A4 & A5 & _ & _ & A8 & _ & _ & _ & _ & A13 & _).
  split; [exact A1|]. split; [exact A2|]. split; [exact A3|]. split; [exact A4|]. split; [exact A5|].
  split. { exact (unsigned_b_ok _ H2). }
  split. { exact (absent_b_ok _ H1). }
  split. { exact A8. }
  split. { reflexivity. }
  split. { apply hashes_eqb_eq. vm_compute. reflexivity. }
  split. { reflexivity. }
  split. { exact (alices_b_ok _ H3). }
  split. { exact A13. }
  split. { exact cycles_q. }
  split. { reflexivity. }
  split. { exact (sized_len _). }
  split. { exact (states_b_ok _ lu_orders H4). }
  split. { exact (seen_b_ok _ H5). }
  exact (fitting_b_ok _ H6).
Qed.
