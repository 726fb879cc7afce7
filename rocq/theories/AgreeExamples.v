(** * C113 on the two nodes of NodesExamples. *)
From Verif Require Import Base BaseFacts Hex Types Rlp RlpFacts FixedCodec StateAdapter Executor ExecSpec Mempool MempoolSpec MempoolMore Merkle Bincode ConsMsg PropConsMsg
  Proto Wire WireFacts Storage StorageSpec StorageFacts StorageExamples Consensus ConsSpec ConsFacts ConsInv LedgerSpec ReplicaSpec Keccak MixSetup ConsExamples LedgerExamples
  SyncExamples StuckExamples HaltExamples Api ApiSpec PropApi ApiExamples PropEnd EndExamples ReplicaExamples NodesExamples PropBalance BalanceExamples PropAgree.
Local Open Scope N_scope.

Notation execsz := (execs_seen mixd rootx showx verifyx comb_shapes cfz (Down (∅, ∅))).
Definition joint_b : bool := clash_check (concat (map tries_of (execs_seen mixd rootx showx verifyx comb_shapes cfx (Down (∅, ∅)) fullx)) ++ concat (map tries_of (execsz fullz))).
Definition opened_b (d : durable) (e : res st_err epoch) (root : hash) : bool :=
  match e with
  | Ok e => heqb (eh_state_root (ep_header e)) root &&
      match Executor.from_root mixd chainx (eh_state_root (ep_header e)) d.2 (wrap64 0) (wrap64 0) (AUser alice) with Ok _ => true | _ => false end
  | _ => false
  end.
Lemma opened_b_ok d e root : opened_b d e root = true ->
  exists e0 m b, e = Ok e0 /\ eh_state_root (ep_header e0) = root /\ ledger_at mixd d (eh_state_root (ep_header e0)) m b.
Proof.
  unfold opened_b. destruct e as [e|x|]; try discriminate. intros H. apply andb_true_iff in H as [H1 H2].
  destruct (Executor.from_root _ _ _ _ _ _ _) as [y|x|] eqn:E; try discriminate H2. exists e, (committed y), (committed_assets y).
  split; [reflexivity|]. split; [exact (heqb_eq _ _ H1)|]. exists chainx, (wrap64 0), (wrap64 0), (AUser alice), y. split; [exact E|split; reflexivity].
Qed.
Definition root2 : hash := Eval vm_compute in match get_epoch_by_epoch_id rocks_col (disk (historyx fullx)).1 (wrap64 2) with Ok e => eh_state_root (ep_header e) | _ => chainx end.
Lemma agree_good : joint_b && opened_b (disk (historyx fullx)) (stored mixd (disk (historyx fullx)) (Some (wrap64 2))) root2 &&
  opened_b (disk (historyz fullz)) (stored mixd (disk (historyz fullz)) None) root2 && states_b fullx && statesz_b fullz = true.
Proof. vm_compute. reflexivity. Qed.
(** bob's balance at epoch 2: 13, on both. *)
Lemma agree_answers : says (historyx fullx) bob (Some [50]) = Some [48; 100] /\ says (historyz fullz) bob None = Some [48; 100].
Proof. vm_compute. split; reflexivity. Qed.
(** The hypotheses of C113_same_root_same_answer, met by the two nodes. *)
Example agree_hypotheses :
  states_ok mixd rootx showx verifyx comb_shapes cfx fullx /\ states_ok mixd rootx showx verifyx comb_shapes cfz fullz /\
  clash_free rootx (concat (map tries_of (execs_seen mixd rootx showx verifyx comb_shapes cfx (Down (∅, ∅)) fullx)) ++ concat (map tries_of (execsz fullz))) /\
  exists e e' m b m' b',
    asks (Some [50]) (Some (wrap64 2)) /\ stored mixd (disk (historyx fullx)) (Some (wrap64 2)) = Ok e /\ ledger_at mixd (disk (historyx fullx)) (eh_state_root (ep_header e)) m b /\
    asks None None /\ stored mixd (disk (historyz fullz)) None = Ok e' /\ ledger_at mixd (disk (historyz fullz)) (eh_state_root (ep_header e')) m' b' /\
    eh_state_root (ep_header e) = eh_state_root (ep_header e').
Proof.
  pose proof agree_good as H. apply andb_true_iff in H as [H H5]. apply andb_true_iff in H as [H H4]. apply andb_true_iff in H as [H H3]. apply andb_true_iff in H as [H1 H2].
  split; [exact (states_b_ok _ fullx_orders H4)|]. split; [exact (statesz_b_ok _ fullz_orders H5)|]. split; [exact (clash_check_ok _ H1)|].
  destruct (opened_b_ok _ _ _ H2) as (e & m & b & E & R & L). destruct (opened_b_ok _ _ _ H3) as (e' & m' & b' & E' & R' & L').
  exists e, e', m, b, m', b'. split.
  { split; [apply plain_b_ok; vm_compute; reflexivity|]. exists [50], [50], [2]. split; [left; reflexivity|]. split; [left; reflexivity|]. split; [discriminate|].
    split; [|reflexivity]. apply Forall2_cons. split; [unfold digit; lia|apply Forall2_nil; exact I]. }
  split; [exact E|]. split; [exact L|]. split; [exact I|]. split; [exact E'|]. split; [exact L'|]. congruence.
Qed.
