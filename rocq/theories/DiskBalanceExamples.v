(** * The life of NodeDbExamples meets the hypotheses of C112_over_the_bytes:
    the balances at epoch 1, after a second block. *)
From Verif Require Import Base BaseFacts Hex Types Rlp RlpFacts FixedCodec StateAdapter StateAdapterFacts Executor ExecSpec Mempool Merkle Bincode ConsMsg PropConsMsg
  Proto Wire Storage StorageSpec StorageExamples Mpt Consensus ConsSpec ConsFacts ConsInv Api LedgerSpec Keccak MixSetup ConsExamples
  TrieSpec DbExec DbSpec NodeDbSpec PropNodeDb PropEnd NodeDbExamples PropDiskLedger DiskLedgerExamples PropBalance PropDiskBalance.
Local Open Scope N_scope.

Fixpoint mores_b (m : machine) (l : list event) : bool :=
  match l with [] => true | e :: r => good_b m e && mores_b (happens mixd rootm showx verifyx comb_shapes cfx m e) r end.
Lemma mores_b_ok l : mores_b (Down (∅, ∅)) l = true -> alongm one_more l.
Proof.
  generalize (Down (∅, ∅)). induction l as [|e l IH]; intros m; cbn [mores_b along]; [auto|].
  intros H. apply andb_true_iff in H as [H1 H2]. apply good_b_ok in H1 as (A & B & C & D). split; [exact C|apply IH, H2].
Qed.
Lemma k3_mores_true : mores_b (Down (∅, ∅)) k3 = true.
Proof. vm_compute. reflexivity. Qed.
Definition is_one (r : res st_err epoch) : bool := match r with Ok e => u64v (eh_epoch_id (ep_header e)) =? 1 | _ => false end.
Lemma k2_tip_true : is_one (get_latest_epoch rocks_col mixd (disk (historym k2)).1) = true.
Proof. vm_compute. reflexivity. Qed.
(** bob's balance in the bytes at the end, under the root of epoch 1: 3, as
    before the first block, which the next header shows. *)
Definition old_b (e : res st_err epoch) : bool :=
  match e with
  | Ok e => match (d_step mixd showx (rev_orders O) (left_by k3) (OpBalance (eh_state_root (ep_header e)) (query_params (ep_header e)) (AUser bob) stok)).1 with
            | OutBalance (Ok n) => n =? 3 | _ => false end
  | _ => false
  end.
Lemma old_ok e : old_b (Ok e) = true ->
  (d_step mixd showx (rev_orders O) (left_by k3) (OpBalance (eh_state_root (ep_header e)) (query_params (ep_header e)) (AUser bob) stok)).1 = OutBalance (Ok 3).
Proof.
  cbv beta iota delta [old_b]. set (o := (d_step _ _ _ _ _).1). destruct o as [|r1|[n1|x1|]|]; try discriminate. intros H. apply N.eqb_eq in H as ->. reflexivity.
Qed.
Lemma k3_old_true : old_b (get_latest_epoch rocks_col mixd (disk (historym k2)).1) = true.
Proof. vm_compute. reflexivity. Qed.
Example C112_bytes_example : exists e m b, get_latest_epoch rocks_col mixd (disk (historym k2)).1 = Ok e /\ u64v (eh_epoch_id (ep_header e)) = 1 /\
  whole mixd cfx [x60; x61] gen0_allocs m b /\ shown (left_by k2) (eh_state_root (ep_header e)) m b /\ shown (left_by k3) (eh_state_root (ep_header e)) m b /\
  bal m (AUser bob) stok = 3.
Proof.
  pose proof k2_tip_true as H. pose proof k3_old_true as Ho. destruct (get_latest_epoch rocks_col mixd (disk (historym k2)).1) as [e|x|] eqn:E; [|discriminate H..].
  cbn [is_one] in H. apply N.eqb_eq in H. exists e.
  destruct (C112_over_the_bytes mixd showx verifyx comb_shapes cfx deaths rev_orders k2 _ [x60; x61] gen0_allocs e (fair_m_ok k3 k3_orders k3_fair_true) k3_epochs
    (along_each _ k3 k3_alone) (agrees_b_ok k3 k3_agrees_true) (mores_b_ok k3 k3_mores_true) (states_m_ok k3 k3_orders k3_states_true) gen0_parsed E)
    as (m & b & Hw & H1 & H2 & H3 & _).
  exists m, b. split; [reflexivity|]. split; [exact H|]. split; [exact Hw|]. split; [exact H1|]. split; [exact H2|].
  exact (eq_sym (H3 (rev_orders O) (AUser bob) stok 3 (old_ok e Ho))).
Qed.
Print Assumptions C112_bytes_example.
