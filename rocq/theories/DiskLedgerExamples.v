(** * The life of NodeDbExamples meets the hypotheses of C109 *)
From Verif Require Import Base BaseFacts Hex Types Rlp RlpFacts FixedCodec StateAdapter StateAdapterFacts Executor ExecSpec Mempool Merkle Bincode ConsMsg PropConsMsg
  Proto Wire Storage StorageSpec StorageExamples Mpt Consensus ConsSpec ConsFacts ConsInv Api LedgerSpec Keccak MixSetup ConsExamples
  TrieSpec DbExec DbSpec NodeDbSpec PropNodeDb PropEnd NodeDbExamples PropDiskLedger.
Local Open Scope N_scope.

Definition clash_m (l : list (gmap bytes bytes)) : bool :=
  let k := map (fun m => (sbytes (rootm m), map_to_list m)) l in
  forallb (fun p => forallb (fun q => if bytes_eqb p.1 q.1 then kvs_eqb p.2 q.2 else true) k) k.
Lemma clash_m_ok l : clash_m l = true -> clash_free rootm l.
Proof.
  unfold clash_m. cbn zeta. rewrite forallb_forall. intros H m1 m2 H1 H2 E.
  specialize (H (sbytes (rootm m1), map_to_list m1)). rewrite forallb_forall in H.
  specialize (H ltac:(apply (in_map (fun m => (sbytes (rootm m), map_to_list m))), elem_of_list_In, H1)
                (sbytes (rootm m2), map_to_list m2)
                ltac:(apply (in_map (fun m => (sbytes (rootm m), map_to_list m))), elem_of_list_In, H2)).
  cbn [fst snd] in H. rewrite (proj2 (bytes_eqb_eq _ _) (f_equal sbytes E)) in H.
  apply kvs_eqb_eq in H. apply (f_equal (list_to_map (M := gmap bytes bytes))) in H. rewrite !list_to_map_to_list in H. exact H.
Qed.
Notation execsm := (execs_seen mixd rootm showx verifyx comb_shapes cfx (Down (∅, ∅))).
Definition states_m (l : list event) : bool :=
  let xs := execsm l in forallb fits_check xs && clash_m (∅ :: concat (map tries_of xs)).
Lemma states_m_ok l : Forall (fun e => forall m, orders_ok m e) l -> states_m l = true ->
  states_ok mixd rootm showx verifyx comb_shapes cfx l.
Proof.
  intros Ho H. unfold states_m in H. cbn zeta in H. apply andb_true_iff in H as [H1 H2]. split.
  - apply along_each, Ho.
  - rewrite forallb_forall in H1. apply Forall_forall. intros x Hx. apply fits_check_ok, H1, elem_of_list_In, Hx.
  - apply clash_m_ok, H2.
Qed.
Lemma k3_states_true : states_m k3 = true.
Proof. vm_compute. reflexivity. Qed.
Lemma k4_states_true : states_m k4 = true.
Proof. vm_compute. reflexivity. Qed.
Notation shown := (in_bytes mixd).
Notation left_by l := (d_run mixd showx rev_orders dstate0 (usesm l)).2.
Lemma k3_up_true : (match historym k3 with Up _ => true | Down _ => false end) = true.
Proof. vm_compute. reflexivity. Qed.

(** After the deaths and the two blocks of [k3] the ledger is whole. *)
Example C109_supply_example : exists n, historym k3 = Up n /\
  exists m b, shown (left_by k3) (cs_state_root (nd_status n)) m b /\ whole mixd cfx [x60; x61] gen0_allocs m b.
Proof.
  pose proof k3_up_true as H. destruct (historym k3) as [d|n] eqn:E; [discriminate H|]. exists n. split; [reflexivity|].
  apply (proj2 (C109_supply_kept mixd showx verifyx comb_shapes cfx deaths rev_orders k3 [x60; x61] gen0_allocs (fair_m_ok k3 k3_orders k3_fair_true) k3_epochs
    (along_each _ k3 k3_alone) (agrees_b_ok k3 k3_agrees_true) (states_m_ok k3 k3_orders k3_states_true) gen0_parsed) n E).
Qed.
(** Also on [k4], which synchronises a block, whatever opens adds up. *)
Example C109_synced_example (r : hash) (p : params) (d : dexec) :
  root_ok mixd (m_run mixd showx mstate0 (usesm k4)).2 r -> d_open mixd (left_by k4) r p = Ok d ->
  exists m b, shown (left_by k4) r m b /\ (whole mixd cfx [x60; x61] gen0_allocs m b \/ m = ∅ /\ b = ∅).
Proof.
  intros Hr. apply (C109_no_inflation mixd showx verifyx comb_shapes cfx deaths rev_orders k4 [x60; x61] gen0_allocs r p d (fair_m_ok k4 k4_orders k4_fair_true)
    (ops_m_ok _ _ k4_ops_true) Hr (states_m_ok k4 k4_orders k4_states_true) gen0_parsed).
Qed.

(** The block of [k2], which the node dies in once: the hypotheses of
    [C109_block_carried_out], and so its conclusion. *)
Definition one_tx (txs : list signed_tx) : bool := match txs with [t] => match rt_action (st_raw t) with Transfer _ _ => true | _ => false end | _ => false end.
Definition committing (m : machine) : bool :=
  match m with
  | Up n => match nd_busy n with Committing _ _ _ txs => one_tx txs | _ => false end &&
            match runm rest n with (Ok _, n', _) => fits_b (nd_disk n') | _ => false end
  | Down _ => false
  end.
Lemma k2_committing_true : committing (historym k2') = true.
Proof. vm_compute. reflexivity. Qed.
Notation k2r := (k2' ++ [EvCall rest]).
Lemma k2_fair_true : fair_m k2r = true.
Proof. vm_compute. reflexivity. Qed.
Lemma k2_epochs_true : epochs_b k2r = true.
Proof. vm_compute. reflexivity. Qed.
Lemma k2_agrees_true : agrees_b (Down (∅, ∅)) k2r = true.
Proof. vm_compute. reflexivity. Qed.
Lemma k2_states_true : states_m k2r = true.
Proof. vm_compute. reflexivity. Qed.
Lemma k2_orders : Forall (fun e => forall m, orders_ok m e) k2r.
Proof. repeat (apply Forall_cons; split; [intros m; first [exact I|split; apply (canons_ok O)|exact canons_ok]|]); apply Forall_nil; exact I. Qed.
Lemma k2_alone : Forall (fun e => forall m, never_syncs m e) k2r.
Proof. repeat (apply Forall_cons; split; [intros m; exact I|]); apply Forall_nil; exact I. Qed.
Example C109_block_example : exists n n' rep t m b m' b' (rs : list receipt),
  historym k2' = Up n /\ runm rest n = (Ok rep, n', t) /\
  shown (left_by k2') (cs_state_root (nd_status n)) m b /\ shown (left_by k2r) (cs_state_root (nd_status n')) m' b' /\ length rs = 1%nat.
Proof.
  pose proof k2_committing_true as H. unfold committing in H. destruct (historym k2') as [d|n] eqn:En; [discriminate H|].
  apply andb_true_iff in H as [H1 H2]. destruct (nd_busy n) as [|id p pf txs|] eqn:Eb; try discriminate H1.
  destruct (runm rest n) as [[[rep|e|] n'] t] eqn:Er; [|discriminate H2..].
  destruct txs as [|tx [|]]; try discriminate H1. cbn [one_tx] in H1.
  destruct (rt_action (st_raw tx)) as [to c| | |] eqn:Ea; try discriminate H1.
  destruct (C109_block_carried_out mixd showx verifyx comb_shapes cfx deaths rev_orders k2' [x60; x61] gen0_allocs n id p pf [tx] canons rep n' t)
    as (m & b & m' & b' & rs & L1 & L2 & Hlen & _).
  - exact (fair_m_ok _ k2_orders k2_fair_true).
  - exact (epochs_b_ok _ k2_epochs_true).
  - exact (along_each _ _ k2_alone).
  - exact (agrees_b_ok _ k2_agrees_true).
  - exact (states_m_ok _ k2_orders k2_states_true).
  - exact gen0_parsed.
  - exact En.
  - exact Eb.
  - exact Er.
  - exact (fits_b_ok _ H2).
  - cbn [map]. apply NoDup_singleton.
  - apply Forall_singleton. unfold tx_plain. rewrite Ea. exact I.
  - exists n, n', rep, t, m, b, m', b', rs. split; [reflexivity|]. split; [exact Er|]. split; [exact L1|]. split; [exact L2|exact Hlen].
Qed.
