(** * A life meeting the hypotheses of C106, with the digest [mixd]: the node dies
    in the middle of its genesis, boots, takes a transaction, dies in the middle
    of the state of the block, boots, takes it again, commits; synchronises a
    block from a peer. *)
From Verif Require Import Base BaseFacts Hex Types Rlp RlpFacts FixedCodec StateAdapter StateAdapterFacts Executor ExecSpec Mempool Merkle Bincode ConsMsg PropConsMsg
  Proto Wire Storage StorageSpec StorageExamples Mpt Consensus ConsSpec ConsFacts ConsInv Api LedgerSpec Keccak MixSetup ConsExamples
  TrieSpec DbExec DbSpec NodeDbSpec PropNodeDb.
From Coq Require Strings.String.
Import String.StringSyntax.
Delimit Scope string_scope with string.
Local Open Scope N_scope.

Notation rootm := (mpt_root mixd).
Notation runm := (run_call mixd rootm showx verifyx comb_shapes cfx).
Notation historym := (history mixd rootm showx verifyx comb_shapes cfx).
Definition propose_m (l : list event) (id now : N) : pill :=
  match historym l with Up n => pill_of (runm (CallPropose (wrap64 id) (wrap64 now)) n) | _ => MkPill (genesis_epoch mixd cfx (mixd [])) [] end.

Notation boot := (EvBoot canon_order canon_order).
Definition take1 : event := EvCall (CallInsert true tx1 (Ok tt)).
Definition k1 : list event := [EvBootCrash canon_order canon_order 0; boot; take1].
Definition q1 : pill := Eval vm_compute in propose_m k1 1 50.
Definition begin1 : list event := [EvCall (CallPropose (wrap64 1) (wrap64 50)); EvCall (CallCommit (wrap64 1) (commit_of 1 q1))].
Definition k2 : list event := k1 ++ begin1 ++ [EvCrash rest 0; boot; take1] ++ begin1 ++ [EvCall rest].
Definition q2 : pill := Eval vm_compute in propose_m k2 2 60.
Definition k3 : list event := k2 ++ [EvCall (CallPropose (wrap64 2) (wrap64 60)); EvCall (CallCommit (wrap64 2) (commit_of 2 q2)); EvCall rest].
Definition deaths : nat -> nat := fun i => match i with O => 1%nat | _ => 2%nat end.
Definition rev_orders : nat -> nat -> dorder := fun i j => DOrder (fun m => rev (map_to_list m)) map_to_list (Nat.even (i + j)).
Notation usesm l := (uses mixd showx verifyx comb_shapes cfx deaths (Down (∅, ∅)) l).

Definition apart_m (s : mstate) : bool := nocoll_b (flat_map (parts mixd) (∅ :: ms_tries s)).
Definition sizes_m (s : dstate) : bool := forallb (fun v => N.of_nat (length v) <? 4294967296) (ds_log s).

(** Then a peer tells of epoch 5: the node pulls epoch 3, dies when its proof is
    saved and half of its state is written, boots and pulls it again; on top of it an epoch it is given. *)
Definition tip (l : list event) : epoch := match get_latest_epoch rocks_col mixd (disk (historym l)).1 with Ok e => e | _ => rogue end.
Definition next_of (l : list event) (txs : list signed_tx) (id : N) : epoch :=
  let e := tip l in
  MkEpoch (MkHeader chainx (wrap64 id) (mixd (enc_epoch e)) (wrap64 9) zero_bloom (mixd [x03]) [] (eh_state_root (ep_header e)) [] (wrap64 0) bob
     (MkProof (wrap64 (id - 1)) (wrap64 0) (mixd [x05]) [] []) (wrap64 0) []) (map st_tx_hash txs).
Definition e3 : epoch := Eval vm_compute in next_of k3 [tx1] 3.
Definition hears : event := EvCall (CallSync (enc_fixed_epoch_id (wrap64 6)) (Ok (RpEpoch e3))).
Definition pulls : call := CallSyncEpoch canons (Ok (RpEpoch e3)) (Ok (RpTxs [tx1])).
Definition k4 : list event := k3 ++ [hears; EvCrash pulls 1; boot; hears; EvCall pulls].

(** ** The hypotheses, checked *)
Notation alongm C l := (along mixd rootm showx verifyx comb_shapes cfx C (Down (∅, ∅)) l).
Lemma along_each (C : machine -> event -> Prop) l : Forall (fun e => forall m, C m e) l -> alongm C l.
Proof. generalize (Down (∅, ∅)). intros m H. revert m. induction H as [|e l He _ IH]; intros m; cbn [along]; auto. Qed.
Definition agree_b (m : machine) (e : event) : bool :=
  match m, event_call e with
  | Up n, Some (CallCommit _ c) => heqb (eh_state_root (ep_header (pl_epoch (cm_pill c)))) (cs_state_root (nd_status n))
  | _, _ => true
  end.
Fixpoint agrees_b (m : machine) (l : list event) : bool :=
  match l with [] => true | e :: r => agree_b m e && agrees_b (happens mixd rootm showx verifyx comb_shapes cfx m e) r end.
Lemma agrees_b_ok l : agrees_b (Down (∅, ∅)) l = true -> alongm roots_agree l.
Proof.
  generalize (Down (∅, ∅)). induction l as [|e l IH]; intros m; cbn [agrees_b along]; [auto|]. intros H. apply andb_true_iff in H as [H1 H2].
  split; [|apply IH, H2]. unfold roots_agree, agree_b in *. destruct m as [d|n]; [exact I|].
  destruct (event_call e) as [[]|]; try exact I. apply heqb_eq, H1.
Qed.
Definition epochs_b (l : list event) : bool :=
  let es := epochs_seen mixd rootm showx verifyx comb_shapes cfx (Down (∅, ∅)) l in
  forallb (fun e => blen (wenc_epoch e) <? two64) es &&
  nocoll_b (ascii "latest_hash"%string :: ascii "latest_proof"%string :: map (fun e => wenc_header (ep_header e)) es).
Lemma epochs_b_ok l : epochs_b l = true -> epochs_ok mixd rootm showx verifyx comb_shapes cfx l.
Proof.
  unfold epochs_b, epochs_ok. intros H. apply andb_true_iff in H as [H1 H2]. split.
  - rewrite forallb_forall in H1. apply Forall_forall. intros e He. apply elem_of_list_In in He. unfold fits. apply N.ltb_lt, H1, He.
  - apply nocoll_b_ok, H2.
Qed.
Definition root_m (s : mstate) (r : hash) : bool :=
  heqb r (hash_from_empty mixd) || existsb (heqb r) (ms_known s) || forallb (fun b => negb (heqb (mixd b) r)) (flat_map (parts mixd) (ms_tries s)).
Lemma root_m_ok s r : root_m s r = true -> root_ok mixd s r.
Proof.
  unfold root_m. intros H. apply orb_true_iff in H as [H|H]; [apply orb_true_iff in H as [H|H]|].
  - left. apply heqb_eq, H.
  - right; left. apply existsb_exists in H as (k & Hk & E). apply heqb_eq in E as ->. apply elem_of_list_In, Hk.
  - right; right. intros m b Hm Hb E. rewrite forallb_forall in H.
    assert (negb (heqb (mixd b) r) = true) as X by (apply H, in_flat_map; exists m; split; apply elem_of_list_In; assumption).
    rewrite E in X. unfold heqb in X. assert (bytes_eqb (sbytes r) (sbytes r) = true) as Y by (apply bytes_eqb_eq; reflexivity). rewrite Y in X. discriminate X.
Qed.
Definition op_m (s : mstate) (o : db_op) : bool :=
  match o with OpGenesis _ _ | OpGCrash _ _ _ => true | OpBlock r _ _ | OpBalance r _ _ _ | OpCrash r _ _ _ => root_m s r end.
Fixpoint ops_m (s : mstate) (l : list db_op) : bool :=
  match l with [] => true | o :: l => op_m s o && ops_m (m_step mixd showx s o).2 l end.
Lemma ops_m_ok l : forall s, ops_m s l = true -> ops_ok mixd showx s l.
Proof.
  induction l as [|o l IH]; intros s H; [exact I|]. cbn [ops_m] in H. apply andb_true_iff in H as [H1 H2].
  split; [|apply IH, H2]. destruct o; cbn [op_m op_ok] in *; try exact I; apply root_m_ok, H1.
Qed.
Lemma apart_m_ok s : apart_m s = true -> nodes_apart mixd s.
Proof. intros H. exact (nocoll_b_ok _ H). Qed.
Lemma sizes_m_ok s : sizes_m s = true -> sizes_ok s.
Proof. unfold sizes_m. intros H v Hv. rewrite forallb_forall in H. apply N.ltb_lt, H, elem_of_list_In, Hv. Qed.
Lemma rev_orders_ok : dorders_ok rev_orders.
Proof. intros i j. split; intros m; cbn; [symmetry; apply Permutation_rev|reflexivity]. Qed.
Lemma k3_orders : Forall (fun e => forall m, orders_ok m e) k3.
Proof. repeat (apply Forall_cons; split; [intros m; first [exact I|split; apply (canons_ok O)|exact canons_ok]|]); apply Forall_nil; exact I. Qed.
Lemma k4_orders : Forall (fun e => forall m, orders_ok m e) k4.
Proof. repeat (apply Forall_cons; split; [intros m; first [exact I|split; apply (canons_ok O)|exact canons_ok]|]); apply Forall_nil; exact I. Qed.
Lemma k3_alone : Forall (fun e => forall m, never_syncs m e) k3.
Proof. repeat (apply Forall_cons; split; [intros m; exact I|]); apply Forall_nil; exact I. Qed.

Definition fair_m (l : list event) : bool := apart_m (m_run mixd showx mstate0 (usesm l)).2 && sizes_m (d_run mixd showx rev_orders dstate0 (usesm l)).2.
Lemma fair_m_ok l : Forall (fun e => forall m, orders_ok m e) l -> fair_m l = true -> fair_node mixd showx verifyx comb_shapes cfx deaths rev_orders l.
Proof.
  intros Ho H. unfold fair_m in H. apply andb_true_iff in H as [H1 H2]. constructor; [apply along_each, Ho|exact rev_orders_ok|apply apart_m_ok, H1|apply sizes_m_ok, H2].
Qed.
Lemma k3_fair_true : fair_m k3 = true.
Proof. vm_compute. reflexivity. Qed.
Lemma k4_fair_true : fair_m k4 = true.
Proof. vm_compute. reflexivity. Qed.
Lemma k4_ops_true : ops_m mstate0 (usesm k4) = true.
Proof. vm_compute. reflexivity. Qed.
Lemma k3_epochs_true : epochs_b k3 = true.
Proof. vm_compute. reflexivity. Qed.
Lemma k3_agrees_true : agrees_b (Down (∅, ∅)) k3 = true.
Proof. vm_compute. reflexivity. Qed.

Example C106_synced_example : (d_run mixd showx rev_orders dstate0 (usesm k4)).1 = results mixd showx verifyx comb_shapes cfx (Down (∅, ∅)) k4.
Proof. exact (C106_node_over_bytes mixd showx verifyx comb_shapes cfx deaths rev_orders k4 (fair_m_ok k4 k4_orders k4_fair_true) (ops_m_ok _ _ k4_ops_true)). Qed.
(** Two deaths in the middle, and four states. *)
Definition shape_of (o : db_out) : N := match o with OutGenesis (Ok _) => 1 | OutBlock (Ok r) => 10 + N.of_nat (length (er_receipts r)) | OutCrash => 3 | _ => 5 end.
Definition shapes_are (l : list db_out) (k : list N) : bool := bool_decide (map shape_of l = k).
Lemma k4_shapes : shapes_are (d_run mixd showx rev_orders dstate0 (usesm k4)).1 [3; 1; 3; 11; 10; 3; 11] = true.
Proof. vm_compute. reflexivity. Qed.
Lemma k3_epochs : epochs_ok mixd rootm showx verifyx comb_shapes cfx k3.
Proof. exact (epochs_b_ok k3 k3_epochs_true). Qed.
Example C106_own_example : (d_run mixd showx rev_orders dstate0 (usesm k3)).1 = results mixd showx verifyx comb_shapes cfx (Down (∅, ∅)) k3.
Proof.
  exact (C106_own_node mixd showx verifyx comb_shapes cfx deaths rev_orders k3 (fair_m_ok k3 k3_orders k3_fair_true) k3_epochs
    (along_each _ k3 k3_alone) (agrees_b_ok k3 k3_agrees_true)).
Qed.

(** The balance of bob, asked for after the second commit: the API sees the
    state before it, which is the one after the first. *)
Definition bob_b (r : ares balance) : bool := match r with Ok n => n =? 13 | _ => false end.
Lemma bob_true : bob_b (adapter_get_balance mixd (disk (historym k3)) (AUser bob) stok None) = true.
Proof. vm_compute. reflexivity. Qed.
Definition has_epoch (r : ares epoch) : bool := is_ok r.
Lemma tip_true : has_epoch (adapter_get_epoch mixd (disk (historym k3)) None) = true.
Proof. vm_compute. reflexivity. Qed.
Example C106_balance_example (qs : nat -> dorder) : exists ep,
  adapter_get_epoch mixd (disk (historym k3)) None = Ok ep /\
  (d_step mixd showx qs (d_run mixd showx rev_orders dstate0 (usesm k3)).2 (OpBalance (eh_state_root (ep_header ep)) (query_params (ep_header ep)) (AUser bob) stok)).1 = OutBalance (Ok 13).
Proof.
  pose proof tip_true as H. pose proof bob_true as Hb.
  destruct (adapter_get_epoch mixd (disk (historym k3)) None) as [ep|e|] eqn:E; [|discriminate H..]. exists ep. split; [reflexivity|].
  destruct (C106_own_balance mixd showx verifyx comb_shapes cfx deaths rev_orders qs k3 (AUser bob) stok ep (fair_m_ok k3 k3_orders k3_fair_true) k3_epochs
    (along_each _ k3 k3_alone) (agrees_b_ok k3 k3_agrees_true) E) as (r & -> & E2).
  rewrite E2 in Hb. destruct r as [n|e|]; [|discriminate Hb..]. cbn [map_err bob_b] in Hb. apply N.eqb_eq in Hb as ->. reflexivity.
Qed.

(** The state of the first block, read in the bytes at the end. *)
Definition k2' : list event := k1 ++ begin1 ++ [EvCrash rest 0; boot; take1] ++ begin1.
Definition leaf_m (o : option (hash * executor)) : bool :=
  match o with Some (r, x) => match committed x !! AUser bob with Some acc => account_balance acc stok =? 13 | None => false end | None => false end.
Lemma leaf_true : leaf_m (event_leaves mixd showx cfx (historym k2') (EvCall rest)) = true.
Proof. vm_compute. reflexivity. Qed.
Lemma k4_split : exists l2, k4 = k2' ++ EvCall rest :: l2.
Proof. unfold k4, k3, k2, k2'. eexists. rewrite <- !app_assoc. cbn [app]. reflexivity. Qed.
Example C106_kept_example (p : params) : exists r x d, event_leaves mixd showx cfx (historym k2') (EvCall rest) = Some (r, x) /\
  d_open mixd (d_run mixd showx rev_orders dstate0 (usesm k4)).2 r p = Ok d /\ (forall a, da_get account_schema (dx_db d) (dx_acc d) a = Ok (committed x !! a)) /\
  match committed x !! AUser bob with Some acc => account_balance acc stok = 13 | None => False end.
Proof.
  pose proof leaf_true as H. destruct (event_leaves mixd showx cfx (historym k2') (EvCall rest)) as [[r x]|] eqn:E; [|discriminate H]. cbn [leaf_m] in H.
  destruct k4_split as (l2 & El).
  destruct (C106_states_kept mixd showx verifyx comb_shapes cfx deaths rev_orders k4 k2' l2 (EvCall rest) r x p (fair_m_ok k4 k4_orders k4_fair_true) (ops_m_ok _ _ k4_ops_true) El E) as (d & H1 & H2 & _).
  exists r, x, d. split; [reflexivity|]. split; [exact H1|]. split; [exact H2|]. destruct (committed x !! AUser bob) as [acc|]; [|discriminate H]. apply N.eqb_eq, H.
Qed.
