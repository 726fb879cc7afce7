(** * C91 on concrete nodes: two that agree, and two that were told to commit
    the same epoch and do not. *)
From Verif Require Import Base BaseFacts Hex Types Rlp RlpFacts FixedCodec StateAdapter Executor ExecSpec Mempool MempoolMore Merkle Bincode ConsMsg PropConsMsg
  Proto Wire WireFacts Storage StorageSpec StorageExamples Consensus ConsSpec ConsFacts ConsInv LedgerSpec ReplicaSpec Keccak MixSetup ConsExamples LedgerExamples SyncExamples.
Local Open Scope N_scope.

(** Another node of the chain: bob's, with its own limits, iterating its maps
    backwards, the bank first. *)
Definition cfy : config :=
  MkConfig chainx bob (wrap64 1) (wrap64 20000) (wrap64 5000) [alice; carol] 3%nat (wrap64 50) gen0.
Definition back : iter_order := MkOrder (fun m => rev (map_to_list m)) (fun m => rev (map_to_list m)) true.
Lemma back_ok : order_ok back.
Proof. split; intros m; cbn [back io_acc io_bank]; apply Permutation_sym, Permutation_rev. Qed.
Notation historyy := (history mixd rootx showx verifyx comb_shapes cfy).
Notation handedx := (handed mixd rootx showx verifyx comb_shapes cfx (Down (∅, ∅))).
Notation handedy := (handed mixd rootx showx verifyx comb_shapes cfy (Down (∅, ∅))).

(** alice's transaction reaches the second node in its check of the proposal;
    bob's pool sees other traffic. *)
Definition tx2 : signed_tx :=
  let raw := MkRaw chainx (mixd [x09]) (wrap64 20) (MkFee stok (wrap64 1000)) (Transfer carol (MkCarrying stok 1)) in
  MkSigned raw (mixd (enc_raw raw)) [x02] [x05].
Definition restb : call := CallCommitRest (fun _ => back) (Err (CNetwork 0)).
Definition ly_rest : list event := [EvCall (CallInsert false tx2 (Ok tt)); EvCall (CallCheck (mixd (enc_pill p1)) p1 (Ok []) (Ok [tx1]));
  EvCall (CallPropose (wrap64 1) (wrap64 51)); EvCall (CallCommit (wrap64 1) (commit_of 1 p1)); EvCall restb].
Definition lx_rest : list event := tail l2 ++ [EvCall rest].

Definition runs_b (cf : config) (l : list event) : bool :=
  forallb (fun x => clash_check (tries_of x)) (execs_seen mixd rootx showx verifyx comb_shapes cf (Down (∅, ∅)) l).
Lemma along_forall_cf (cf : config) (C : machine -> event -> Prop) l : Forall (fun e => forall m, C m e) l -> forall m,
  along mixd rootx showx verifyx comb_shapes cf C m l.
Proof. induction 1 as [|e l He _ IH]; intros m; cbn [along]; auto. Qed.
Lemma runs_b_ok cf l : Forall (fun e => forall m, orders_ok m e) l -> runs_b cf l = true -> runs_ok mixd rootx showx verifyx comb_shapes cf l.
Proof.
  intros Ho H. split; [apply along_forall_cf, Ho|]. unfold runs_b in H. rewrite forallb_forall in H. apply Forall_forall.
  intros x Hx. apply clash_check_ok, H, elem_of_list_In, Hx.
Qed.

Definition txs_eqb (l k : list signed_tx) : bool := bytes_eqb (enc_txs l) (enc_txs k).
Definition blk_eqb (a b : block) : bool :=
  let '(i, e, pf, txs) := a in let '(i', e', pf', txs') := b in
  (u64v i =? u64v i') && bytes_eqb (wenc_epoch e) (wenc_epoch e') && bytes_eqb (wenc_proof pf) (wenc_proof pf') && txs_eqb txs txs'.
Definition plain_b (t : signed_tx) : bool := match rt_action (st_raw t) with Transfer _ _ => true | _ => false end.
Definition blk_good (a : block) : bool :=
  let '(i, e, pf, txs) := a in
  (blen (wenc_epoch e) <? two64) && (blen (wenc_proof pf) <? two64) && (blen (enc_txs txs) <? two64) && forallb plain_b txs.
Lemma blk_eqb_eq a b : blk_good a = true -> blk_good b = true -> blk_eqb a b = true -> a = b.
Proof.
  destruct a as [[[i e] pf] txs], b as [[[i' e'] pf'] txs']. unfold blk_good, blk_eqb, txs_eqb. intros Ha Hb H.
  repeat match goal with H : _ && _ = true |- _ => apply andb_true_iff in H as [H ?] end.
  repeat match goal with H : bytes_eqb _ _ = true |- _ => apply bytes_eqb_eq in H end.
  repeat match goal with H : (_ <? _) = true |- _ => apply N.ltb_lt in H end.
  apply ueqb_eq in H. subst i'.
  assert (forall l, forallb plain_b l = true -> Forall tx_plain l) as P.
  { intros l Hl. rewrite forallb_forall in Hl. apply Forall_forall. intros t Ht. apply elem_of_list_In, Hl in Ht. unfold plain_b in Ht. unfold tx_plain.
    destruct (rt_action (st_raw t)); try discriminate Ht; exact I. }
  assert (e = e') as ->.
  { pose proof (wire_epoch e) as W. pose proof (wire_epoch e') as W'. unfold fits in W, W'. specialize (W ltac:(assumption)). specialize (W' ltac:(assumption)). congruence. }
  assert (pf = pf') as ->.
  { pose proof (wire_proof pf) as W. pose proof (wire_proof pf') as W'. unfold fits in W, W'. specialize (W ltac:(assumption)). specialize (W' ltac:(assumption)). congruence. }
  assert (txs = txs') as ->; [|reflexivity].
  pose proof (C66_roundtrip_transactions txs []) as W. pose proof (C66_roundtrip_transactions txs' []) as W'. unfold fits in W, W'.
  specialize (W ltac:(apply P; assumption) ltac:(assumption)). specialize (W' ltac:(apply P; assumption) ltac:(assumption)). congruence.
Qed.
Fixpoint blks_eqb (l k : list block) : bool :=
  match l, k with [], [] => true | a :: l', b :: k' => blk_good a && blk_good b && blk_eqb a b && blks_eqb l' k' | _, _ => false end.
Lemma blks_eqb_eq l : forall k, blks_eqb l k = true -> l = k.
Proof.
  induction l as [|a l IH]; intros [|b k]; try discriminate; [reflexivity|]. cbn [blks_eqb]. intros H.
  apply andb_true_iff in H as [H H4]. apply andb_true_iff in H as [H H3]. apply andb_true_iff in H as [H1 H2].
  f_equal; [apply blk_eqb_eq; assumption|apply IH, H4].
Qed.

Lemma replicas_good :
  runs_b cfx (EvBoot canon_order canon_order :: lx_rest) && runs_b cfy (EvBoot back back :: ly_rest) &&
  blks_eqb (handedx (EvBoot canon_order canon_order :: lx_rest)) (handedy (EvBoot back back :: ly_rest)) &&
  (length (handedx (EvBoot canon_order canon_order :: lx_rest)) =? 1)%nat &&
  negb (heqb (LATEST_EPOCH_KEY mixd) (LATEST_PROOF_KEY mixd)) = true.
Proof. vm_compute. reflexivity. Qed.
Example replicas_hypotheses :
  LATEST_EPOCH_KEY mixd <> LATEST_PROOF_KEY mixd /\ same_rules cfx cfy /\
  Forall plain_event lx_rest /\ Forall plain_event ly_rest /\
  runs_ok mixd rootx showx verifyx comb_shapes cfx (EvBoot canon_order canon_order :: lx_rest) /\
  runs_ok mixd rootx showx verifyx comb_shapes cfy (EvBoot back back :: ly_rest) /\
  handedx (EvBoot canon_order canon_order :: lx_rest) = handedy (EvBoot back back :: ly_rest) /\
  length (handedx (EvBoot canon_order canon_order :: lx_rest)) = 1%nat.
Proof.
  pose proof replicas_good as H. repeat match goal with H : _ && _ = true |- _ => apply andb_true_iff in H as [H ?] end.
  split. { intros X. match goal with H : negb _ = true |- _ => rewrite X in H end. discriminate. }
  split; [repeat split|].
  split; [repeat (apply Forall_cons; split; [exact I|]); apply Forall_nil; exact I|].
  split; [repeat (apply Forall_cons; split; [exact I|]); apply Forall_nil; exact I|].
  split; [|split; [|split; [apply blks_eqb_eq; assumption|apply Nat.eqb_eq; assumption]]].
  - apply runs_b_ok; [|assumption].
    repeat (apply Forall_cons; split; [intros m; first [exact I|split; apply (canons_ok O)|exact canons_ok]|]); apply Forall_nil; exact I.
  - apply runs_b_ok; [|assumption].
    repeat (apply Forall_cons; split; [intros m; first [exact I|split; apply back_ok|exact (fun _ => back_ok)]|]); apply Forall_nil; exact I.
Qed.
(** Both went through the commit: epoch 2 is next, bob has 13. *)
Definition baly (m : machine) : option (list N) :=
  match m with Up n => Some [u64v (cs_epoch_id (nd_status n)); bal_at n bob] | Down _ => None end.
Example replicas_run :
  baly (historyx (EvBoot canon_order canon_order :: lx_rest)) = Some [2; 13] /\
  baly (historyy (EvBoot back back :: ly_rest)) = Some [2; 13].
Proof. vm_compute. split; reflexivity. Qed.

(** ** The same epochs are not enough *)
(** A toy signature scheme. *)
Definition verifys (h sig pk : bytes) : bool := bytes_eqb sig (pk ++ h).
Notation historys := (history mixd rootx showx verifys comb_shapes cfx).
Definition signed_by (pk : bytes) (raw : raw_tx) : signed_tx :=
  let h := mixd (enc_raw raw) in MkSigned raw h pk (pk ++ sbytes h).
Definition raw3 : raw_tx := MkRaw chainx (mixd [x01]) (wrap64 20) (MkFee stok (wrap64 1000)) (Transfer carol (MkCarrying stok 1)).
Definition ta : signed_tx := signed_by [x01] raw3.
Definition tb : signed_tx := signed_by [x02] raw3.
Definition told_of (t : signed_tx) : list event := [EvBoot canon_order canon_order; EvCall (CallInsert true t (Ok tt))].
Definition proposal3 : pill := Eval vm_compute in
  match historys (told_of ta) with
  | Up n => pill_of (run_call mixd rootx showx verifys comb_shapes cfx (CallPropose (wrap64 1) (wrap64 50)) n)
  | _ => MkPill (genesis_epoch mixd cfx (mixd [])) []
  end.
Definition committed3 (t : signed_tx) : list event := told_of t ++ [EvCall (CallCommit (wrap64 1) (commit_of 1 proposal3)); EvCall rest].
Definition answer_ok (m : machine) (c : call) : bool :=
  match m with Up n => is_ok (run_call mixd rootx showx verifys comb_shapes cfx c n).1.1 | Down _ => false end.
Definition latest_of (m : machine) : sres epoch := get_latest_epoch rocks_col mixd (disk m).1.
Definition root_at (m : machine) : option hash := match m with Up n => Some (cs_state_root (nd_status n)) | Down _ => None end.
Definition same_latest (r r' : sres epoch) : bool :=
  match r, r' with Ok e, Ok e' => bytes_eqb (wenc_epoch e) (wenc_epoch e') && (length (ep_ordered_tx_hashes e) =? 1)%nat | _, _ => false end.
Lemma divergence_check :
  answer_ok (historys [EvBoot canon_order canon_order]) (CallInsert true ta (Ok tt)) &&
  answer_ok (historys [EvBoot canon_order canon_order]) (CallInsert true tb (Ok tt)) &&
  answer_ok (historys (told_of ta ++ [EvCall (CallCommit (wrap64 1) (commit_of 1 proposal3))])) rest &&
  answer_ok (historys (told_of tb ++ [EvCall (CallCommit (wrap64 1) (commit_of 1 proposal3))])) rest &&
  same_epoch (latest_of (historys (committed3 ta))) (pl_epoch proposal3) && same_epoch (latest_of (historys (committed3 tb))) (pl_epoch proposal3) &&
  bl_eqb (ids (ep_ordered_tx_hashes (pl_epoch proposal3))) (ids [st_tx_hash ta]) &&
  match root_at (historys (committed3 ta)), root_at (historys (committed3 tb)) with Some r, Some r' => negb (heqb r r') | _, _ => false end = true.
Proof. vm_compute. reflexivity. Qed.

Lemma answer_says m c : answer_ok m c = true ->
  match m with Up n => is_ok (run_call mixd rootx showx verifys comb_shapes cfx c n).1.1 = true | Down _ => False end.
Proof. unfold answer_ok. destruct m; [discriminate|]. intros H; exact H. Qed.
Lemma roots_differ m m' : match root_at m, root_at m' with Some r, Some r' => negb (heqb r r') | _, _ => false end = true ->
  exists n n', m = Up n /\ m' = Up n' /\ cs_state_root (nd_status n) <> cs_state_root (nd_status n').
Proof.
  destruct m as [d|n], m' as [d'|n']; cbn [root_at]; try discriminate. intros H. exists n, n'. split; [reflexivity|]. split; [reflexivity|].
  intros X. rewrite X in H. unfold heqb in H. rewrite (proj2 (bytes_eqb_eq _ _) eq_refl) in H. discriminate.
Qed.

(** Two nodes of one configuration receive, one a transaction, the other the
    same transaction signed by somebody else; both are accepted.  The epoch
    ordering its hash is committed on both, both end with that epoch as their
    latest -- and with different states. *)
Theorem C91_same_epochs_agree_refuted : exists (t t' : signed_tx) (p : pill) (c : commit_msg) (n n' : node),
  let booted := [EvBoot canon_order canon_order] in
  let says_ok l cl := match historys l with Up m => is_ok (run_call mixd rootx showx verifys comb_shapes cfx cl m).1.1 = true | Down _ => False end in
  let life t := booted ++ [EvCall (CallInsert true t (Ok tt)); EvCall (CallCommit (wrap64 1) c)] in
  st_raw t = st_raw t' /\ st_tx_hash t = st_tx_hash t' /\ cm_pill c = p /\ ep_ordered_tx_hashes (pl_epoch p) = [st_tx_hash t] /\
  says_ok booted (CallInsert true t (Ok tt)) /\ says_ok booted (CallInsert true t' (Ok tt)) /\
  says_ok (life t) rest /\ says_ok (life t') rest /\
  historys (life t ++ [EvCall rest]) = Up n /\ historys (life t' ++ [EvCall rest]) = Up n' /\
  get_latest_epoch rocks_col mixd (nd_disk n).1 = Ok (pl_epoch p) /\ get_latest_epoch rocks_col mixd (nd_disk n').1 = Ok (pl_epoch p) /\
  cs_state_root (nd_status n) <> cs_state_root (nd_status n').
Proof.
  pose proof divergence_check as H.
  apply andb_true_iff in H as [H H8]. apply andb_true_iff in H as [H H7]. apply andb_true_iff in H as [H H6]. apply andb_true_iff in H as [H H5].
  apply andb_true_iff in H as [H H4]. apply andb_true_iff in H as [H H3]. apply andb_true_iff in H as [H1 H2].
  apply answer_says in H1, H2, H3, H4. apply hashes_eqb_eq in H7. apply same_epoch_ok in H5 as [H5 _]. apply same_epoch_ok in H6 as [H6 _].
  unfold latest_of in H5, H6. apply roots_differ in H8 as (n & n' & Ea & Eb & H8).
  exists ta, tb, proposal3, (commit_of 1 proposal3), n, n'. cbv zeta.
  split; [reflexivity|]. split; [reflexivity|]. split; [reflexivity|]. split; [exact H7|].
  split; [exact H1|]. split; [exact H2|]. split; [exact H3|]. split; [exact H4|]. split; [exact Ea|]. split; [exact Eb|].
  rewrite Ea in H5. rewrite Eb in H6. split; [exact H5|]. split; [exact H6|exact H8].
Qed.
Print Assumptions C91_same_epochs_agree_refuted.

(** ** C92: the transaction [ta], re-signed by another key *)
Definition env3 : env := MkEnv (Ok (chainx, wrap64 1)) (fun _ => Ok false).
Example resigned_hypotheses :
  (let? _ := check_signature verifys ta in let? _ := check_transaction mixd (wrap64 20) env3 ta in check_storage_exist env3 (st_tx_hash ta)) = Ok tt /\
  verifys (sbytes (st_tx_hash ta)) (st_signature tb) (st_pubkey tb) = true /\ bytes_eqb (st_pubkey ta) (st_pubkey tb) = false /\
  is_ok (mp_insert mixd verifys (wrap64 20) (pool_after mixd verifys 8 (wrap64 20) (wrap64 20) []) true tb env3 (Ok tt)).1 = true.
Proof. vm_compute. repeat split; reflexivity. Qed.
