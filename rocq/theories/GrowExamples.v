(** * C89_working_peer on the two nodes of SyncExamples: the peer commits epoch
    4, crashes and boots while the other node catches up to epoch 3. *)
From Verif Require Import Base BaseFacts Hex Types Rlp RlpFacts FixedCodec StateAdapter Executor ExecSpec Mempool Merkle Bincode ConsMsg PropConsMsg
  Proto Wire WireFacts Storage StorageSpec StorageFacts StorageExamples Consensus ConsSpec ConsFacts ConsInv ConsChain SyncSpec SyncFacts PropSync PropGrow Keccak
  MixSetup ConsExamples SyncExamples.
Local Open Scope N_scope.

Definition p4 : pill := Eval vm_compute in propose_at l5 4 80.
Definition more : list event := [EvCall (CallPropose (wrap64 4) (wrap64 80)); EvCall (CallCommit (wrap64 4) (commit_of 4 p4)); EvCall rest].
Definition more' : list event := more ++ [EvCrash (CallPropose (wrap64 5) (wrap64 90)) 0; EvBoot canon_order canon_order].
Definition works : list (list event * (nat -> iter_order)) := [([], canons); (more', canons); (more', canons)].
Definition moves : list (durable * (nat -> iter_order)) := map (fun p => (disk (historyx (l5 ++ p.1)), p.2)) works.

Definition raw_same (a b : option bytes) : bool := match a, b with Some x, Some y => bytes_eqb x y | None, None => true | _, _ => false end.
Definition kept_b (l' : list event) : bool :=
  seen_b (l5 ++ l') && along_b (Down (∅, ∅)) (l5 ++ l') &&
  forallb (fun e => forallb (fun h => raw_same ((disk (historyx (l5 ++ l'))).1 !! (2, wenc_hash h)) (peerx.1 !! (2, wenc_hash h))) (ep_ordered_tx_hashes e)) cx.
Fixpoint moving_b (n : node) (ps : list (durable * (nat -> iter_order))) : bool :=
  match ps with
  | [] => true
  | p :: r => is_ok (SyncSpec.pull mixd rootx showx verifyx comb_shapes cfx p.1 n p.2).1.1 &&
      moving_b (after_pull mixd rootx showx verifyx comb_shapes cfx p.1 n p.2) r
  end.
Definition told_is (x : res cn_err reply * node * list durable) : bool := match x with (Ok RepUnit, _, []) => true | _ => false end.
Notation top_b := (same_epoch (get_latest_epoch rocks_col mixd peerx.1) (pl_epoch p3)).
Definition told_b : bool := told_is (announced mixd rootx showx verifyx comb_shapes cfx peerx nodex 1 3).
Lemma told_is_ok x : told_is x = true -> x = (Ok RepUnit, x.1.2, []).
Proof. destruct x as [[r n] t]. destruct r as [[]|y|]; try discriminate. destruct t; [reflexivity|discriminate]. Qed.
Lemma grow_good : kept_b more' && moving_b told moves && top_b && told_b = true.
Proof. vm_compute. reflexivity. Qed.
(** The peer is at epoch 3, then 4, after a crash and a boot; the node copies up
    to epoch 3 and asks the engine to go on after it. *)
Lemma grow_runs : view_m (historyx (l5 ++ more')) = Some [5; 980; 23; 1; 0; 4; 4] /\
  view (after_moving mixd rootx showx verifyx comb_shapes cfx told moves) = [4; 990; 13; 4; 0; 3; 2].
Proof. vm_compute. split; reflexivity. Qed.

Lemma raw_same_ok a b : raw_same a b = true -> a = b.
Proof. destruct a, b; cbn [raw_same]; try discriminate; [|reflexivity]. intros H. apply bytes_eqb_eq in H. congruence. Qed.
Lemma kept_ok l' : kept_b l' = true ->
  epochs_ok mixd rootx showx verifyx comb_shapes cfx (l5 ++ l') /\ alwaysx one_more (l5 ++ l') /\
  forall x h, x ∈ cx -> h ∈ ep_ordered_tx_hashes x ->
    get_transaction_by_hash rocks_col (disk (historyx (l5 ++ l'))).1 h = get_transaction_by_hash rocks_col peerx.1 h.
Proof.
  unfold kept_b. intros H. apply andb_true_iff in H as [H H3]. apply andb_true_iff in H as [H1 H2].
  split; [apply seen_b_ok, H1|]. split; [apply along_b_ok in H2 as (_ & _ & B & _); exact B|]. intros x h Hx Hh.
  rewrite forallb_forall in H3. apply elem_of_list_In in Hx, Hh. specialize (H3 x Hx). rewrite forallb_forall in H3. specialize (H3 h Hh).
  apply raw_same_ok in H3. unfold get_transaction_by_hash, get_or_none, Storage.ad_get, ad_key.
  cbn [TransactionSchema sc_cat sc_kenc sc_vdec rocks_col]. rewrite H3. reflexivity.
Qed.
Lemma moving_b_ok ps : forall n, moving_b n ps = true -> moving_ok mixd rootx showx verifyx comb_shapes cfx n ps.
Proof.
  induction ps as [|p ps IH]; intros n; cbn [moving_b moving_ok]; [auto|]. intros H. apply andb_true_iff in H as [A B]. auto.
Qed.
Lemma kept_now x h : x ∈ cx -> h ∈ ep_ordered_tx_hashes x ->
  get_transaction_by_hash rocks_col (disk (historyx l5)).1 h = get_transaction_by_hash rocks_col peerx.1 h.
Proof. unfold peerx. intros _ _. reflexivity. Qed.
(** The hypotheses of C89_working_peer, with k = 1, L = 3; [peerx] is the disk
    of the history [l5]. *)
Example grow_hypotheses :
  good_peer mixd peerx cx /\ answers_fit peerx cx /\ headers_distinct mixd cx /\
  get_latest_epoch rocks_col mixd peerx.1 = Ok (pl_epoch p3) /\ last cx = Some (pl_epoch p3) /\
  Forall (fun p => epochs_ok mixd rootx showx verifyx comb_shapes cfx (l5 ++ p.1) /\ alwaysx one_more (l5 ++ p.1) /\
    forall x h, x ∈ cx -> h ∈ ep_ordered_tx_hashes x ->
      get_transaction_by_hash rocks_col (disk (historyx (l5 ++ p.1))).1 h = get_transaction_by_hash rocks_col peerx.1 h) works /\
  stands_at mixd nodex cx 1 /\ (1 + 2 <= 3 < length cx)%nat /\ N.of_nat 3 + 1 < two64 /\ cx !! 3%nat = Some (pl_epoch p3) /\
  announced mixd rootx showx verifyx comb_shapes cfx peerx nodex 1 3 = (Ok RepUnit, told, []) /\
  length works = (3 - 1 + 1)%nat /\ moving_ok mixd rootx showx verifyx comb_shapes cfx told moves.
Proof.
  destruct sync_story_hypotheses as (S1 & _ & S3 & A & B & C & D & E).
  pose proof grow_good as H. apply andb_true_iff in H as [H H4]. apply andb_true_iff in H as [H H3]. apply andb_true_iff in H as [H1 H2].
  split; [exact A|]. split; [exact B|]. split; [exact C|]. split.
  { exact (proj1 (same_epoch_ok _ _ H3)). }
  split; [reflexivity|]. split.
  { pose proof (kept_ok _ H1) as K. apply Forall_cons; split; [|apply Forall_cons; split; [exact K|apply Forall_cons; split; [exact K|apply Forall_nil; exact I]]].
    cbn [fst]. rewrite app_nil_r. split; [exact S1|]. split; [exact S3|]. exact kept_now. }
  split; [exact D|]. split; [exact E|]. split; [reflexivity|]. split; [reflexivity|]. split.
  { exact (told_is_ok _ H4). }
  split; [reflexivity|]. exact (moving_b_ok _ _ H2).
Qed.
