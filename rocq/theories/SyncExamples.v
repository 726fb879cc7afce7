(** * A node at epoch 1 catches up with a peer at epoch 3 (digest [mixd]):
    the hypotheses of the C89 theorems, and what happens. *)
From Verif Require Import Base BaseFacts Hex Types Rlp RlpFacts FixedCodec StateAdapter Executor ExecSpec Mempool Merkle Bincode ConsMsg PropConsMsg
  Proto Wire WireFacts Storage StorageSpec StorageFacts StorageExamples Consensus ConsSpec ConsFacts ConsInv ConsChain SyncSpec SyncFacts PropSync Keccak
  MixSetup ConsExamples.
From Coq Require Strings.String.
Import String.StringSyntax.
Delimit Scope string_scope with string.
Local Open Scope N_scope.

Definition p3 : pill := Eval vm_compute in propose_at l4 3 70.
Definition l5 : list event := l4 ++ [EvCall (CallPropose (wrap64 3) (wrap64 70)); EvCall (CallCommit (wrap64 3) (commit_of 3 p3)); EvCall rest].
Definition peerx : durable := disk (historyx l5).
Definition nodex : node := match historyx l3 with Up n => n | Down _ => MkNode (start_status mixd cfx (pl_epoch p1)) [] (mp_new 1 (wrap64 1)) (∅, ∅) Idle [] end.
Definition gen_of (d : durable) : epoch :=
  match get_epoch_by_epoch_id rocks_col d.1 (wrap64 0) with Ok e => e | _ => pl_epoch p1 end.
Definition gen_epoch : epoch := Eval vm_compute in gen_of peerx.
Definition cx : list epoch := [gen_epoch; pl_epoch p1; pl_epoch p2; pl_epoch p3].

Definition same_epoch (r : sres epoch) (e : epoch) : bool :=
  match r with Ok x => (blen (wenc_epoch x) <? two64) && bytes_eqb (wenc_epoch x) (wenc_epoch e) | _ => false end.
Lemma same_epoch_ok r e : same_epoch r e = true -> r = Ok e /\ fits (wenc_epoch e).
Proof.
  destruct r as [x| |]; try discriminate. cbn [same_epoch]. intros H. apply andb_true_iff in H as [H1 H2].
  apply N.ltb_lt in H1. apply bytes_eqb_eq in H2. pose proof (wire_epoch x H1) as W. rewrite H2 in W, H1.
  rewrite (wire_epoch e H1) in W. injection W as <-. auto.
Qed.
Fixpoint chain_b (d : db) (i : N) (prev : option hash) (c : list epoch) : bool :=
  match c with
  | [] => true
  | e :: r => (u64v (eh_epoch_id (ep_header e)) =? i) && same_epoch (get_epoch_by_epoch_id rocks_col d (wrap64 i)) e &&
      (match prev with None => true | Some h => heqb (eh_pre_hash (ep_header e)) h end) && chain_b d (i + 1) (Some (mixd (enc_epoch e))) r
  end.
Lemma chain_b_ok d c : forall i0 prev, chain_b d i0 prev c = true ->
  (forall i e, c !! i = Some e -> eh_epoch_id (ep_header e) = i0 + N.of_nat i :> N /\ get_epoch_by_epoch_id rocks_col d (wrap64 (i0 + N.of_nat i)) = Ok e) /\
  (forall i a b, c !! i = Some a -> c !! S i = Some b -> eh_pre_hash (ep_header b) = mixd (enc_epoch a)) /\
  (forall h e, prev = Some h -> c !! O = Some e -> eh_pre_hash (ep_header e) = h).
Proof.
  induction c as [|x c IH]; intros i0 prev; cbn [chain_b]; [intros _; repeat split; intros; discriminate|].
  intros H. apply andb_true_iff in H as [H H4]. apply andb_true_iff in H as [H H3]. apply andb_true_iff in H as [H1 H2].
  apply N.eqb_eq in H1. apply same_epoch_ok in H2 as [H2 _]. destruct (IH _ _ H4) as (A & B & C). repeat split.
  - destruct i as [|i]; cbn [lookup list_lookup] in H; [injection H as <-; rewrite H1; lia|].
    destruct (A i e H) as [A1 _]. rewrite A1. lia.
  - destruct i as [|i]; cbn [lookup list_lookup] in H; [injection H as <-; rewrite <- H2; f_equal; f_equal; lia|].
    destruct (A i e H) as [_ A2]. rewrite <- A2. f_equal. f_equal. lia.
  - intros i a b Ha Hb. destruct i as [|i]; cbn [lookup list_lookup] in Ha, Hb; [|exact (B i a b Ha Hb)].
    injection Ha as <-. exact (C _ b eq_refl Hb).
  - intros h e -> He. cbn [lookup list_lookup] in He. injection He as <-. apply heqb_eq, H3.
Qed.
Definition tx_b (d : db) (h : hash) : bool :=
  match get_transaction_by_hash rocks_col d h with
  | Ok t => heqb (st_tx_hash t) h && match rt_action (st_raw t) with Transfer _ _ => true | _ => false end
  | _ => false
  end.
Definition answers_b (d : db) (e : epoch) : bool :=
  (blen (enc_epoch e) <? two64) && (blen (wenc_epoch e) <? two64) && (blen (enc_request (RqTxs (ep_ordered_tx_hashes e))) <? two64) &&
  match map_res (get_transaction_by_hash rocks_col d) (ep_ordered_tx_hashes e) with Ok l => blen (enc_txs l) <? two64 | _ => true end.
Definition peer_b (d : durable) (c : list epoch) : bool :=
  chain_b d.1 0 None c && forallb (fun e => forallb (tx_b d.1) (ep_ordered_tx_hashes e) && answers_b d.1 e) c &&
  nocoll_b (ascii "latest_hash"%string :: ascii "latest_proof"%string :: map (fun e => wenc_header (ep_header e)) c).
Lemma peer_b_ok d c : peer_b d c = true -> good_peer mixd d c /\ answers_fit d c /\ headers_distinct mixd c.
Proof.
  intros H. apply andb_true_iff in H as [H H3]. apply andb_true_iff in H as [H1 H2]. rewrite forallb_forall in H2. split; [|split].
  - split.
    + destruct (chain_b_ok _ _ _ _ H1) as (A & B & _). split; [|exact B]. intros i e He. exact (A i e He).
    + intros e h He Hh. specialize (H2 e (proj1 (elem_of_list_In _ _) He)). apply andb_true_iff in H2 as [H2 _].
      rewrite forallb_forall in H2. specialize (H2 h (proj1 (elem_of_list_In _ _) Hh)). unfold tx_b in H2.
      destruct (get_transaction_by_hash rocks_col d.1 h) as [t| |]; try discriminate H2. apply andb_true_iff in H2 as [A B]. exists t.
      split; [reflexivity|]. split; [apply heqb_eq, A|]. unfold tx_plain. destruct (rt_action (st_raw t)); try discriminate B. exact I.
  - intros e He. specialize (H2 e (proj1 (elem_of_list_In _ _) He)). apply andb_true_iff in H2 as [_ H2]. unfold answers_b in H2.
    apply andb_true_iff in H2 as [H2 D]. apply andb_true_iff in H2 as [H2 C]. apply andb_true_iff in H2 as [A B].
    apply N.ltb_lt in A, B, C. splits. intros l Hl. rewrite Hl in D. apply N.ltb_lt, D.
  - apply nocoll_b_ok, H3.
Qed.

Definition stands_b (n : node) (e : epoch) (k : N) : bool :=
  match nd_busy n with Idle => true | _ => false end && same_epoch (get_latest_epoch rocks_col mixd (nd_disk n).1) e &&
  same_epoch (get_epoch_by_epoch_id rocks_col (nd_disk n).1 (wrap64 k)) e.

Lemma sync_story_good : along_b (Down (∅, ∅)) l5 && seen_b l5 && peer_b peerx cx && stands_b nodex (pl_epoch p1) 1 = true.
Proof. vm_compute. reflexivity. Qed.
(** The peer's history satisfies the hypotheses of C89_nodes_are_good_peers;
    peer, chain and node those of the other C89 theorems, with k = 1, L = 3. *)
Example sync_story_hypotheses :
  epochs_ok mixd rootx showx verifyx comb_shapes cfx l5 /\ alwaysx replies_match l5 /\ alwaysx one_more l5 /\
  good_peer mixd peerx cx /\ answers_fit peerx cx /\ headers_distinct mixd cx /\ stands_at mixd nodex cx 1 /\
  (1 + 2 <= 3 < length cx)%nat.
Proof.
  pose proof sync_story_good as H. apply andb_true_iff in H as [H H4]. apply andb_true_iff in H as [H H3]. apply andb_true_iff in H as [H1 H2].
  split; [apply seen_b_ok, H2|]. apply along_b_ok in H1 as (A & _ & B & _). split; [exact A|]. split; [exact B|].
  apply peer_b_ok in H3 as (C & D & E). split; [exact C|]. split; [exact D|]. split; [exact E|]. split; [|cbn [cx length]; lia].
  unfold stands_b in H4. apply andb_true_iff in H4 as [H4 F]. apply andb_true_iff in H4 as [G K].
  apply same_epoch_ok in F as [F _]. apply same_epoch_ok in K as [K _]. split; [destruct (nd_busy nodex); [reflexivity|discriminate G..]|].
  exists (pl_epoch p1). split; [reflexivity|]. split; [exact K|exact F].
Qed.

(** All pulls succeed: two epochs and the end. *)
Fixpoint pulls_ok_b (n : node) (k : nat) : bool :=
  match k with
  | O => true
  | S k => is_ok (SyncSpec.pull mixd rootx showx verifyx comb_shapes cfx peerx n canons).1.1 &&
           pulls_ok_b (after_pull mixd rootx showx verifyx comb_shapes cfx peerx n canons) k
  end.
Lemma pulls_ok_b_ok k : forall n, pulls_ok_b n k = true ->
  pulls_ok mixd rootx showx verifyx comb_shapes cfx peerx n (repeat canons k).
Proof.
  induction k as [|k IH]; intros n; cbn [pulls_ok_b repeat pulls_ok]; [auto|]. intros H. apply andb_true_iff in H as [A B]. auto.
Qed.
Definition told : node := (announced mixd rootx showx verifyx comb_shapes cfx peerx nodex 1 3).1.2.
Lemma sync_story_all_ok : pulls_ok_b told 3 = true.
Proof. vm_compute. reflexivity. Qed.
Example sync_story_pulls_ok : pulls_ok mixd rootx showx verifyx comb_shapes cfx peerx told (repeat canons 3).
Proof. exact (pulls_ok_b_ok _ _ sync_story_all_ok). Qed.
(** alice's transaction was executed twice on the peer (980 left; the third
    epoch is empty).  The synchronised node has the same epochs, but its state
    misses the effect of epoch 1, from whose starting state it went on (C69). *)
Example sync_story_runs :
  view nodex = [2; 990; 13; 3; 0; 1; 1] /\
  view_m (historyx l5) = Some [4; 980; 23; 7; 0; 3; 3] /\
  view told = [2; 990; 13; 3; 102; 1; 1] /\
  view (after_pulls mixd rootx showx verifyx comb_shapes cfx peerx told (repeat canons 3)) = [4; 990; 13; 4; 0; 3; 2].
Proof. vm_compute. repeat split; reflexivity. Qed.
