(** * Consensus properties C61, C63 (what peers can do), C64, C65, C67, C69. *)
From Verif Require Import Base BaseFacts Hex Types Rlp RlpFacts FixedCodec FixedCodecFacts CodecProps StateAdapter Executor Mempool
  Merkle Bincode ConsMsg PropConsMsg Proto ProtoFacts Wire WireFacts Storage StorageSpec StorageFacts StorageProps
  Consensus ConsSpec ConsFacts ConsInv ConsChain ConsMore ConsAuth ConsLast PropConsensus.
From Coq Require Import Permutation.
Local Open Scope N_scope.

Section Props.
  Context (digest : bytes -> hash) (root_of : gmap bytes bytes -> hash) (show : exec_err -> rstring)
          (verify : bytes -> bytes -> bytes -> bool) (shapes : nat -> shape) (cf : config).
  Notation run_call := (run_call digest root_of show verify shapes cf).
  Notation happens := (happens digest root_of show verify shapes cf).
  Notation history := (Consensus.history digest root_of show verify shapes cf).
  Notation always C := (along digest root_of show verify shapes cf C (Down (∅, ∅))).
  Notation epochs_ok := (epochs_ok digest root_of show verify shapes cf).
  Notation latest d := (get_latest_epoch rocks_col digest (fst d)).
  Notation at_id d i := (get_epoch_by_epoch_id rocks_col (fst d) i).
  Notation latest_proof d := (get_latest_proof rocks_col digest (fst d)).
  Notation tx_at d h := (get_transaction_by_hash rocks_col (fst d) h).

  (** A synchronising node holds a state root its state database knows. *)
  Definition state_known (n : node) (sr : hash) (e : epoch) : Prop :=
    exists x, Executor.from_root digest (cf_chain_id cf) sr (nd_disk n).2 (eh_epoch_id (ep_header e))
      (cs_price (nd_status n)) (AUser (eh_proposer (ep_header e))) = Ok x.

  (** ** C61 *)

  (** A peer that answers the pull of an epoch's transactions with none makes
      a synchronising node store the epoch as its latest without them. *)
  Theorem C61_sync_stores_incomplete_epoch_refuted : forall n next rich ch sr e h os,
    nd_busy n = Syncing next rich ch sr -> next <= rich -> next = 1 \/ eh_pre_hash (ep_header e) = ch ->
    state_known n sr e -> fits (wenc_epoch e) ->
    h ∈ ep_ordered_tx_hashes e -> tx_at (nd_disk n) h = Err GetNone ->
    exists n' t, run_call (CallSyncEpoch os (Ok (RpEpoch e)) (Ok (RpTxs []))) n = (Ok RepUnit, n', t) /\
      latest (nd_disk n') = Ok e /\ tx_at (nd_disk n') h = Err GetNone /\ ~ complete (nd_disk n').1 e.
  Proof.
    intros n next rich ch sr e h os Eb Hle Hl [x Hx] Hf Hin Hno.
    destruct (sync_empty digest root_of show verify shapes cf _ _ _ _ _ _ os _ Eb Hle Hl Hx) as (n' & t & resp & tr' & E & Hd & Hr & _ & _).
    exists n', t. split; [exact E|]. rewrite Hd. cbn [fst]. rewrite applied_db.
    split; [apply read_latest; [apply latest_LK|exact Hf]|].
    assert (get_transaction_by_hash rocks_col (w_latest digest (w_index digest (w_epoch
      (w_txs (w_receipts (with_proof digest (nd_disk n) (eh_proof (ep_header e))).1 (er_receipts resp)) []) e) e) e) h = Err GetNone) as Ht.
    { unfold get_transaction_by_hash, get_or_none, Storage.ad_get, ad_key in *. cbn [TransactionSchema sc_cat sc_kenc rocks_col] in *.
      unfold w_latest, w_index, w_epoch. rewrite !lookup_insert_ne by (intros X; discriminate X).
      rewrite Hr. unfold w_txs, w_receipts. rewrite with_proof_db. cbn [fst]. unfold batch_insert. cbn [map].
      unfold apply_write. cbn [fold_left]. unfold w_proof. rewrite lookup_insert_ne by (intros X; discriminate X). exact Hno. }
    split; [exact Ht|]. intros Hc. destruct (Hc h Hin) as [(tx & Hg & _) _]. rewrite Ht in Hg. discriminate Hg.
  Qed.

  Lemma along_snoc C l ev : forall m, along digest root_of show verify shapes cf C m (l ++ [ev]) ->
    C (fold_left happens l m) ev.
  Proof. induction l as [|x l IH]; intros m; cbn [app along fold_left]; [tauto|]. intros [_ H]. exact (IH _ H). Qed.

  (** After a synchronisation step the stored proof is the one in the epoch's
      header, which is that of the epoch before it ([build_epoch] puts
      the status' proof there, C60_next_proposal). *)
  Theorem C61_sync_proof_is_headers_refuted : forall l n next rich ch sr e os,
    epochs_ok (l ++ [EvCall (CallSyncEpoch os (Ok (RpEpoch e)) (Ok (RpTxs [])))]) -> history l = Up n ->
    nd_busy n = Syncing next rich ch sr -> next <= rich -> next = 1 \/ eh_pre_hash (ep_header e) = ch ->
    state_known n sr e -> fits (wenc_proof (eh_proof (ep_header e))) ->
    exists n' t, run_call (CallSyncEpoch os (Ok (RpEpoch e)) (Ok (RpTxs []))) n = (Ok RepUnit, n', t) /\
      latest (nd_disk n') = Ok e /\
      latest_proof (nd_disk n') = Ok (eh_proof (ep_header e)) /\ cs_proof (nd_status n') = eh_proof (ep_header e).
  Proof.
    intros l n next rich ch sr e os Hok Hh Eb Hle Hl [x Hx] Hf. apply epochs_ok_seen in Hok as [Hs HLP].
    apply along_snoc in Hs. fold (history l) in Hs. rewrite Hh in Hs. unfold seen_ok in Hs. cbn [event_epochs call_epochs] in Hs.
    apply Forall_cons in Hs as [He _].
    destruct (sync_empty digest root_of show verify shapes cf _ _ _ _ _ _ os _ Eb Hle Hl Hx) as (n' & t & resp & tr' & E & Hd & Hr & Hst & _).
    exists n', t. split; [exact E|]. rewrite Hd, Hst. cbn [fst]. rewrite applied_db.
    split; [apply read_latest; [apply latest_LK|apply He]|]. split; [|reflexivity].
    apply read_proof; [|exact Hf]. rewrite latest_PK, index_PK, epoch_hashk, base_col1, with_proof_db by assumption. apply proof_PK.
  Qed.

  (** ** C63 *)

  (** The first epoch after the genesis is not checked to link at all. *)
  Theorem C63_first_epoch_unlinked_refuted : forall n rich ch sr e os,
    nd_busy n = Syncing 1 rich ch sr -> 1 <= rich -> state_known n sr e -> fits (wenc_epoch e) ->
    exists n' t, run_call (CallSyncEpoch os (Ok (RpEpoch e)) (Ok (RpTxs []))) n = (Ok RepUnit, n', t) /\ latest (nd_disk n') = Ok e.
  Proof.
    intros n rich ch sr e os Eb Hle [x Hx] Hf.
    destruct (sync_empty digest root_of show verify shapes cf _ _ _ _ _ _ os _ Eb Hle (or_introl eq_refl) Hx) as (n' & t & resp & tr' & E & Hd & _).
    exists n', t. split; [exact E|]. rewrite Hd. cbn [fst]. rewrite applied_db. apply read_latest; [apply latest_LK|exact Hf].
  Qed.

  (** The number in the header is not compared with the number asked for: the
      epoch is stored under its own number, over whatever was there. *)
  Theorem C63_number_unchecked_refuted : forall n next rich ch sr e os,
    nd_busy n = Syncing next rich ch sr -> next <= rich -> next = 1 \/ eh_pre_hash (ep_header e) = ch ->
    state_known n sr e -> fits (wenc_epoch e) ->
    exists n' t, run_call (CallSyncEpoch os (Ok (RpEpoch e)) (Ok (RpTxs []))) n = (Ok RepUnit, n', t) /\
      at_id (nd_disk n') (eh_epoch_id (ep_header e)) = Ok e /\
      cs_epoch_id (nd_status n') = wrap64 (eh_epoch_id (ep_header e) + 1).
  Proof.
    intros n next rich ch sr e os Eb Hle Hl [x Hx] Hf.
    destruct (sync_empty digest root_of show verify shapes cf _ _ _ _ _ _ os _ Eb Hle Hl Hx) as (n' & t & resp & tr' & E & Hd & _ & Hs & _).
    exists n', t. split; [exact E|]. rewrite Hd, Hs. cbn [fst]. rewrite applied_db. split; [|reflexivity].
    apply read_at; [rewrite latest_EK, index_EK; apply epoch_EK|exact Hf].
  Qed.

  (** ** C64 *)

  (** The header of a received proposal (chain id, number, links, roots,
      proposer, proof, validators ...) has no influence on the check. *)
  Theorem C64_header_unchecked_refuted : forall n h hd hd' ordered propose pulled1 pulled2,
    run_call (CallCheck h (MkPill (MkEpoch hd ordered) propose) pulled1 pulled2) n =
    run_call (CallCheck h (MkPill (MkEpoch hd' ordered) propose) pulled1 pulled2) n.
  Proof. reflexivity. Qed.

  (** What is checked: the node ends up with one transaction for each ordered
      hash, and hands them to the engine. *)
  Theorem C64_transactions_available : forall l n h p pulled1 pulled2 txs n' t,
    epochs_ok l -> always replies_match l -> history l = Up n ->
    run_call (CallCheck h p pulled1 pulled2) n = (Ok (RepTxs txs), n', t) ->
    map st_tx_hash txs = ep_ordered_tx_hashes (pl_epoch p) /\
    mp_get_full_txs (nd_pool n') (ep_ordered_tx_hashes (pl_epoch p)) = Ok txs /\
    nd_disk n' = nd_disk n /\ nd_status n' = nd_status n /\ t = [].
  Proof.
    intros l n h p p1 p2 txs n' t Hok Hrm Hh E. pose proof (sound_history _ _ _ _ _ _ l Hok Hrm) as Hs. rewrite Hh in Hs.
    destruct Hs as [_ [Hk _]].
    pose proof E as E0. apply light_call_out in E0 as [(q & x & -> & Hq) ->]; [|reflexivity..]. specialize (Hq Hk).
    cbn [nd_pool nd_disk nd_status].
    assert (mp_get_full_txs q (ep_ordered_tx_hashes (pl_epoch p)) = Ok txs) as Hg.
    { cbn [Consensus.run_call] in E. unfold abind at 1 in E. unfold check_epoch in E. unfold abind at 1, aget at 1 in E.
      match type of E with context [abind ?m _ n] => destruct (m n) as [[r1 n1] t1] eqn:E1 end.
      unfold abind at 1 in E. rewrite E1 in E. destruct r1 as [[]|y|]; [|discriminate E..].
      unfold get_full_txs, abind, aget, alift in E.
      destruct (mp_get_full_txs (nd_pool n1) (ep_ordered_tx_hashes (pl_epoch p))) as [l0|y|] eqn:Eg; cbn [map_err] in E; [|discriminate E..].
      cbn [aret] in E. injection E as -> E _. rewrite E in Eg. exact Eg. }
    split; [exact (keyed_full _ _ _ Hq Hg)|]. auto.
  Qed.

  (** ** C65 *)
  Theorem C65_authority_list : forall vs,
    auth_sorted (authority_list vs) /\
    Permutation (authority_list vs)
      (map (fun v => MkAuth (ua (va_address v)) (va_propose_weight v) (va_vote_weight v)) vs) /\
    (forall vs', Permutation vs vs' -> List.NoDup (map va_address vs) -> authority_list vs = authority_list vs').
  Proof.
    intros vs. unfold authority_list. split; [apply sorted_spec, sort_auth_sorted|]. split; [apply sort_auth_perm|].
    intros vs' Hp Hn. apply sort_auth_order_free; [apply Permutation_map, Hp|]. rewrite map_map.
    replace (map (fun x => au_address (to_auth x)) vs) with (map ua (map va_address vs)) by (rewrite map_map; reflexivity).
    apply FinFun.Injective_map_NoDup; [|exact Hn]. intros a b. apply ua_eq.
  Qed.

  (** Every status handed to the engine in any history carries the list made
      from the configured validators, each with weights 1, and the configured interval. *)
  Theorem C65_engine_gets_configured_validators : forall l n id i k,
    history l = Up n -> RichStatus id i k ∈ nd_out n ->
    i = cf_interval cf /\ k = authority_list (map (fun a => MkValidator a x01 x01) (cf_validators cf)).
  Proof.
    intros l n id i k Hh Hin. pose proof (out_history digest root_of show verify shapes cf l) as H. rewrite Hh in H.
    destruct H as (_ & _ & _ & H). exact (H _ _ _ Hin).
  Qed.

  (** ** C67: a committed transaction is not accepted again *)
  Theorem C67_committed_refused : forall l n e net t sent r n' tr,
    epochs_ok l -> always replies_match l -> history l = Up n -> db_fits (nd_disk n).1 ->
    latest (nd_disk n) = Ok e \/ (exists i, at_id (nd_disk n) i = Ok e) ->
    st_tx_hash t ∈ ep_ordered_tx_hashes e ->
    run_call (CallInsert net t sent) n = (r, n', tr) -> n' = n /\ is_ok r = false.
  Proof.
    intros l n e net t sent r n' tr Hok Hrm Hh Hf He Hin E.
    pose proof (C61_stored_epochs_complete digest root_of show verify shapes cf l Hok Hrm) as Hc. rewrite Hh in Hc. cbn [disk] in Hc.
    destruct (Hc Hf) as [Hc1 Hc2].
    assert (complete (nd_disk n).1 e) as Hco by (destruct He as [He|[i He]]; [exact (Hc1 _ He)|exact (proj2 (Hc2 _ _ He))]).
    destruct (Hco _ Hin) as [(tx & Hg & _) _].
    cbn [Consensus.run_call] in E. unfold mp_insert in E.
    assert (is_ok (insert_checks digest verify (cf_gap cf) (nd_pool n) (env_of digest (nd_disk n)) t) = false) as Hno.
    { unfold insert_checks. destruct (check_reach_limit _) as [[]|y|]; cbn [rbind]; [|reflexivity..].
      destruct (check_exist _ _) as [[]|y|]; cbn [rbind]; [|reflexivity..].
      match goal with |- context [rbind ?m _] => destruct m as [[]|y|]; cbn [rbind]; [|reflexivity..] end.
      match goal with |- context [rbind ?m _] => destruct m as [[]|y|]; cbn [rbind]; [|reflexivity..] end.
      unfold check_storage_exist, env_of. cbn [en_stored]. rewrite Hg. reflexivity. }
    destruct (insert_checks _ _ _ _ _ _) as [[]|y|]; [discriminate Hno|..]; injection E as <- <- <-;
      (split; [destruct n; reflexivity|reflexivity]).
  Qed.

  (** ... except while it is being committed: [commit] takes it out of
      the pool before it is stored.  If it comes in again in between (every
      peer that has it may send it), it is accepted, and stays in the pool
      after the commit: it will be proposed and executed again. *)
  Theorem C67_accepted_while_committing_refuted : forall l n id p pf txs t net sent tr1 r1 n1 os r2 n2 tr2,
    epochs_ok l -> always replies_match l -> history l = Up n ->
    nd_busy n = Committing id p pf txs -> t ∈ txs ->
    run_call (CallInsert net t sent) n = (Ok r1, n1, tr1) ->
    run_call (CallCommitRest os (Ok tt)) n1 = (Ok r2, n2, tr2) -> db_fits (nd_disk n2).1 ->
    latest (nd_disk n2) = Ok (pl_epoch p) /\ st_tx_hash t ∈ ep_ordered_tx_hashes (pl_epoch p) /\
    readable (nd_disk n2).1 (st_tx_hash t) /\
    mp_lookup (nd_pool n2) (st_tx_hash t) = Some t.
  Proof.
    intros l n id p pf txs t net sent tr1 r1 n1 os r2 n2 tr2 Hok Hrm Hh Eb Hin E1 E2 Hf.
    set (l1 := l ++ [EvCall (CallInsert net t sent)]).
    assert (history l1 = Up n1) as Hh1.
    { unfold l1, Consensus.history. rewrite fold_left_app. fold (history l). rewrite Hh. cbn [fold_left Consensus.happens].
      rewrite E1. reflexivity. }
    assert (epochs_ok l1) as Hok1.
    { unfold ConsSpec.epochs_ok in *. replace (epochs_seen digest root_of show verify shapes cf (Down (∅, ∅)) l1)
        with (epochs_seen digest root_of show verify shapes cf (Down (∅, ∅)) l); [exact Hok|].
      unfold l1. clear. generalize (Down (∅, ∅)). induction l as [|ev l IH]; intros m; cbn [app epochs_seen]; [reflexivity|]. rewrite <- IH. reflexivity. }
    assert (always replies_match l1) as Hrm1.
    { unfold l1. revert Hrm. clear. generalize (Down (∅, ∅)). induction l as [|ev l IH]; intros m; cbn [app along]; [auto|].
      intros [A B]. split; [exact A|apply IH, B]. }
    pose proof E1 as E1'. apply light_call_out in E1' as [(q & x & Hn1 & _) _]; [|reflexivity..].
    assert (nd_busy n1 = Committing id p pf txs) as Eb1 by (rewrite Hn1; exact Eb).
    destruct (C60_commit_finishes digest root_of show verify shapes cf l1 n1 id p pf txs os r2 n2 tr2 Hok1 Hrm1 Hh1 Eb1 E2 Hf)
      as (Ho & Hl & _ & Hc & _).
    split; [exact Hl|].
    assert (st_tx_hash t ∈ ep_ordered_tx_hashes (pl_epoch p)) as Hi.
    { rewrite <- Ho. apply elem_of_list_In, in_map, elem_of_list_In, Hin. }
    split; [exact Hi|]. split; [apply (Hc _ Hi)|].
    apply call_rest in E2 as [r0 E2].
    assert (nd_pool n2 = nd_pool n1) as -> by (inversion E2; subst; reflexivity).
    cbn [Consensus.run_call] in E1. unfold mp_insert in E1.
    destruct (insert_checks _ _ _ _ _ _) as [[]|y|]; [|discriminate E1..].
    unfold tc_insert in E1. destruct (tc_map (mp_tc (nd_pool n)) !! st_tx_hash t) eqn:Et; [discriminate E1|].
    destruct (_ <=? _)%nat; [discriminate E1|].
    assert (forall c, tc_map c = <[st_tx_hash t := MkW (tc_next (mp_tc (nd_pool n))) t false]> (tc_map (mp_tc (nd_pool n))) ->
      forall a b cb o, mp_lookup (MkMP a b c cb o) (st_tx_hash t) = Some t) as Hlk.
    { intros c Hc' a b cb o. unfold mp_lookup, tc_get. cbn [mp_tc]. rewrite Hc', lookup_insert. reflexivity. }
    destruct net.
    - injection E1 as _ <- _. cbn [nd_pool set_pool mp_set_tc]. apply Hlk. unfold tc_set_queues. destruct (tc_zero _); reflexivity.
    - destruct sent as [[]|y|]; [|discriminate E1..]. injection E1 as _ <- _. cbn [nd_pool set_pool]. apply Hlk. unfold tc_set_queues. destruct (tc_zero _); reflexivity.
  Qed.

  (** ** C69: synchronisation continues from the node's state *)

  (** What state a synchronisation starts from. *)
  Theorem C69_sync_start_state : forall n msg first r n' t next rich ch sr,
    nd_busy n = Idle -> run_call (CallSync msg first) n = (r, n', t) -> nd_busy n' = Syncing next rich ch sr ->
    (exists e, latest (nd_disk n) = Ok e /\ eh_epoch_id (ep_header e) = wrap64 0 /\ next = 1 /\ sr = hash_from_empty digest) \/
    (exists id e, id <> wrap64 0 /\ at_id (nd_disk n) id = Ok e /\ next = wrap64 (id + 1) /\
       ch = digest (enc_epoch e) /\ sr = eh_state_root (ep_header e)).
  Proof.
    intros n msg first r n' t next rich ch sr Eb E Es. apply call_sync in E as (r1 & E & _).
    inversion E as [r0|rich' e _ Hl Hi|rich' id e f _ Hn Hid He Hf Hp]; subst; [rewrite Eb in Es; discriminate Es|..]; cbn [nd_busy set_busy] in Es.
    - injection Es as <- <- <- <-. left. exists e. auto.
    - injection Es as <- <- <- <-. right. eexists _, e. split; [exact Hn|]. split; [exact He|]. auto.
  Qed.

  (** On a new node that is the empty state, not the genesis state: an
      epoch with transactions cannot be executed, so such a node never
      synchronises past the genesis if epoch 1 has a transaction. *)
  Theorem C69_new_node_cannot_sync_refuted : forall n rich ch e tx txs os,
    nd_busy n = Syncing 1 rich ch (hash_from_empty digest) -> 1 <= rich ->
    let '(r, n', _) := run_call (CallSyncEpoch os (Ok (RpEpoch e)) (Ok (RpTxs (tx :: txs)))) n in
    is_ok r = false /\ nd_busy n' = Idle /\ nd_status n' = nd_status n.
  Proof.
    intros n rich ch e tx txs os Eb Hle. destruct (run_call _ _) as [[r n'] t] eqn:E.
    cbn [Consensus.run_call] in E. unfold abind at 1 in E.
    destruct (sync_step digest root_of show shapes cf os (Ok (RpEpoch e)) (Ok (RpTxs (tx :: txs))) n) as [[r1 n1] t1] eqn:E1.
    apply sync_step_out in E1.
    assert (is_ok r1 = false /\ nd_busy n1 = Idle /\ nd_status n1 = nd_status n) as (H1 & H2 & H3).
    { inversion E1 as [Hns|id' rich' ch' sr' Eb' Hlt|id' rich' ch' sr' r1' Eb' Hr1 Hre'|id' rich' ch' sr' r1' e' Eb' Hr1 Hre' Hl'
      |id' rich' ch' sr' e' txs' resp tr' Eb' Hle' Hre' Hrt' Hl' Hx]; subst.
      - exfalso. exact (Hns _ _ _ _ Eb).
      - rewrite Eb in Eb'. injection Eb' as <- <- <- <-. lia.
      - auto.
      - auto.
      - exfalso. rewrite Eb in Eb'. injection Eb' as <- <- <- <-. injection Hre' as <-. injection Hrt' as <-.
        destruct Hx as (x & x' & Hx & He & _). exact (exec_from_nothing _ _ _ _ _ _ _ _ _ _ _ _ _ _ Hx He). }
    destruct r1; [discriminate H1|..]; injection E as <- <- _; auto.
  Qed.

  (** On a node that has committed an epoch, it is the state of before that
      epoch. *)
  Theorem C69_sync_forgets_latest_epoch_refuted : forall l n id p pf txs os r n' t msg first r2 n2 t2 next rich ch sr,
    epochs_ok l -> always replies_match l -> history l = Up n ->
    nd_busy n = Committing id p pf txs -> eh_epoch_id (ep_header (pl_epoch p)) <> wrap64 0 ->
    eh_state_root (ep_header (pl_epoch p)) = cs_state_root (nd_status n) ->
    run_call (CallCommitRest os (Ok tt)) n = (Ok r, n', t) -> db_fits (nd_disk n').1 ->
    run_call (CallSync msg first) n' = (r2, n2, t2) -> nd_busy n2 = Syncing next rich ch sr ->
    ch = cs_prev_hash (nd_status n') /\ sr = cs_state_root (nd_status n).
  Proof.
    intros l n id p pf txs os r n' t msg first r2 n2 t2 next rich ch sr Hok Hrm Hh Eb Hid Hroot E Hf E2 Es.
    destruct (C60_commit_finishes digest root_of show verify shapes cf l n id p pf txs os r n' t Hok Hrm Hh Eb E Hf)
      as (_ & Hl & Ha & _ & _ & Hp & _ & _ & Hb & _).
    apply call_sync in E2 as (r1 & E2 & _).
    inversion E2 as [r0|rich' e _ Hl' Hi|rich' id' e f _ Hn Hid' He Hf' Hp']; subst; [rewrite Hb in Es; discriminate Es|..]; cbn [nd_busy set_busy] in Es.
    - rewrite Hl in Hl'. injection Hl' as <-. contradiction.
    - rewrite Hl in He. injection Es as _ _ <- <-. rewrite Ha in He. injection He as <-. auto.
  Qed.

  (** A gossiped number is trusted: announcing epoch 1 to a node at a higher
      epoch ends, after one linked answer, with the engine being told
      to start at epoch 1 (the subtractions wrap). *)
  Theorem C69_low_announcement_resets_engine_refuted : forall n e f os re rt,
    nd_busy n = Idle -> latest (nd_disk n) = Ok e ->
    at_id (nd_disk n) (eh_epoch_id (ep_header e)) = Ok e -> 0 < eh_epoch_id (ep_header e) < two64 - 1 ->
    eh_pre_hash (ep_header f) = digest (enc_epoch e) ->
    exists n1 n2,
      run_call (CallSync (enc_fixed_epoch_id (wrap64 1)) (Ok (RpEpoch f))) n = (Ok RepUnit, n1, []) /\
      run_call (CallSyncEpoch os re rt) n1 = (Ok RepUnit, n2, []) /\
      nd_status n2 = nd_status n /\ nd_disk n2 = nd_disk n /\
      nd_out n2 = nd_out n ++ [RichStatus (wrap64 1) (cs_interval (nd_status n)) (authority_list (cs_validators (nd_status n)))].
  Proof.
    intros n e f os re rt Eb Hl Ha Hr Hp.
    eexists (set_busy n (Syncing (wrap64 (eh_epoch_id (ep_header e) + 1)) (wrap64 0) (digest (enc_epoch e)) (eh_state_root (ep_header e)))), _.
    split; [|split].
    - cbn [Consensus.run_call]. unfold abind at 1, sync_start. unfold abind at 1, aget at 1. rewrite Eb. unfold abind at 1, alift at 1.
      rewrite <- (app_nil_r (enc_fixed_epoch_id (wrap64 1))), C66_roundtrip_epoch_id. cbn [map_err]. rewrite Hl.
      replace (wrap64 (wrap64 1 + two64 - 1)) with (wrap64 0) by (apply u64_eq; reflexivity).
      replace (wrap64 (wrap64 0 + two64 - 1) : N) with (two64 - 1) by reflexivity.
      destruct (N.leb_spec (two64 - 1) (eh_epoch_id (ep_header e))) as [X|_]; [exfalso; lia|].
      rewrite decide_False by (intros X; apply (f_equal u64v) in X; change (u64v (wrap64 0)) with 0 in X; lia).
      unfold abind at 1, alift at 1. rewrite Ha. cbn [map_err]. unfold abind at 1, alift at 1. cbn [pull_reply_epoch].
      rewrite decide_True by (symmetry; exact Hp). reflexivity.
    - cbn [Consensus.run_call]. unfold abind at 1, sync_step. unfold abind at 1, aget at 1. cbn [nd_busy set_busy].
      rewrite wrap64_small by lia.
      destruct (N.leb_spec (eh_epoch_id (ep_header e) + 1) (wrap64 0)) as [X|_]; [exfalso; change (u64v (wrap64 0)) with 0 in X; lia|]. reflexivity.
    - cbn. auto.
  Qed.
End Props.
Print Assumptions C61_sync_stores_incomplete_epoch_refuted.
Print Assumptions C61_sync_proof_is_headers_refuted.
Print Assumptions C63_first_epoch_unlinked_refuted.
Print Assumptions C63_number_unchecked_refuted.
Print Assumptions C64_header_unchecked_refuted.
Print Assumptions C64_transactions_available.
Print Assumptions C65_authority_list.
Print Assumptions C65_engine_gets_configured_validators.
Print Assumptions C67_committed_refused.
Print Assumptions C67_accepted_while_committing_refuted.
Print Assumptions C69_sync_start_state.
Print Assumptions C69_new_node_cannot_sync_refuted.
Print Assumptions C69_sync_forgets_latest_epoch_refuted.
Print Assumptions C69_low_announcement_resets_engine_refuted.
