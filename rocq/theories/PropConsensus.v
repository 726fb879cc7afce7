(** * Consensus properties C60-C65, C67, C69. *)
From Verif Require Import Base BaseFacts Hex Types Rlp RlpFacts FixedCodec FixedCodecFacts CodecProps StateAdapter Executor Mempool
  Merkle Bincode ConsMsg Proto ProtoFacts Wire WireFacts Storage StorageSpec StorageFacts StorageProps
  Consensus ConsSpec ConsFacts ConsInv ConsChain ConsMore ConsAuth.
From Coq Require Import Permutation.
Local Open Scope N_scope.

(** A machine is any sequence of events from an empty disk: boots, calls in
    any order and with any arguments, crashes after any durable write of any
    call ([Consensus.history]). *)
Section Props.
  Context (digest : bytes -> hash) (root_of : gmap bytes bytes -> hash) (show : exec_err -> rstring)
          (verify : bytes -> bytes -> bytes -> bool) (shapes : nat -> shape) (cf : config).
  Notation run_call := (run_call digest root_of show verify shapes cf).
  Notation happens := (happens digest root_of show verify shapes cf).
  Notation history := (Consensus.history digest root_of show verify shapes cf).
  Notation always C := (along digest root_of show verify shapes cf C (Down (∅, ∅))).
  Notation epochs_ok := (epochs_ok digest root_of show verify shapes cf).
  Notation latest d := (get_latest_epoch rocks_col digest (fst d)).
  Notation at_id d i := (get_epoch_by_epoch_id rocks_col (fst d) i).
  Notation latest_proof d := (get_latest_proof rocks_col digest (fst d)).

  Lemma keys_ne l : epochs_ok l -> LATEST_EPOCH_KEY digest <> LATEST_PROOF_KEY digest.
  Proof. intros H. apply (epochs_ok_seen _ _ _ _ _ _ _ H). Qed.

  (** ** C60: committing *)

  (** The first half of [commit]: takes the transactions out of the pool,
      stores the proof, leaves the rest of the disk and the status alone. *)
  Theorem C60_commit_starts : forall n id c r n' t,
    run_call (CallCommit id c) n = (Ok r, n', t) ->
    exists eh txs,
      nd_busy n = Idle /\ hash_from_bytes (cm_epoch_hash c) = Ok eh /\
      mp_get_full_txs (nd_pool n) (ep_ordered_tx_hashes (pl_epoch (cm_pill c))) = Ok txs /\
      nd_busy n' = Committing id (cm_pill c)
        (MkProof (cm_proof_epoch_id c) (cm_round c) eh (cm_signature c) (cm_bitmap c)) txs /\
      nd_status n' = nd_status n /\ nd_out n' = nd_out n /\ (nd_disk n').2 = (nd_disk n).2 /\
      (nd_disk n').1 = apply_writes (nd_disk n).1 (update_latest_proof rocks_col digest
        (MkProof (cm_proof_epoch_id c) (cm_round c) eh (cm_signature c) (cm_bitmap c))) /\
      (forall h, h ∈ ep_ordered_tx_hashes (pl_epoch (cm_pill c)) -> mp_lookup (nd_pool n') h = None).
  Proof.
    intros n id c r n' t. cbn [Consensus.run_call]. unfold abind at 1.
    destruct (commit_start digest id c n) as [[r1 n1] t1] eqn:E. apply commit_start_out in E.
    destruct r1 as [[]|x|]; [|intros X; discriminate X..]. cbn [aret]. intros [= _ <- _].
    inversion E as [r1 Hr1|eh r1 Hr1 Ei Eh|eh txs Ei Eh Eg]; subst; try discriminate.
    exists eh, txs. repeat (split; [first [assumption|reflexivity]|]). intros h Hh.
    cbn [nd_pool set_busy set_pool set_disk]. unfold mp_lookup, mp_flush. cbn [mp_tc mp_cb]. unfold tc_get, tc_flush. cbn [tc_map].
    assert (forall (m : gmap hash wrapper) hs, h ∈ hs -> map_deletes m hs !! h = None) as D.
    { intros m hs Hin. destruct (map_deletes m hs !! h) eqn:Ed; [exfalso|reflexivity].
      revert m Ed. induction hs as [|k hs IH]; [inversion Hin|]. intros m. unfold map_deletes. cbn [fold_left]. intros Ed.
      apply elem_of_cons in Hin as [->|Hin]; [|exact (IH Hin _ Ed)].
      apply map_deletes_sub in Ed. rewrite lookup_delete in Ed. discriminate. }
    rewrite (D _ _ Hh). apply lookup_empty.
  Qed.

  (** The second half, on any machine: the epoch, its transactions and
      receipts are stored, the status moves to the next epoch, the state root is that
      of executing the block on the node's previous state root, and the next
      epoch is announced. *)
  Theorem C60_commit_finishes : forall l n id p pf txs os r n' t,
    epochs_ok l -> always replies_match l -> history l = Up n ->
    nd_busy n = Committing id p pf txs ->
    run_call (CallCommitRest os (Ok tt)) n = (Ok r, n', t) -> db_fits (nd_disk n').1 ->
    let e := pl_epoch p in
    map st_tx_hash txs = ep_ordered_tx_hashes e /\
    latest (nd_disk n') = Ok e /\ at_id (nd_disk n') (eh_epoch_id (ep_header e)) = Ok e /\ complete (nd_disk n').1 e /\
    cs_epoch_id (nd_status n') = wrap64 (id + 1) /\ cs_prev_hash (nd_status n') = digest (enc_epoch e) /\
    cs_proof (nd_status n') = pf /\
    (exists x x' resp,
       Executor.from_root digest (cf_chain_id cf) (cs_state_root (nd_status n)) (nd_disk n).2 id (cs_price (nd_status n))
         (AUser (eh_proposer (ep_header e))) = Ok x /\
       exec digest root_of show os x txs = Ok (resp, x') /\
       cs_state_root (nd_status n') = er_state_root resp /\ (nd_disk n').2 = x_db x') /\
    nd_busy n' = Idle /\
    nd_out n' = nd_out n ++ [Rich (wrap64 (id + 1));
      RichStatus (wrap64 (id + 1)) (cs_interval (nd_status n)) (authority_list (cs_validators (nd_status n)))].
  Proof.
    intros l n id p pf txs os r n' t Hok Hrm Hh Eb E Hf e. pose proof (keys_ne l Hok) as HLP.
    pose proof (sound_history _ _ _ _ _ _ l Hok Hrm) as Hs. rewrite Hh in Hs. destruct Hs as [Hd [Hk Hb]]. rewrite Eb in Hb.
    destruct Hb as [He Ho].
    assert (sound digest (nd_disk n').1) as Hd'.
    { pose proof (call_last _ _ _ _ _ _ _ _ _ _ _ E) as Hl. apply call_rest in E as [r1 E].
      inversion E as [|? ? ? ? r1' Eb' Hr1|id' p' pf' txs' resp tr' lo Eb' Hx El]; subst; try exact Hd.
      rewrite Hl. apply (last_all (fun d : durable => sound digest d.1)); [exact Hd|].
      rewrite Eb in Eb'. injection Eb' as <- <- <- <-.
      apply executed_facts in Hx as (F1 & F2 & F3). apply Forall_cons; split; [exact Hd|]. apply applied_sound; assumption. }
    cbn [Consensus.run_call] in E. unfold abind at 1 in E.
    destruct (commit_finish digest root_of show shapes cf os (Ok tt) n) as [[r1 n1] t1] eqn:E1. apply commit_finish_out in E1.
    destruct r1 as [[]|x|]; [|discriminate E..]. cbn [aret] in E. injection E as _ <- _.
    inversion E1 as [|id' p' pf' txs' r1' Eb' Hr1|id' p' pf' txs' resp tr' lo Eb' Hx El]; subst.
    { discriminate. }
    rewrite Eb in Eb'. injection Eb' as <- <- <- <-. cbn [nd_disk nd_status nd_busy nd_out fst snd] in *.
    rewrite applied_db in *.
    split; [exact Ho|]. split; [apply read_latest; [apply latest_LK|apply He]|].
    split; [apply read_at; [rewrite latest_EK, index_EK; apply epoch_EK|apply He]|].
    split.
    { destruct (sound_reads digest _ Hf Hd') as [_ X]. apply X. apply read_latest; [apply latest_LK|apply He]. }
    split; [reflexivity|]. split; [reflexivity|]. split; [reflexivity|]. split; [|split; reflexivity].
    destruct Hx as (x & x' & H1 & H2 & ->). exists x, x', resp. auto.
  Qed.

  (** In every history in which the engine commits under the committed
      epoch's own number, a running node's status is that of its latest stored
      epoch, and what the configuration fixed is unchanged. *)
  Theorem C60_node_matches_storage : forall l n,
    epochs_ok l -> always ids_agree l -> history l = Up n ->
    exists e, latest (nd_disk n) = Ok e /\
      cs_epoch_id (nd_status n) = wrap64 (eh_epoch_id (ep_header e) + 1) /\
      cs_prev_hash (nd_status n) = digest (enc_epoch e) /\
      cs_price (nd_status n) = cf_price cf /\ cs_limit (nd_status n) = cf_limit cf /\
      cs_interval (nd_status n) = cf_interval cf /\
      cs_validators (nd_status n) = map (fun a => MkValidator a x01 x01) (cf_validators cf).
  Proof.
    intros l n Hok Hid Hh. pose proof (status_history _ _ _ _ _ _ (keys_ne l Hok) l Hok Hid) as Hs. rewrite Hh in Hs.
    destruct Hs as (_ & (C1 & C2 & C3 & C4) & (e & Hl & Hf & M1 & M2) & _). exists e.
    split; [apply read_latest; assumption|]. auto 10.
  Qed.

  (** The next proposal links to it. *)
  Theorem C60_next_proposal : forall l n id now p h n' t,
    epochs_ok l -> always ids_agree l -> history l = Up n ->
    run_call (CallPropose id now) n = (Ok (RepPill p h), n', t) ->
    exists e, latest (nd_disk n) = Ok e /\
      id = wrap64 (eh_epoch_id (ep_header e) + 1) /\
      eh_epoch_id (ep_header (pl_epoch p)) = id /\
      eh_pre_hash (ep_header (pl_epoch p)) = digest (enc_epoch e) /\
      eh_chain_id (ep_header (pl_epoch p)) = cf_chain_id cf /\
      eh_proposer (ep_header (pl_epoch p)) = cf_self cf /\
      eh_timestamp (ep_header (pl_epoch p)) = now /\
      eh_state_root (ep_header (pl_epoch p)) = cs_state_root (nd_status n) /\
      eh_order_root (ep_header (pl_epoch p)) = merkle_root_or_empty digest shapes (ep_ordered_tx_hashes (pl_epoch p)) /\
      h = digest (enc_pill p) /\ h ∈ nd_exempt n' /\ nd_disk n' = nd_disk n /\ t = [].
  Proof.
    intros l n id now p h n' t Hok Hid Hh E.
    destruct (C60_node_matches_storage l n Hok Hid Hh) as (e & Hl & M1 & M2 & _). exists e. split; [exact Hl|].
    cbn [Consensus.run_call] in E. unfold get_epoch, abind, aget, get_txs_from_mempool, aupd, aret, alift in E.
    destruct (mp_package _ _ _) as [r0 q]. destruct r0 as [[o pr]|x|]; cbn [map_err] in E; [|discriminate E..].
    cbn [nd_status set_pool] in E. destruct (decide (cs_epoch_id (nd_status n) = id)) as [Hi|Hi]; [|discriminate E].
    injection E as <- <- <- <-. rewrite <- Hi. split; [exact M1|].
    cbn [pl_epoch ep_header build_epoch eh_epoch_id eh_pre_hash eh_chain_id eh_proposer eh_timestamp eh_state_root eh_order_root ep_ordered_tx_hashes].
    repeat (split; [first [reflexivity|exact M2]|]). split; [|split; reflexivity]. apply elem_of_cons. left. reflexivity.
  Qed.

  (** In every history in which what is committed or received extends the
      node's chain by one, the stored epochs form one chain from the genesis
      epoch to the latest one, at every crash point. *)
  Theorem C60_chain : forall l e,
    epochs_ok l -> always one_more l -> latest (disk (history l)) = Ok e ->
    exists c root, stored_chain digest (disk (history l)).1 c /\
      head c = Some (genesis_epoch digest cf root) /\ last c = Some e.
  Proof.
    intros l e Hok Hom Hl. pose proof (keys_ne l Hok) as HLP.
    pose proof (chain_history _ _ _ _ _ _ HLP l Hok Hom) as Hs.
    assert (chain_ok digest cf (disk (history l)).1) as Hc by (destruct (history l); [exact Hs|apply Hs]).
    assert (latest_ok digest (disk (history l)).1) as Hlo by (intros b Hb; destruct (Hc b Hb) as (x & -> & Hf & _); eauto).
    destruct (read_latest_inv _ _ _ Hlo Hl) as [Hr Hf]. destruct (Hc _ Hr) as (e' & Heq & Hf' & c & R & Hlast).
    assert (e' = e) as -> by (pose proof (wire_epoch e Hf) as W; rewrite Heq, (wire_epoch e' Hf') in W; congruence).
    pose proof R as (_ & _ & root & Hroot). exists c, root. split; [apply (chain_reads digest cf), R|]. split; [|exact Hlast].
    destruct c; [discriminate Hroot|exact Hroot].
  Qed.

  (** ** C61: crash safety *)

  (** Every stored epoch, latest or not, can be read with all its transactions
      and receipts, at every point of every history, provided peers answer
      pulls with the transactions asked for. *)
  Theorem C61_stored_epochs_complete : forall l,
    epochs_ok l -> always replies_match l -> db_fits (disk (history l)).1 ->
    (forall e, latest (disk (history l)) = Ok e -> complete (disk (history l)).1 e) /\
    (forall i e, at_id (disk (history l)) i = Ok e ->
       eh_epoch_id (ep_header e) = i /\ complete (disk (history l)).1 e).
  Proof.
    intros l Hok Hrm Hf. pose proof (sound_history _ _ _ _ _ _ l Hok Hrm) as Hs.
    assert (sound digest (disk (history l)).1) as Hd by (destruct (history l); [exact Hs|apply Hs]).
    destruct (sound_reads digest _ Hf Hd) as [A B]. split; assumption.
  Qed.

  (** Without synchronisation, the stored proof is that of the latest epoch or
      of the one being committed. *)
  Theorem C61_latest_proof : forall l e p,
    epochs_ok l -> always one_more l -> always commits_only l -> db_fits (disk (history l)).1 ->
    latest (disk (history l)) = Ok e -> latest_proof (disk (history l)) = Ok p ->
    pf_epoch_id p = eh_epoch_id (ep_header e) \/ pf_epoch_id p = wrap64 (eh_epoch_id (ep_header e) + 1).
  Proof.
    intros l e p Hok Hom Hco Hf Hl Hp. pose proof (keys_ne l Hok) as HLP.
    pose proof (proof_history _ _ _ _ _ _ HLP l Hok Hom Hco) as Hs.
    assert (proof_ok digest (disk (history l)).1) as [_ Hd] by (destruct (history l); [exact Hs|apply Hs]).
    assert (latest_ok digest (disk (history l)).1) as Hlo by (intros b Hb; destruct (Hd b Hb) as (x & -> & Hf' & _); eauto).
    destruct (read_latest_inv _ _ _ Hlo Hl) as [Hr Hfe]. destruct (Hd _ Hr) as (e' & Heq & Hf' & HP).
    assert (e' = e) as -> by (pose proof (wire_epoch e Hfe) as W; rewrite Heq, (wire_epoch e' Hf') in W; congruence).
    unfold get_latest_proof, get_or_none, ad_get, ad_key in Hp. cbn [LatestProofSchema sc_cat sc_kenc sc_vdec rocks_col] in Hp.
    destruct ((disk (history l)).1 !! (1, wenc_hash (LATEST_PROOF_KEY digest))) as [b|] eqn:Eb; [|discriminate Hp].
    destruct (HP b eq_refl) as (p' & -> & Hfor). rewrite (wire_proof p' (Hf _ _ Eb)) in Hp.
    cbn [map_err rbind ok_or] in Hp. injection Hp as <-. exact Hfor.
  Qed.

  (** ** C62: restart *)
  (** What a started node takes as its state is the latest header's root. *)
  Theorem C62_restart_uses_header_root : forall d n,
    start digest cf d = Ok n ->
    exists e, latest d = Ok e /\ nd_disk n = d /\
      cs_state_root (nd_status n) = eh_state_root (ep_header e) /\
      cs_epoch_id (nd_status n) = wrap64 (eh_epoch_id (ep_header e) + 1) /\
      cs_prev_hash (nd_status n) = digest (enc_epoch e).
  Proof. intros d n H. apply start_out in H as (e & He & ->). exists e. auto 10. Qed.

  Lemma boot_again (d : durable) o1 o2 e : latest d = Ok e ->
    exists m, happens (Down d) (EvBoot o1 o2) = Up m /\ nd_disk m = d /\ nd_status m = start_status digest cf e.
  Proof.
    intros Hl. assert (handle_init digest root_of cf o1 o2 d = (Ok d, [])) as Hi by (unfold handle_init; rewrite Hl; reflexivity).
    destruct (start digest cf d) as [m|x|] eqn:Es; [|exfalso; unfold start in Es; rewrite Hl in Es; discriminate Es..].
    exists m. cbn [Consensus.happens]. rewrite Hi, Es. split; [reflexivity|].
    apply start_out in Es as (e' & He' & ->). rewrite Hl in He'. injection He' as <-. auto.
  Qed.

  (** The header of a proposed epoch holds the root BEFORE the epoch is
      executed (C60_next_proposal), so: commit such an epoch, crash when
      everything is stored, restart.  The node resumes with the next number
      but the state of before the commit: the epoch's effects are gone. *)
  Theorem C62_restart_forgets_latest_epoch_refuted : forall l n id p pf txs os r n' t o1 o2,
    epochs_ok l -> always replies_match l -> history l = Up n ->
    nd_busy n = Committing id p pf txs -> eh_epoch_id (ep_header (pl_epoch p)) = id ->
    eh_state_root (ep_header (pl_epoch p)) = cs_state_root (nd_status n) ->
    run_call (CallCommitRest os (Ok tt)) n = (Ok r, n', t) ->
    exists m, happens (happens (Up n) (EvCrash (CallCommitRest os (Ok tt)) (length t))) (EvBoot o1 o2) = Up m /\
      nd_disk m = nd_disk n' /\
      cs_epoch_id (nd_status m) = cs_epoch_id (nd_status n') /\
      cs_prev_hash (nd_status m) = cs_prev_hash (nd_status n') /\
      cs_state_root (nd_status m) = cs_state_root (nd_status n).
  Proof.
    intros l n id p pf txs os r n' t o1 o2 Hok Hrm Hh Eb Hid Hroot E. pose proof (keys_ne l Hok) as HLP.
    pose proof (sound_history _ _ _ _ _ _ l Hok Hrm) as Hs. rewrite Hh in Hs. destruct Hs as [_ [_ Hb]]. rewrite Eb in Hb.
    destruct Hb as [He _].
    pose proof (call_last _ _ _ _ _ _ _ _ _ _ _ E) as Hlast.
    assert (happens (Up n) (EvCrash (CallCommitRest os (Ok tt)) (length t)) = Down (nd_disk n')) as ->.
    { cbn [Consensus.happens]. rewrite E, firstn_all, <- Hlast. reflexivity. }
    cbn [Consensus.run_call] in E. unfold abind at 1 in E.
    destruct (commit_finish digest root_of show shapes cf os (Ok tt) n) as [[r1 n1] t1] eqn:E1. apply commit_finish_out in E1.
    destruct r1 as [[]|x|]; [|discriminate E..]. cbn [aret] in E. injection E as _ <- _.
    inversion E1 as [|id' p' pf' txs' r1' Eb' Hr1|id' p' pf' txs' resp tr' lo Eb' Hx El]; subst; [discriminate|].
    rewrite Eb in Eb'. injection Eb' as <- <- <- <-. cbn [nd_disk nd_status].
    match goal with |- context [Down ?d0] => assert (latest d0 = Ok (pl_epoch p)) as Hl;
      [cbn [fst]; rewrite applied_db; apply read_latest; [apply latest_LK|apply He]|];
      destruct (boot_again d0 o1 o2 (pl_epoch p) Hl) as (m & -> & Hd & Hst); exists m end.
    split; [reflexivity|]. rewrite Hst. split; [exact Hd|]. split; [reflexivity|]. split; [reflexivity|]. exact Hroot.
  Qed.

  (** ** C63: synchronisation *)

  (** An epoch that does not link is refused: error, nothing stored, the
      synchronisation is over. *)
  Theorem C63_unlinked_rejected : forall n next rich ch sr e os rt,
    nd_busy n = Syncing next rich ch sr -> next <= rich -> next <> 1 -> eh_pre_hash (ep_header e) <> ch ->
    run_call (CallSyncEpoch os (Ok (RpEpoch e)) rt) n = (Err (CSyncEpochHashErr (wrap64 next)), set_busy n Idle, []).
  Proof.
    intros n next rich ch sr e os rt Eb Hle Hn Hp. cbn [Consensus.run_call]. unfold abind at 1, sync_step. unfold abind at 1, aget at 1.
    rewrite Eb. apply N.leb_le in Hle. rewrite Hle. unfold atry, sync_body. unfold abind at 1, alift at 1. cbn [pull_reply_epoch].
    unfold abind at 1. rewrite decide_True by (split; [exact Hn|intros X; apply Hp; symmetry; exact X]). reflexivity.
  Qed.

  (** An epoch that is applied links to the node's latest epoch (when the
      synchronisation starts: to the epoch stored under the latest one's
      number), unless it is the first of the chain; the next one has to link
      to it. *)
  Theorem C63_applied_epochs_link : forall l n next rich ch sr os re rt r n' t,
    epochs_ok l -> history l = Up n -> nd_busy n = Syncing next rich ch sr ->
    run_call (CallSyncEpoch os re rt) n = (Ok r, n', t) -> next <= rich ->
    exists e, re = Ok (RpEpoch e) /\
      (next = 1 \/ exists prev last, eh_pre_hash (ep_header e) = digest (enc_epoch prev) /\ latest (nd_disk n) = Ok last /\
         (prev = last \/ at_id (nd_disk n) (eh_epoch_id (ep_header last)) = Ok prev)) /\
      (fits (wenc_epoch e) -> latest (nd_disk n') = Ok e) /\
      exists sr', nd_busy n' = Syncing (next + 1) rich (digest (enc_epoch e)) sr'.
  Proof.
    intros l n next rich ch sr os re rt r n' t Hok Hh Eb E Hle. pose proof (keys_ne l Hok) as HLP.
    pose proof (sync_history _ _ _ _ _ _ HLP l Hok) as Hs. rewrite Hh in Hs. destruct Hs as (_ & Hsn & _).
    unfold sync_node in Hsn. rewrite Eb in Hsn.
    cbn [Consensus.run_call] in E. unfold abind at 1 in E.
    destruct (sync_step digest root_of show shapes cf os re rt n) as [[r1 n1] t1] eqn:E1. pose proof E1 as E2.
    apply sync_step_out in E1.
    destruct r1 as [[]|x|]; [|discriminate E..]. cbn [aret] in E. injection E as _ <- _.
    inversion E1 as [Hns|id' rich' ch' sr' Eb' Hlt|id' rich' ch' sr' r1 Eb' Hr1 Hre'|id' rich' ch' sr' r1 e Eb' Hr1 Hre' Hl'
      |id' rich' ch' sr' e txs resp tr' Eb' Hle' Hre' Hrt' Hl' Hx]; subst; try discriminate.
    - rewrite Eb in Eb'. injection Eb' as <- <- <- <-. lia.
    - rewrite Eb in Eb'. injection Eb' as <- <- <- <-. exists e. split; [reflexivity|]. split.
      + destruct Hsn as [->|(prev & last & -> & Hla & Hor)]; [auto|]. destruct Hl' as [->|Hl']; [auto|].
        right. exists prev, last. split; [rewrite <- Hl'; reflexivity|]. auto.
      + split; [|eexists; reflexivity]. intros Hf. cbn [nd_disk fst]. rewrite applied_db. apply read_latest; [apply latest_LK|exact Hf].
  Qed.
End Props.
Print Assumptions C60_commit_starts.
Print Assumptions C60_commit_finishes.
Print Assumptions C60_node_matches_storage.
Print Assumptions C60_next_proposal.
Print Assumptions C60_chain.
Print Assumptions C61_stored_epochs_complete.
Print Assumptions C61_latest_proof.
Print Assumptions C62_restart_uses_header_root.
Print Assumptions C62_restart_forgets_latest_epoch_refuted.
Print Assumptions C63_unlinked_rejected.
Print Assumptions C63_applied_epochs_link.
