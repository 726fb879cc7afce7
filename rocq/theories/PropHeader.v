(** * C98: the header of a proposal sums up the epoch before it. *)
From Verif Require Import Base BaseFacts Hex Types Rlp RlpFacts FixedCodec FixedCodecFacts CodecProps StateAdapter Executor Mempool
  Merkle Bincode ConsMsg Proto ProtoFacts Wire WireFacts Storage StorageSpec StorageFacts StorageProps Consensus ConsSpec ConsFacts ConsInv
  ConsChain ConsMore PropConsensus ImmutFacts HeaderFacts.
Local Open Scope N_scope.

Section Props.
  Context (digest : bytes -> hash) (root_of : gmap bytes bytes -> hash) (show : exec_err -> rstring)
          (verify : bytes -> bytes -> bytes -> bool) (shapes : nat -> shape) (cf : config).
  Notation run_call := (run_call digest root_of show verify shapes cf).
  Notation history := (Consensus.history digest root_of show verify shapes cf).
  Notation always C := (along digest root_of show verify shapes cf C (Down (∅, ∅))).
  Notation epochs_ok := (epochs_ok digest root_of show verify shapes cf).
  Notation latest d := (get_latest_epoch rocks_col digest (fst d)).
  Notation merkle l := (merkle_root_or_empty digest shapes l).

  (** After a commit, whatever else is called on the node, as long as the
      committed epoch is the latest: a proposal carries the Merkle root of the
      epoch's transaction hashes, that of the receipts now stored for these
      transactions, in their order, the proof the epoch was committed with and
      the state root that is in these receipts. *)
  Theorem C98_header_sums_up : forall l n id p pf txs os r n' t calls n2 id2 now q h n3 t3,
    let e := pl_epoch p in
    let l2 := (l ++ [EvCall (CallCommitRest os (Ok tt))]) ++ map EvCall calls in
    epochs_ok l2 -> always one_more l2 -> always replies_match l2 ->
    history l = Up n -> nd_busy n = Committing id p pf txs -> NoDup (ep_ordered_tx_hashes e) ->
    run_call (CallCommitRest os (Ok tt)) n = (Ok r, n', t) ->
    history l2 = Up n2 -> latest (nd_disk n2) = Ok e -> db_fits (nd_disk n2).1 ->
    run_call (CallPropose id2 now) n2 = (Ok (RepPill q h), n3, t3) ->
    exists rs, let hd := ep_header (pl_epoch q) in
      Forall2 (fun h r => get_receipt rocks_col (nd_disk n2).1 h = Ok r) (ep_ordered_tx_hashes e) rs /\
      eh_confirm_root hd = [merkle (ep_ordered_tx_hashes e)] /\
      eh_receipt_root hd = [merkle (map (fun r => digest (enc_receipt r)) rs)] /\
      Forall (fun r => rc_state_root r = eh_state_root hd) rs /\
      eh_proof hd = pf /\ eh_pre_hash hd = digest (enc_epoch e).
  Proof.
    intros l n id p pf txs os r n' t calls n2 id2 now q h n3 t3 e l2 Hok Hom Hrm Hh Eb Hnd E H2 Hlat Hf Ep.
    pose proof (keys_ne _ _ _ _ _ _ _ Hok) as HLP. unfold l2 in *.
    pose proof (epochs_ok_prefix _ _ _ _ _ _ _ _ Hok) as Hok1. pose proof (epochs_ok_prefix _ _ _ _ _ _ _ _ Hok1) as Hok0.
    pose proof Hrm as Hrm0. apply along_app in Hrm0 as [Hrm0 _]. apply along_app in Hrm0 as [Hrm0 _].
    pose proof (sound_history _ _ _ _ _ _ l Hok0 Hrm0) as Hs. rewrite Hh in Hs. destruct Hs as [_ [_ Hb]]. rewrite Eb in Hb.
    destruct Hb as [He Ho].
    assert (history (l ++ [EvCall (CallCommitRest os (Ok tt))]) = Up n') as Hh'.
    { unfold Consensus.history in *. rewrite fold_left_app, Hh. cbn [fold_left Consensus.happens]. rewrite E. reflexivity. }
    pose proof E as E0. cbn [Consensus.run_call] in E0. unfold abind at 1 in E0.
    destruct (commit_finish digest root_of show shapes cf os (Ok tt) n) as [[r1 n1] t1] eqn:E1. apply commit_finish_out in E1.
    destruct r1 as [[]|x|]; [|discriminate E0..]. cbn [aret] in E0. injection E0 as _ <- _.
    inversion E1 as [|id' p' pf' txs' r1' Eb' Hr1|id' p' pf' txs' resp tr' lo Eb' Hx El]; subst; [discriminate|].
    rewrite Eb in Eb'. injection Eb' as <- <- <- <-. clear E1.
    match type of Hh' with _ = Up ?m => set (n1 := m) in * end.
    assert (still digest e (nd_status n1) (nd_disk n1).1 n1) as St.
    { split; [|split; [reflexivity|reflexivity]]. unfold n1. cbn [nd_disk fst]. rewrite applied_db. apply latest_LK. }
    assert (fits (wenc_epoch e)) as Hfe by apply He.
    destruct (still_history _ _ _ _ _ _ HLP e _ _ _ n1 calls n2 Hfe Hok Hom Hh' St H2) as [(A & B & C)|(e2 & A & B & C)].
    2:{ exfalso. apply (read_latest _ _ _ A) in B. rewrite B in Hlat. injection Hlat as ->. lia. }
    destruct (propose_says _ _ _ _ _ _ _ _ _ _ _ _ _ Ep) as [order Eq]. rewrite Eq, B. clear Eq Ep.
    pose proof Hx as Hx0. destruct Hx0 as (x & x' & _ & Hex & _). apply receipts_rooted in Hex.
    apply executed_facts in Hx as (_ & Fp & Fh).
    exists (er_receipts resp). cbn zeta. cbn [ep_header build_epoch eh_confirm_root eh_receipt_root eh_state_root eh_proof eh_pre_hash].
    unfold n1. cbn [nd_status new_status cs_order_root cs_receipt_root cs_state_root cs_proof cs_prev_hash].
    split; [|split; [reflexivity|split; [reflexivity|split; [exact Hex|split; reflexivity]]]].
    fold e in Ho. rewrite <- Ho, <- Fh. apply Forall2_fmap_l. apply Forall_Forall2_diag. apply Forall_forall. intros rc Hrc.
    apply receipt_reads; [exact Hf| |].
    - rewrite Forall_forall in Fp. apply Fp, Hrc.
    - rewrite C by discriminate. unfold n1. cbn [nd_disk fst]. rewrite applied_db. apply receipts_stored; [|exact Hrc].
      fold e in Ho. rewrite Fh, Ho. exact Hnd.
  Qed.

  (** But after a restart, as long as the latest epoch is the one the node
      started from, its proposals sum up nothing: the roots are those of
      nothing, whatever the latest epoch was, and state root and proof are
      copied from its header. *)
  Theorem C98_restart_sums_up_nothing_refuted : forall l o1 o2 n calls n2 e id2 now q h n3 t3,
    let l2 := (l ++ [EvBoot o1 o2]) ++ map EvCall calls in
    epochs_ok l2 -> always one_more l2 ->
    (exists d, history l = Down d) -> history (l ++ [EvBoot o1 o2]) = Up n -> latest (nd_disk n) = Ok e ->
    history l2 = Up n2 -> latest (nd_disk n2) = Ok e ->
    run_call (CallPropose id2 now) n2 = (Ok (RepPill q h), n3, t3) ->
    let hd := ep_header (pl_epoch q) in
    eh_confirm_root hd = [hash_from_empty digest] /\ eh_receipt_root hd = [hash_from_empty digest] /\
    eh_state_root hd = eh_state_root (ep_header e) /\ eh_proof hd = eh_proof (ep_header e).
  Proof.
    intros l o1 o2 n calls n2 e id2 now q h n3 t3 l2 Hok Hom [d Hd] Hh Hl H2 Hl2 Ep hd. unfold hd, l2 in *.
    pose proof (keys_ne _ _ _ _ _ _ _ Hok) as HLP. pose proof (epochs_ok_prefix _ _ _ _ _ _ _ _ Hok) as Hok1.
    pose proof Hom as Hom1. apply along_app in Hom1 as [Hom1 _].
    pose proof (chain_history _ _ _ _ _ _ HLP _ Hok1 Hom1) as Hc. rewrite Hh in Hc. destruct Hc as [_ ((e1 & L1 & F1 & _) & _)].
    pose proof (read_latest _ _ _ L1 F1) as R1. rewrite Hl in R1. injection R1 as <-.
    assert (nd_status n = start_status digest cf e) as Hst.
    { unfold Consensus.history in *. rewrite fold_left_app, Hd in Hh. cbn [fold_left Consensus.happens] in Hh.
      destruct (handle_init digest root_of cf o1 o2 d) as [[d'|x|] t]; try discriminate Hh.
      destruct (start digest cf d') as [m|x|] eqn:Es; try discriminate Hh. injection Hh as ->.
      apply start_out in Es as (e' & He' & En). rewrite En in Hl. cbn [nd_disk] in Hl. rewrite He' in Hl. injection Hl as ->.
      rewrite En. reflexivity. }
    assert (still digest e (nd_status n) (nd_disk n).1 n) as St by (split; [exact L1|split; reflexivity]).
    destruct (still_history _ _ _ _ _ _ HLP e _ _ _ n calls n2 F1 Hok Hom Hh St H2) as [(A & B & C)|(e2 & A & B & C)].
    2:{ exfalso. apply (read_latest _ _ _ A) in B. rewrite B in Hl2. injection Hl2 as ->. lia. }
    destruct (propose_says _ _ _ _ _ _ _ _ _ _ _ _ _ Ep) as [order Eq]. rewrite Eq, B, Hst. repeat split; reflexivity.
  Qed.

  (** And the cycles used and the logs' bloom are never summed up: where the
      epochs committed and received say 0 cycles and no logs, so does every
      proposal -- whatever was executed.  (The genesis epoch does, so all
      epochs of a network of such nodes do.) *)
  Theorem C98_cycles_never_summed_up_refuted : forall l n id now q h n' t,
    epochs_ok l ->
    Forall (fun e => eh_cycles_used (ep_header e) = wrap64 0 /\ eh_logs_bloom (ep_header e) = zero_bloom)
      (epochs_seen digest root_of show verify shapes cf (Down (∅, ∅)) l) ->
    history l = Up n -> run_call (CallPropose id now) n = (Ok (RepPill q h), n', t) ->
    eh_cycles_used (ep_header (pl_epoch q)) = wrap64 0 /\ eh_logs_bloom (ep_header (pl_epoch q)) = zero_bloom.
  Proof.
    intros l n id now q h n' t Hok Hbl Hh Ep. pose proof (blank_history digest root_of show verify shapes cf l Hok Hbl) as Hn.
    rewrite Hh in Hn. destruct Hn as [_ [Hn _]].
    destruct (propose_says _ _ _ _ _ _ _ _ _ _ _ _ _ Ep) as [order Eq]. rewrite Eq. exact Hn.
  Qed.
End Props.
Print Assumptions C98_header_sums_up.
Print Assumptions C98_restart_sums_up_nothing_refuted.
Print Assumptions C98_cycles_never_summed_up_refuted.
