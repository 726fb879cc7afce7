(** * C96: stored history is immutable. *)
From Verif Require Import Base BaseFacts Hex Types Rlp RlpFacts FixedCodec FixedCodecFacts CodecProps StateAdapter Executor Mempool
  Merkle Bincode ConsMsg Proto ProtoFacts Wire WireFacts Storage StorageSpec StorageFacts StorageProps Consensus ConsSpec ConsFacts ConsInv
  ConsChain ConsLast PropConsensus PropConsensus2 ImmutFacts.
Local Open Scope N_scope.

Section Props.
  Context (digest : bytes -> hash) (root_of : gmap bytes bytes -> hash) (show : exec_err -> rstring)
          (verify : bytes -> bytes -> bytes -> bool) (shapes : nat -> shape) (cf : config).
  Notation run_call := (run_call digest root_of show verify shapes cf).
  Notation history := (Consensus.history digest root_of show verify shapes cf).
  Notation always C := (along digest root_of show verify shapes cf C (Down (∅, ∅))).
  Notation epochs_ok := (epochs_ok digest root_of show verify shapes cf).
  Notation latest d := (get_latest_epoch rocks_col digest (fst d)).
  Notation at_id d i := (get_epoch_by_epoch_id rocks_col (fst d) i).

  (** Whatever happens afterwards -- commits, crashes at any point, restarts,
      synchronisation, messages of any kind -- every epoch up to the latest one
      is read back as it was (and there is one), and the latest number never goes
      down. *)
  Theorem C96_epochs_stay : forall (l l' : list event) (e : epoch),
    epochs_ok (l ++ l') -> always one_more (l ++ l') ->
    latest (disk (history l)) = Ok e ->
    (forall i : u64, (i : N) <= eh_epoch_id (ep_header e) ->
       at_id (disk (history (l ++ l'))) i = at_id (disk (history l)) i /\
       exists x, at_id (disk (history l)) i = Ok x /\ eh_epoch_id (ep_header x) = i) /\
    exists e', latest (disk (history (l ++ l'))) = Ok e' /\
      (eh_epoch_id (ep_header e) : N) <= eh_epoch_id (ep_header e') /\
      (eh_epoch_id (ep_header e') = eh_epoch_id (ep_header e) -> e' = e).
  Proof.
    intros l l' e Hok Hom Hl. pose proof (keys_ne _ _ _ _ _ _ _ Hok) as HLP.
    pose proof (epochs_ok_prefix _ _ _ _ _ _ _ _ Hok) as Hok1. pose proof Hom as Hom0. apply along_app in Hom0 as [Hom1 _].
    pose proof (chain_history _ _ _ _ _ _ HLP l Hok1 Hom1) as Hs.
    assert (chain_ok digest cf (disk (history l)).1) as Hc by (destruct (history l); [exact Hs|apply Hs]).
    assert (latest_ok digest (disk (history l)).1) as Hlo by (intros b Hb; destruct (Hc b Hb) as (x & -> & Hf & _); eauto).
    destruct (read_latest_inv _ _ _ Hlo Hl) as [Hr Hf]. destruct (Hc _ Hr) as (e1 & Heq & Hf1 & c & R & Hlast).
    assert (e1 = e) as -> by (pose proof (wire_epoch e Hf) as W; rewrite Heq, (wire_epoch e1 Hf1) in W; congruence).
    assert (frozen digest (disk (history l)).1 (eh_epoch_id (ep_header e)) (disk (history l)).1) as F0.
    { split; [reflexivity|]. exists e. split; [exact Hr|]. split; [exact Hf|lia]. }
    pose proof (frozen_history digest root_of show verify shapes cf HLP _ _ l l' Hok Hom F0) as [F1 (e' & Hr' & Hf' & Hle)].
    assert (forall i : u64, (i : N) <= eh_epoch_id (ep_header e) ->
      at_id (disk (history (l ++ l'))) i = at_id (disk (history l)) i) as Same.
    { intros i Hi. unfold get_epoch_by_epoch_id, get_or_none, ad_get, ad_key. cbn [EpochSchema sc_cat sc_kenc sc_vdec rocks_col].
      rewrite (F1 i Hi). reflexivity. }
    split.
    - intros i Hi. split; [exact (Same i Hi)|].
      destruct R as (R1 & _). rewrite last_lookup in Hlast. destruct (R1 _ _ Hlast) as (A0 & _).
      pose proof (lookup_lt_Some _ _ _ Hlast) as Hlen.
      destruct (lookup_lt_is_Some_2 c (N.to_nat i)) as [x Hx]; [lia|]. destruct (R1 _ _ Hx) as (A & B & D).
      assert (eh_epoch_id (ep_header x) = i) as Hxi by (apply u64_eq; rewrite A; lia).
      exists x. split; [|exact Hxi]. rewrite <- Hxi. apply read_at; assumption.
    - exists e'. split; [apply read_latest; assumption|]. split; [exact Hle|]. intros Hid.
      pose proof (chain_history _ _ _ _ _ _ HLP (l ++ l') Hok Hom) as Hs'.
      assert (chain_ok digest cf (disk (history (l ++ l'))).1) as Hc' by (destruct (history (l ++ l')); [exact Hs'|apply Hs']).
      destruct (Hc' _ Hr') as (e2 & Heq2 & Hf2 & c2 & R2 & Hlast2).
      assert (e2 = e') as -> by (pose proof (wire_epoch e' Hf') as W; rewrite Heq2, (wire_epoch e2 Hf2) in W; congruence).
      destruct R as (R1 & _). rewrite last_lookup in Hlast. destruct (R1 _ _ Hlast) as (_ & B & _).
      destruct R2 as (R1' & _). rewrite last_lookup in Hlast2. destruct (R1' _ _ Hlast2) as (_ & B' & _).
      rewrite Hid in B'. rewrite F1, B in B' by lia. 
      assert (wenc_epoch e = wenc_epoch e') as W by congruence.
      pose proof (wire_epoch e Hf) as W1. rewrite W, (wire_epoch e' Hf') in W1. congruence.
  Qed.

  (** The transactions and receipts of these epochs stay readable. *)
  Theorem C96_transactions_stay : forall (l l' : list event) (e x : epoch) (i : u64),
    epochs_ok (l ++ l') -> always one_more (l ++ l') -> always replies_match (l ++ l') ->
    db_fits (disk (history (l ++ l'))).1 ->
    latest (disk (history l)) = Ok e -> (i : N) <= eh_epoch_id (ep_header e) -> at_id (disk (history l)) i = Ok x ->
    complete (disk (history (l ++ l'))).1 x.
  Proof.
    intros l l' e x i Hok Hom Hrm Hf Hl Hi Hx.
    destruct (C96_epochs_stay l l' e Hok Hom Hl) as [S _]. destruct (S i Hi) as [S1 _].
    destruct (C61_stored_epochs_complete digest root_of show verify shapes cf _ Hok Hrm Hf) as [_ C]. apply (C i). congruence.
  Qed.

  (** But without the premise that what comes in extends the chain, a stored
      epoch is replaced by whatever a peer sends: the code only compares the
      previous hash.  For every stored epoch and every other epoch of that
      number. *)
  Theorem C96_peer_rewrites_history_refuted : forall n next rich ch sr old e os,
    nd_busy n = Syncing next rich ch sr -> next <= rich -> next = 1 \/ eh_pre_hash (ep_header e) = ch ->
    state_known digest cf n sr e -> fits (wenc_epoch e) ->
    at_id (nd_disk n) (eh_epoch_id (ep_header e)) = Ok old -> old <> e ->
    exists n' t, run_call (CallSyncEpoch os (Ok (RpEpoch e)) (Ok (RpTxs []))) n = (Ok RepUnit, n', t) /\
      at_id (nd_disk n') (eh_epoch_id (ep_header e)) = Ok e /\ latest (nd_disk n') = Ok e.
  Proof.
    intros n next rich ch sr old e os Eb Hle Hl [x Hx] Hf _ _.
    destruct (sync_empty digest root_of show verify shapes cf _ _ _ _ _ _ os _ Eb Hle Hl Hx) as (n' & t & resp & tr' & E & Hd & _ & Hs & _).
    exists n', t. split; [exact E|]. rewrite Hd. cbn [fst]. rewrite applied_db.
    split; [apply read_at; [rewrite latest_EK, index_EK; apply epoch_EK|exact Hf]|apply read_latest; [apply latest_LK|exact Hf]].
  Qed.
End Props.
Print Assumptions C96_epochs_stay.
Print Assumptions C96_transactions_stay.
Print Assumptions C96_peer_rewrites_history_refuted.
