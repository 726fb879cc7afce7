(** * C113, continued: a node either has the state an epoch names, or answers zero. *)
From Verif Require Import Base BaseFacts Hex Types Rlp RlpFacts FixedCodec FixedCodecFacts CodecProps StateAdapter StateAdapterFacts
  Executor ExecutorFacts ExecSpec ExecProps ExecBlock ExecMore ExecOrder ExecChain Mempool MempoolSpec MempoolMore Merkle Bincode ConsMsg Proto Wire WireFacts Storage StorageSpec StorageFacts
  StorageProps Consensus ConsSpec ConsFacts ConsInv ConsChain ConsMore Api ApiSpec ApiFacts LedgerSpec LedgerFacts LedgerRun ImmutFacts PropConsensus PropImmut PropApi EndFacts PropEnd BalanceFacts PropBalance PropAgree.
Local Open Scope N_scope.

Section Zero.
  Context (digest : bytes -> hash) (root_of : gmap bytes bytes -> hash) (show : exec_err -> rstring)
          (verify : bytes -> bytes -> bytes -> bool) (shapes : nat -> shape) (cf : config).
  Notation history := (Consensus.history digest root_of show verify shapes cf).
  Notation states_ok := (states_ok digest root_of show verify shapes cf).
  Notation db_ok := (db_ok digest root_of (cf_chain_id cf) (cf_genesis cf)).
  Context (code : bytes) (qs : list (address * list (hash * N))).
  Hypothesis Hempty : root_of ∅ = hash_from_empty digest.
  Hypothesis Hgen : parsed_genesis (cf_genesis cf) code qs.

  (** What the database has under a root opens. *)
  Lemma known_opens (ms : list (gmap bytes bytes)) (d : gmap hash (gmap bytes bytes)) (ch r : hash) (e p : u64) (cb : address) : clash_free root_of (∅ :: ms) -> db_ok code qs ms d ->
    r = hash_from_empty digest \/ is_Some (d !! r) -> exists y, Executor.from_root digest ch r d e p cb = Ok y.
  Proof using Hempty.
    intros Hc Hd Hr. destruct (decide (r = hash_from_empty digest)) as [E|E].
    { unfold Executor.from_root. rewrite decide_True by exact E. cbn [rbind]. rewrite open_bare by (split; apply lookup_empty). eexists. reflexivity. }
    destruct Hr as [?|[T Er]]; [contradiction|].
    destruct (Hd _ _ Er) as (-> & Hm & [Hb|(A & B & H & FA & FB & HL)]).
    - unfold Executor.from_root. rewrite decide_False by exact E. unfold trie_from.
      change (@lookup hash (gmap bytes bytes) trie_db _ (root_of T) d) with (@lookup hash (gmap bytes bytes) (gmap hash (gmap bytes bytes)) _ (root_of T) d).
      rewrite Er. cbn [ok_or rbind]. rewrite open_bare by exact Hb. eexists. reflexivity.
    - eexists. eapply from_root_holds; eauto. eapply clash_sub; [|exact Hc]. intros m' Hm'. apply elem_of_cons in Hm' as [->|Hm']; [left|].
      apply elem_of_list_singleton in Hm' as ->. right. exact Hm.
  Qed.
  Lemma unknown_errs (d : gmap hash (gmap bytes bytes)) (ch r : hash) (e p : u64) (cb : address) :
    r <> hash_from_empty digest -> d !! r = None -> Executor.from_root digest ch r d e p cb = Err EInvalidStateRoot.
  Proof.
    intros E Er. unfold Executor.from_root. rewrite decide_False by exact E. unfold trie_from.
    change (@lookup hash (gmap bytes bytes) trie_db _ r d) with (@lookup hash (gmap bytes bytes) (gmap hash (gmap bytes bytes)) _ r d).
    rewrite Er. reflexivity.
  Qed.

  (** For every epoch a node holds: the state its header names is there, and
      every balance asked for at it is that of the state; or it is not, and
      every balance asked for at it is answered with zero, not refused. *)
  Theorem C113_answer_or_zero : forall l qid n e,
    states_ok l -> asks qid n -> stored digest (disk (history l)) n = Ok e ->
    (exists m b, ledger_at digest (disk (history l)) (eh_state_root (ep_header e)) m b /\
      forall at_ as_ a asset, names at_ as_ a asset -> answers digest (disk (history l)) at_ as_ qid (bal m a asset)) \/
    ((forall m b, ~ ledger_at digest (disk (history l)) (eh_state_root (ep_header e)) m b) /\
      forall at_ as_ a asset, names at_ as_ a asset -> answers digest (disk (history l)) at_ as_ qid 0).
  Proof using Hempty Hgen.
    intros l qid n e H Hq He.
    pose proof (db_history digest root_of show verify shapes cf code qs Hempty Hgen _ l (so_roots _ _ _ _ _ _ _ H) (step_in_along digest root_of show verify shapes cf l H)) as D.
    set (r := eh_state_root (ep_header e)) in *. set (d := disk (history l)) in *.
    assert ((r = hash_from_empty digest \/ is_Some ((d.2 : gmap hash (gmap bytes bytes)) !! r)) \/ (r <> hash_from_empty digest /\ (d.2 : gmap hash (gmap bytes bytes)) !! r = None)) as [K|[K1 K2]].
    { destruct (decide (r = hash_from_empty digest)); [left; left; assumption|]. destruct ((d.2 : gmap hash (gmap bytes bytes)) !! r) eqn:E; [left; right; eexists; reflexivity|right; auto]. }
    - left. destruct (known_opens _ _ (eh_chain_id (ep_header e)) r (wrap64 0) (wrap64 0) (AUser (eh_proposer (ep_header e))) (so_roots _ _ _ _ _ _ _ H) D K) as [y Hy].
      exists (committed y), (committed_assets y). assert (ledger_at digest d r (committed y) (committed_assets y)) as L.
      { eexists _, _, _, _, y. split; [exact Hy|]. split; reflexivity. }
      split; [exact L|]. intros at_ as_ a asset Hn. apply (C81_balance_at_header_root digest d qid n e (committed y) at_ as_ a asset); auto.
      all: try (destruct Hn as (? & ? & ? & ?); assumption). eexists _, _, _, _, y. split; [exact Hy|reflexivity].
    - right. split. { intros m b (ch & i & p & cb & x & Hx & _). rewrite unknown_errs in Hx by assumption. discriminate. }
      intros at_ as_ a asset (P1 & S1 & P2 & S2). unfold answers, query_balance. rewrite (proj2 (asks_iff qid n (asks_plain _ _ Hq)) Hq). cbn [rbind].
      rewrite (proj2 (address_spells at_ a P1) S1). cbn [rbind]. rewrite (proj2 (hash_spells as_ asset P2) S2). cbn [rbind].
      unfold adapter_get_balance, adapter_get_epoch. unfold stored in He. rewrite He. cbn [map_err rbind].
      rewrite unknown_errs by assumption. cbn [map_err rbind]. eexists. split; [reflexivity|]. apply (out_balance_spells 0).
  Qed.

  Lemma stored_np l n : epochs_ok digest root_of show verify shapes cf l -> along digest root_of show verify shapes cf replies_match (Down (∅, ∅)) l ->
    stored digest (disk (history l)) n <> Panic.
  Proof.
    intros Hok Hrm. pose proof (ConsInv.sound_history _ _ _ _ _ _ l Hok Hrm) as Hs.
    assert (ConsInv.sound digest (disk (history l)).1) as [S1 S2] by (destruct (history l); [exact Hs|apply Hs]).
    destruct n as [i|]; intros H; unfold stored, get_epoch_by_epoch_id, get_latest_epoch, get_or_none, Storage.ad_get, ad_key in H;
      cbn [EpochSchema LatestEpochSchema sc_cat sc_kenc sc_vdec rocks_col] in H.
    - destruct ((disk (history l)).1 !! (1, wenc_epoch_id (MkEpochId i))) as [b|] eqn:E; [|discriminate H].
      destruct (S1 i b E) as (x & -> & Hf & _). rewrite (wire_epoch x Hf) in H. discriminate H.
    - destruct ((disk (history l)).1 !! (1, wenc_hash (LATEST_EPOCH_KEY digest))) as [b|] eqn:E; [|discriminate H].
      destruct (S2 b eq_refl) as (x & -> & Hf & _). rewrite (wire_epoch x Hf) in H. discriminate H.
  Qed.
  (** A node answers every well-formed getBalance, whatever it went through:
      never an error, never a panic, and exactly one amount. *)
  Theorem C113_always_answered : forall l at_ as_ a asset qid n,
    states_ok l -> epochs_ok digest root_of show verify shapes cf l -> along digest root_of show verify shapes cf replies_match (Down (∅, ∅)) l ->
    asks qid n -> names at_ as_ a asset -> exists v, answers digest (disk (history l)) at_ as_ qid v.
  Proof using Hempty Hgen.
    intros l at_ as_ a asset qid n H Hok Hrm Hq Hn. pose proof Hn as (P1 & S1 & P2 & S2).
    destruct (stored digest (disk (history l)) n) as [e|x|] eqn:E.
    - destruct (C113_answer_or_zero l qid n e H Hq E) as [(m & b & _ & A)|(_ & A)]; [exists (bal m a asset)|exists 0]; exact (A _ _ _ _ Hn).
    - exists 0. exact (C81_errors_become_zero_refuted digest _ qid n at_ as_ a asset Hq P1 S1 P2 S2 (ex_intro _ x E)).
    - exfalso. exact (stored_np l n Hok Hrm E).
  Qed.
End Zero.
Print Assumptions C113_answer_or_zero.
Print Assumptions C113_always_answered.
