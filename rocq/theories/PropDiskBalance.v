(** * C112 over the bytes of the disk: what a query reads, for ever. *)
From Verif Require Import Base BaseFacts Hex Types Rlp FixedCodec StateAdapter StateAdapterFacts Executor ExecSpec ExecutorFacts ExecOrder ExecChain
  Mempool Merkle ConsMsg Proto Wire Storage StorageSpec StorageFacts StorageProps ProtoFacts WireFacts Mpt Consensus ConsSpec ConsFacts ConsInv LedgerSpec LedgerRun
  TrieSpec DbExec DbFacts DbRun DbSpec DbProof PropDb ConsChain ConsLast PropConsensus PropConsensus2 Api ApiSpec NodeDbSpec NodeDbProof NodeDbOwn ImmutFacts LedgerFacts PropNodeDb PropLedger PropEnd PropTrie
  PropApi PropImmut EndFacts PropDiskLedger BalanceFacts PropBalance.
Local Open Scope N_scope.

Section DiskBalance.
  Context (digest : bytes -> hash) (show : exec_err -> rstring)
          (verify : bytes -> bytes -> bytes -> bool) (shapes : nat -> shape) (cf : config).
  Notation history := (Consensus.history digest (mpt_root digest) show verify shapes cf).
  Notation along C l := (ConsSpec.along digest (mpt_root digest) show verify shapes cf C (Down (∅, ∅)) l).
  Notation uses bs l := (NodeDbSpec.uses digest show verify shapes cf bs (Down (∅, ∅)) l).
  Notation m_final bs l := (m_run digest show mstate0 (uses bs l)).2.
  Notation d_final bs qss l := (d_run digest show qss dstate0 (uses bs l)).2.
  Notation epochs_ok l := (ConsSpec.epochs_ok digest (mpt_root digest) show verify shapes cf l).
  Notation states_ok l := (LedgerSpec.states_ok digest (mpt_root digest) show verify shapes cf l).
  Notation fair_node bs qss l := (PropNodeDb.fair_node digest show verify shapes cf bs qss l).
  Notation in_bytes := (PropDiskLedger.in_bytes digest).
  Notation whole := (PropDiskLedger.whole digest cf).

  Lemma latest_known bs qss l ep : fair_node bs qss l -> epochs_ok l -> along never_syncs l -> along roots_agree l ->
    get_latest_epoch rocks_col digest (disk (history l)).1 = Ok ep -> eh_state_root (ep_header ep) ∈ ms_known (m_final bs l).
  Proof.
    intros [H1 H2 H3 H4] He Hs Hr Eg. apply epochs_ok_seen in He as [He HLP].
    destruct (own_roots digest show verify shapes cf bs qss l HLP H2 He Hs Hr H1 H3 H4) as (_ & [Hl Hn]).
    change (fold_left (happens digest (mpt_root digest) show verify shapes cf) l (Down (∅, ∅))) with (history l) in *.
    apply read_latest_inv in Eg as [Hk Hfit]; [|intros b Hb; destruct (Hl b Hb) as (e' & -> & Hf' & _); eauto].
    destruct (Hl _ Hk) as (e' & E & Hf' & Hr'). assert (e' = ep) as ->; [|exact Hr'].
    assert (get_latest_epoch rocks_col digest (disk (history l)).1 = Ok e') as G1 by (apply read_latest; [rewrite Hk, E; reflexivity|exact Hf']).
    assert (get_latest_epoch rocks_col digest (disk (history l)).1 = Ok ep) as G2 by (apply read_latest; [exact Hk|exact Hfit]).
    congruence.
  Qed.

  Lemma latest_at l e : epochs_ok l -> along one_more l -> get_latest_epoch rocks_col digest (disk (history l)).1 = Ok e ->
    get_epoch_by_epoch_id rocks_col (disk (history l)).1 (eh_epoch_id (ep_header e)) = Ok e.
  Proof.
    intros Hok Hom Hl. pose proof (keys_ne _ _ _ _ _ _ _ Hok) as HLP.
    pose proof (chain_history _ _ _ _ _ _ HLP l Hok Hom) as Hs.
    assert (chain_ok digest cf (disk (history l)).1) as Hc by (destruct (history l); [exact Hs|apply Hs]).
    assert (latest_ok digest (disk (history l)).1) as Hlo by (intros b Hb; destruct (Hc b Hb) as (x & -> & Hf & _); eauto).
    destruct (read_latest_inv digest _ _ Hlo Hl) as [Hr Hf]. destruct (Hc _ Hr) as (e1 & Heq & Hf1 & c & R & Hlast).
    assert (e1 = e) as -> by (pose proof (wire_epoch e Hf) as W; rewrite Heq, (wire_epoch e1 Hf1) in W; congruence).
    destruct R as (R1 & _). rewrite last_lookup in Hlast. destruct (R1 _ _ Hlast) as (_ & B & D). apply read_at; assumption.
  Qed.

  (** A node that does not synchronise, and an epoch that is at some time the
      latest one of its disk.  At that time and at every later one (commits,
      crashes, restarts), the bytes of the disk hold under the root in the
      header of that epoch the same whole ledger, and the balances the API
      answers at its number are those of this ledger. *)
  Theorem C112_over_the_bytes bs qss l l' code qs (e : epoch) :
    fair_node bs qss (l ++ l') -> epochs_ok (l ++ l') -> along never_syncs (l ++ l') -> along roots_agree (l ++ l') -> along one_more (l ++ l') ->
    states_ok (l ++ l') -> parsed_genesis (cf_genesis cf) code qs ->
    get_latest_epoch rocks_col digest (disk (history l)).1 = Ok e ->
    exists m b, whole code qs m b /\
      in_bytes (d_final bs qss l) (eh_state_root (ep_header e)) m b /\
      in_bytes (d_final bs qss (l ++ l')) (eh_state_root (ep_header e)) m b /\
      (forall qs' a id n, (d_step digest show qs' (d_final bs qss (l ++ l')) (OpBalance (eh_state_root (ep_header e)) (query_params (ep_header e)) a id)).1 = OutBalance (Ok n) ->
         n = bal m a id) /\
      forall at_ as_ a asset s, names at_ as_ a asset -> numbers s (eh_epoch_id (ep_header e)) ->
        answers digest (disk (history (l ++ l'))) at_ as_ (Some s) (bal m a asset).
  Proof.
    intros Hf He Hs Hr Hom Hst Hg Hl.
    pose proof (fair_prefix digest show verify shapes cf bs qss l l' Hf) as Hf0.
    assert (epochs_ok l) as He0 by (eapply epochs_ok_prefix, He).
    assert (along never_syncs l) as Hs0 by (apply along_app in Hs as [H _]; exact H).
    assert (along roots_agree l) as Hr0 by (apply along_app in Hr as [H _]; exact H).
    assert (states_ok l) as Hst0 by (eapply states_ok_prefix, Hst).
    destruct (C109_supply_kept digest show verify shapes cf bs qss l code qs Hf0 He0 Hs0 Hr0 Hst0 Hg) as [S1 _].
    destruct (S1 e Hl) as (m & b & Hin & Hw). exists m, b. split; [exact Hw|]. split; [exact Hin|].
    pose proof (latest_known bs qss l e Hf0 He0 Hs0 Hr0 Hl) as Hk.
    assert (eh_state_root (ep_header e) ∈ ms_known (m_final bs (l ++ l'))) as Hk'.
    { rewrite uses_app, m_run_app. cbn [snd]. apply known_mono, Hk. }
    pose proof (proj2 (C109_bytes_show_the_ledger digest show verify shapes cf bs qss l _ m b Hf0
      (C106_own_roots _ _ _ _ _ bs qss l Hf0 He0 Hs0 Hr0) (or_intror (or_introl Hk))) Hin) as L.
    pose proof (db_grows digest (mpt_root digest) show verify shapes cf code qs (C104_empty_root digest) Hg l l' Hst) as G.
    pose proof (ledger_grows digest _ _ _ m b G L) as L'.
    pose proof (proj1 (C109_bytes_show_the_ledger digest show verify shapes cf bs qss (l ++ l') _ m b Hf
      (C106_own_roots _ _ _ _ _ bs qss (l ++ l') Hf He Hs Hr) (or_intror (or_introl Hk'))) L') as Hin'.
    split; [exact Hin'|]. split.
    - intros qs' a id n. cbn [d_step fst]. destruct (Hin' (query_params (ep_header e))) as (d & Ed & Ha & _). rewrite Ed. cbn [rbind].
      unfold d_get_balance, d_get_account, d_read_account, dbind, dask, dlift, dret. cbn [fst snd]. rewrite Ha. unfold bal.
      destruct (m !! a) as [acc|]; cbn [fst snd ok_or]; [|discriminate]. intros [= <-]. reflexivity.
    - intros at_ as_ a asset s (P1 & N1 & P2 & N2) Hn.
      destruct (C96_epochs_stay digest (mpt_root digest) show verify shapes cf l l' e He Hom Hl) as [X _].
      destruct (X (eh_epoch_id (ep_header e)) ltac:(lia)) as (X1 & x & X2 & X3).
      assert (along one_more l) as Hom0 by (apply along_app in Hom as [H _]; exact H).
      pose proof (latest_at l e He0 Hom0 Hl) as Hat. assert (x = e) as -> by congruence.
      destruct L' as (ch & e0 & p0 & cb & y & Hy & Hm & _).
      apply (C81_balance_at_header_root digest _ (Some s) (Some (eh_epoch_id (ep_header e))) e m at_ as_ a asset); auto.
      + unfold stored. rewrite X1. exact X2.
      + exists ch, e0, p0, cb, y. auto.
  Qed.
End DiskBalance.
Print Assumptions C112_over_the_bytes.
