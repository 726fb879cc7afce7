(** * C109: the ledger lies in the bytes of the disk *)
From Verif Require Import Base BaseFacts Hex Types Rlp FixedCodec StateAdapter StateAdapterFacts Executor ExecSpec ExecutorFacts ExecOrder ExecChain
  Mempool Merkle ConsMsg Proto Wire Storage StorageSpec StorageFacts Mpt Consensus ConsSpec ConsFacts ConsInv LedgerSpec LedgerRun
  TrieSpec DbExec DbFacts DbRun DbSpec DbProof PropDb ConsChain Api NodeDbSpec NodeDbProof NodeDbOwn ImmutFacts LedgerFacts PropNodeDb PropLedger PropEnd PropTrie.
Local Open Scope N_scope.

Section DiskLedger.
  Context (digest : bytes -> hash) (show : exec_err -> rstring)
          (verify : bytes -> bytes -> bytes -> bool) (shapes : nat -> shape) (cf : config).
  Notation history := (Consensus.history digest (mpt_root digest) show verify shapes cf).
  Notation along C l := (ConsSpec.along digest (mpt_root digest) show verify shapes cf C (Down (∅, ∅)) l).
  Notation uses bs l := (NodeDbSpec.uses digest show verify shapes cf bs (Down (∅, ∅)) l).
  Notation m_final bs l := (m_run digest show mstate0 (uses bs l)).2.
  Notation d_final bs qss l := (d_run digest show qss dstate0 (uses bs l)).2.
  Notation epochs_ok l := (ConsSpec.epochs_ok digest (mpt_root digest) show verify shapes cf l).
  Notation states_ok l := (LedgerSpec.states_ok digest (mpt_root digest) show verify shapes cf l).
  Notation fair_node bs qss l := (PropNodeDb.fair_node digest show verify shapes cf bs qss l).

  (** The state with root [r] can be opened in the bytes [t] of a database,
      and shows the accounts [m] and the assets [b], and nothing else. *)
  Definition in_bytes (t : dstate) (r : hash) (m : accounts) (b : assets) : Prop :=
    forall p, exists d, d_open digest t r p = Ok d /\
      (forall a, da_get account_schema (dx_db d) (dx_acc d) a = Ok (m !! a)) /\
      (forall id, da_get asset_schema (dx_db d) (dx_bank d) id = Ok (b !! id)).

  Lemma from_root_params ch r (d : trie_db) e p cb y ch' e' p' cb' : Executor.from_root digest ch r d e p cb = Ok y ->
    exists y', Executor.from_root digest ch' r d e' p' cb' = Ok y' /\ committed y' = committed y /\ committed_assets y' = committed_assets y.
  Proof.
    unfold Executor.from_root. destruct (if decide _ then _ else _) as [T|x|]; cbn [rbind]; [|discriminate..].
    destruct (gen_contract_state account_schema _ _ _) as [a|x|]; cbn [rbind]; [|discriminate..].
    destruct (gen_contract_state asset_schema _ _ _) as [b|x|]; cbn [rbind]; [|discriminate..]. intros [= <-].
    eexists. split; [reflexivity|]. split; reflexivity.
  Qed.

  (** The bytes of a node's database after any history, against the states of
      the node as maps. *)
  Theorem C109_bytes_show_the_ledger bs qss l r m b :
    fair_node bs qss l -> ops_ok digest show mstate0 (uses bs l) -> root_ok digest (m_final bs l) r ->
    (ledger_at digest (disk (history l)) r m b <-> in_bytes (d_final bs qss l) r m b).
  Proof.
    intros [H1 H2 H3 H4] Ho Hr.
    destruct (node_same digest show verify shapes cf l bs qss (Down (∅, ∅)) mstate0 dstate0 H2 H1 (J0 digest) eq_refl Ho H3 H4) as (_ & Hd & _).
    destruct (run_same digest show (uses bs l) qss mstate0 dstate0 H2 (J0 digest) Ho H3 H4) as (_ & HJ & _ & _).
    change (disk (fold_left (happens digest (mpt_root digest) show verify shapes cf) l (Down (∅, ∅)))) with (disk (history l)) in Hd.
    assert (forall p, (exists x d, m_open digest (m_final bs l) r p = Ok x /\ d_open digest (d_final bs qss l) r p = Ok d /\
        (forall a, da_get account_schema (dx_db d) (dx_acc d) a = Ok (committed x !! a)) /\
        (forall id, da_get asset_schema (dx_db d) (dx_bank d) id = Ok (committed_assets x !! id))) \/
      (m_open digest (m_final bs l) r p = Err EInvalidStateRoot /\ d_open digest (d_final bs qss l) r p = Err EInvalidStateRoot)) as Hopen.
    { intros p. destruct (open_same digest _ _ _ p HJ H3 Hr) as [(x & d & Em & Ed & HR & Hf & _)|H]; [left|right; exact H].
      exists x, d. split; [exact Em|]. split; [exact Ed|]. destruct Hf as (F1 & F2 & F3 & F4). split.
      - intros a. rewrite (rad_get digest account_schema good_account_schema _ _ _ a (r_acc _ _ _ HR)).
        unfold StateAdapter.ad_get, committed. rewrite F1, F2, !lookup_empty. reflexivity.
      - intros a. rewrite (rad_get digest asset_schema good_asset_schema _ _ _ a (r_bank _ _ _ HR)).
        unfold StateAdapter.ad_get, committed_assets. rewrite F3, F4, !lookup_empty. reflexivity. }
    unfold m_open in Hopen. rewrite <- Hd in Hopen. split.
    - intros (ch & e & pr & cb & y & Hy & <- & <-) p.
      destruct (from_root_params _ _ _ _ _ _ _ (pm_chain p) (pm_epoch p) (pm_price p) (pm_coinbase p) Hy) as (y' & Hy' & <- & <-).
      destruct (Hopen p) as [(x & d & Em & Ed & Ha & Hb)|[Em _]]; [|congruence]. assert (x = y') as -> by congruence.
      exists d. auto.
    - intros H. set (p := MkParams (cf_chain_id cf) (wrap64 0) (wrap64 0) (AUser (cf_self cf))). destruct (H p) as (d & Ed & Ha & Hb).
      destruct (Hopen p) as [(x & d' & Em & Ed' & Ha' & Hb')|[_ E]]; [|congruence]. assert (d' = d) as -> by congruence.
      exists (pm_chain p), (pm_epoch p), (pm_price p), (pm_coinbase p), x. split; [exact Em|]. split; apply map_eq; intros k.
      + pose proof (Ha k) as Q. rewrite Ha' in Q. congruence.
      + pose proof (Hb k) as Q. rewrite Hb' in Q. congruence.
  Qed.

  Lemma fair_prefix bs qss l l' : fair_node bs qss (l ++ l') -> fair_node bs qss l.
  Proof.
    intros [H1 H2 H3 H4]. apply along_app in H1 as [H1 _]. rewrite uses_app in H3, H4.
    rewrite m_run_app in H3. cbn [snd] in H3. rewrite d_run_app in H4. constructor; [exact H1|exact H2| |].
    - edestruct (run_tries digest show) as [k E]. eapply apart_prefix; [exact E|exact H3].
    - edestruct (run_log digest show) as [k E]. intros v Hv. apply H4. rewrite E. apply elem_of_app. left. exact Hv.
  Qed.

  (** The roots a node that does not synchronise works with. *)
  Lemma own_known bs qss l : fair_node bs qss l -> epochs_ok l -> along never_syncs l -> along roots_agree l ->
    (forall ep, get_latest_epoch rocks_col digest (disk (history l)).1 = Ok ep -> root_ok digest (m_final bs l) (eh_state_root (ep_header ep))) /\
    (forall n, history l = Up n -> root_ok digest (m_final bs l) (cs_state_root (nd_status n))).
  Proof.
    intros [H1 H2 H3 H4] He Hs Hr. apply epochs_ok_seen in He as [He HLP].
    destruct (own_roots digest show verify shapes cf bs qss l HLP H2 He Hs Hr H1 H3 H4) as (_ & [Hl Hn]).
    change (fold_left (happens digest (mpt_root digest) show verify shapes cf) l (Down (∅, ∅))) with (history l) in *. split.
    - intros ep Eg. right; left. apply read_latest_inv in Eg as [Hk Hfit]; [|intros b Hb; destruct (Hl b Hb) as (e' & -> & Hf' & _); eauto].
      destruct (Hl _ Hk) as (e' & E & Hf' & Hr'). assert (e' = ep) as ->; [|exact Hr'].
      assert (get_latest_epoch rocks_col digest (disk (history l)).1 = Ok e') as G1 by (apply read_latest; [rewrite Hk, E; reflexivity|exact Hf']).
      assert (get_latest_epoch rocks_col digest (disk (history l)).1 = Ok ep) as G2 by (apply read_latest; [exact Hk|exact Hfit]).
      congruence.
    - intros n E. rewrite E in Hn. destruct Hn as [Hn _]. right; left. exact Hn.
  Qed.

  (** What the genesis made: for every asset the balances add up to what was
      allocated, and the system token is registered. *)
  Definition whole (code : bytes) (qs : list (address * list (hash * N))) (m : accounts) (b : assets) : Prop :=
    (forall id, total id m = allocated_total id qs) /\
    exists c, contract_from_code digest code (wrap64 0) CtAsset = Ok c /\
      b !! digest (sbytes (cf_chain_id cf) ++ ca c) = Some (system_asset digest (cf_chain_id cf) c (gn_system_token (cf_genesis cf))).

  (** Whatever is committed or synchronised, and wherever the node dies: a root
      that opens in the bytes opens the whole ledger, or an empty one. *)
  Theorem C109_no_inflation bs qss l code qs r p d :
    fair_node bs qss l -> ops_ok digest show mstate0 (uses bs l) -> root_ok digest (m_final bs l) r ->
    states_ok l -> parsed_genesis (cf_genesis cf) code qs ->
    d_open digest (d_final bs qss l) r p = Ok d ->
    exists m b, in_bytes (d_final bs qss l) r m b /\ (whole code qs m b \/ m = ∅ /\ b = ∅).
  Proof.
    intros Hf Ho Hr Hok Hg Ed. pose proof Hf as [H1 H2 H3 H4].
    destruct (node_same digest show verify shapes cf l bs qss (Down (∅, ∅)) mstate0 dstate0 H2 H1 (J0 digest) eq_refl Ho H3 H4) as (_ & Hd & _).
    destruct (run_same digest show (uses bs l) qss mstate0 dstate0 H2 (J0 digest) Ho H3 H4) as (_ & HJ & _ & _).
    destruct (open_same digest _ _ _ p HJ H3 Hr) as [(x & d' & Em & _)|[_ E]]; [|congruence].
    unfold m_open in Em. rewrite <- Hd in Em. exists (committed x), (committed_assets x). split.
    - apply C109_bytes_show_the_ledger; [exact Hf|exact Ho|exact Hr|]. exists (pm_chain p), (pm_epoch p), (pm_price p), (pm_coinbase p), x.
      split; [exact Em|split; reflexivity].
    - destruct (C90_no_inflation digest (mpt_root digest) show verify shapes cf code qs l _ _ _ _ _ x (C104_empty_root digest) Hg Hok Em) as [[W T K]|[E1 E2]]; [left|right].
      + split; [exact T|exact K].
      + split; assumption.
  Qed.

  (** No balance answered from the bytes is above what was allocated. *)
  Theorem C109_answers_bounded bs qss qs' l code qs r p a id n :
    fair_node bs qss l -> ops_ok digest show mstate0 (uses bs l) -> root_ok digest (m_final bs l) r ->
    states_ok l -> parsed_genesis (cf_genesis cf) code qs ->
    (d_step digest show qs' (d_final bs qss l) (OpBalance r p a id)).1 = OutBalance (Ok n) ->
    n <= allocated_total id qs.
  Proof.
    intros Hf Ho Hr Hok Hg. cbn [d_step fst].
    destruct (d_open digest (d_final bs qss l) r p) as [d|x|] eqn:Ed; cbn [rbind]; [|discriminate..].
    destruct (C109_no_inflation bs qss l code qs r p d Hf Ho Hr Hok Hg Ed) as (m & b & Hin & Hm).
    destruct (Hin p) as (d' & Ed' & Ha & _). assert (d' = d) as -> by congruence.
    unfold d_get_balance, d_get_account, d_read_account, dbind, dask, dlift, dret. cbn [fst snd]. rewrite Ha.
    destruct (m !! a) as [acc|] eqn:Ea; cbn [fst snd ok_or]; [|discriminate]. intros [= <-].
    destruct Hm as [[T _]|[-> _]]; [|rewrite lookup_empty in Ea; discriminate Ea].
    rewrite <- T. pose proof (bal_total m a id) as Hb. unfold bal in Hb. rewrite Ea in Hb. exact Hb.
  Qed.

  (** A node that does not synchronise: after any history the bytes hold, under
      the root of its latest epoch and under the root its next block starts
      from, the whole ledger. *)
  Theorem C109_supply_kept bs qss l code qs :
    fair_node bs qss l -> epochs_ok l -> along never_syncs l -> along roots_agree l ->
    states_ok l -> parsed_genesis (cf_genesis cf) code qs ->
    let holds r := exists m b, in_bytes (d_final bs qss l) r m b /\ whole code qs m b in
    (forall ep, get_latest_epoch rocks_col digest (disk (history l)).1 = Ok ep -> holds (eh_state_root (ep_header ep))) /\
    (forall n, history l = Up n -> holds (cs_state_root (nd_status n))).
  Proof.
    intros Hf He Hs Hr Hok Hg holds. pose proof (C106_own_roots _ _ _ _ _ bs qss l Hf He Hs Hr) as Ho.
    destruct (own_known bs qss l Hf He Hs Hr) as [K1 K2].
    destruct (C90_supply_kept digest (mpt_root digest) show verify shapes cf code qs l (C104_empty_root digest) Hg Hok He Hs Hr) as [S1 S2].
    assert (forall r, root_ok digest (m_final bs l) r ->
      (forall chain e p cb, exists y, Executor.from_root digest chain r (disk (history l)).2 e p cb = Ok y /\ full_ledger digest cf code qs y) -> holds r) as H.
    { intros r Hk Hy. destruct (Hy (cf_chain_id cf) (wrap64 0) (wrap64 0) (AUser (cf_self cf))) as (y & Ey & [W T K]).
      exists (committed y), (committed_assets y). split; [|split; assumption].
      apply C109_bytes_show_the_ledger; [exact Hf|exact Ho|exact Hk|]. eexists _, _, _, _, y. split; [exact Ey|split; reflexivity]. }
    split; [intros ep E; apply H; [apply K1, E|apply S1, E]|intros n E; apply H; [apply K2, E|apply S2, E]].
  Qed.

  (** A block: the bytes before and after it, its receipts, and the balances. *)
  Theorem C109_block_carried_out bs qss l code qs (n : node) id p pf txs os rep (n' : node) tr :
    let l' := l ++ [EvCall (CallCommitRest os (Ok tt))] in
    fair_node bs qss l' -> epochs_ok l' -> along never_syncs l' -> along roots_agree l' ->
    states_ok l' -> parsed_genesis (cf_genesis cf) code qs ->
    history l = Up n -> nd_busy n = Committing id p pf txs ->
    run_call digest (mpt_root digest) show verify shapes cf (CallCommitRest os (Ok tt)) n = (Ok rep, n', tr) ->
    db_fits (nd_disk n').1 -> NoDup (map st_tx_hash txs) -> Forall tx_plain txs ->
    exists m b m' b' rs,
      in_bytes (d_final bs qss l) (cs_state_root (nd_status n)) m b /\
      in_bytes (d_final bs qss l') (cs_state_root (nd_status n')) m' b' /\
      length rs = length txs /\
      (forall i t r, txs !! i = Some t -> rs !! i = Some r ->
         get_receipt rocks_col (nd_disk n').1 (st_tx_hash t) = Ok r /\ rc_state_root r = cs_state_root (nd_status n')) /\
      (forall a asset, bal m' a asset + sum_succeeded (fun t => amount_sent digest t a asset) txs rs
         = bal m a asset + sum_succeeded (fun t => amount_received t a asset) txs rs).
  Proof.
    intros l' Hf He Hs Hr Hok Hg Hn Hb Hrun Hfit Hnd Hpl.
    destruct (C29_block_carried_out digest (mpt_root digest) show verify shapes cf code qs l n id p pf txs os rep n' tr (C104_empty_root digest) Hg Hok Hn Hb Hrun Hfit Hnd Hpl)
      as (m & b & m' & b' & rs & L1 & L2 & Hlen & Hrec & Hbal & _).
    pose proof (fair_prefix bs qss l _ Hf) as Hf0.
    assert (epochs_ok l /\ along never_syncs l /\ along roots_agree l) as (He0 & Hs0 & Hr0).
    { split; [|split]; [|apply along_app in Hs as [Hs _]; exact Hs|apply along_app in Hr as [Hr _]; exact Hr].
      eapply epochs_ok_prefix, He. }
    assert (history l' = Up n') as Hn'.
    { unfold l', Consensus.history in *. rewrite fold_left_app, Hn. cbn [fold_left happens]. rewrite Hrun. reflexivity. }
    destruct (own_known bs qss l Hf0 He0 Hs0 Hr0) as [_ K]. destruct (own_known bs qss l' Hf He Hs Hr) as [_ K'].
    exists m, b, m', b', rs. split; [|split; [|split; [exact Hlen|split; [|exact Hbal]]]].
    - apply C109_bytes_show_the_ledger; [exact Hf0|exact (C106_own_roots _ _ _ _ _ bs qss l Hf0 He0 Hs0 Hr0)|apply K, Hn|]. rewrite Hn. exact L1.
    - apply C109_bytes_show_the_ledger; [exact Hf|exact (C106_own_roots _ _ _ _ _ bs qss l' Hf He Hs Hr)|apply K', Hn'|]. rewrite Hn'. exact L2.
    - intros i t r Ht Hr'. destruct (Hrec i t r Ht Hr') as (_ & E & _ & _ & E'). split; assumption.
  Qed.
End DiskLedger.
Print Assumptions C109_bytes_show_the_ledger.
Print Assumptions C109_no_inflation.
Print Assumptions C109_answers_bounded.
Print Assumptions C109_supply_kept.
Print Assumptions C109_block_carried_out.
