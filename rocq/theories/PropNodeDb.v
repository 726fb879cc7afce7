(** * C106: a node over the bytes of its state database *)
From Verif Require Import Base BaseFacts Hex Types Rlp FixedCodec StateAdapter StateAdapterFacts Executor ExecSpec ExecutorFacts ExecOrder ExecChain
  Mempool Merkle ConsMsg Proto Wire Storage StorageSpec StorageFacts Mpt Consensus ConsSpec ConsFacts ConsInv LedgerSpec LedgerRun
  TrieSpec DbExec DbFacts DbRun DbSpec DbProof PropDb ConsChain Api NodeDbSpec NodeDbProof NodeDbOwn.
Local Open Scope N_scope.

Section NodeDb.
  Context (digest : bytes -> hash) (show : exec_err -> rstring)
          (verify : bytes -> bytes -> bytes -> bool) (shapes : nat -> shape) (cf : config).
  Notation history := (Consensus.history digest (mpt_root digest) show verify shapes cf).
  Notation along C l := (ConsSpec.along digest (mpt_root digest) show verify shapes cf C (Down (∅, ∅)) l).
  Notation uses bs l := (NodeDbSpec.uses digest show verify shapes cf bs (Down (∅, ∅)) l).
  Notation results l := (NodeDbSpec.results digest show verify shapes cf (Down (∅, ∅)) l).
  Notation m_final bs l := (m_run digest show mstate0 (uses bs l)).2.
  Notation d_final bs qss l := (d_run digest show qss dstate0 (uses bs l)).2.
  Notation epochs_ok l := (ConsSpec.epochs_ok digest (mpt_root digest) show verify shapes cf l).

  (** What is asked of a history [l], of the iteration orders [qss] of the hash
      maps of the executors over the bytes and of how far each death got [bs]. *)
  Record fair_node (bs : nat -> nat) (qss : nat -> nat -> dorder) (l : list event) : Prop := {
    fn_orders : along orders_ok l;
    fn_dorders : dorders_ok qss;
    fn_apart : nodes_apart digest (m_final bs l);
    fn_sizes : sizes_ok (d_final bs qss l) }.

  (** Every execution of a node's life comes out of the bytes as it came out of
      the maps. *)
  Theorem C106_node_over_bytes (bs : nat -> nat) (qss : nat -> nat -> dorder) (l : list event) :
    fair_node bs qss l -> ops_ok digest show mstate0 (uses bs l) ->
    (d_run digest show qss dstate0 (uses bs l)).1 = results l.
  Proof. intros [H1 H2 H3 H4] Ho. apply (node_same digest show verify shapes cf l bs qss (Down (∅, ∅)) mstate0 dstate0 H2 H1 (J0 digest) eq_refl Ho H3 H4). Qed.

  (** A node that does not synchronise asks for no root but those it was handed. *)
  Theorem C106_own_roots (bs : nat -> nat) (qss : nat -> nat -> dorder) (l : list event) :
    fair_node bs qss l -> epochs_ok l -> along never_syncs l -> along roots_agree l -> ops_ok digest show mstate0 (uses bs l).
  Proof.
    intros [H1 H2 H3 H4] He Hs Hr. apply epochs_ok_seen in He as [He HLP].
    apply (own_roots digest show verify shapes cf bs qss l HLP H2 He Hs Hr H1 H3 H4).
  Qed.
  Theorem C106_own_node (bs : nat -> nat) (qss : nat -> nat -> dorder) (l : list event) :
    fair_node bs qss l -> epochs_ok l -> along never_syncs l -> along roots_agree l ->
    (d_run digest show qss dstate0 (uses bs l)).1 = results l.
  Proof. intros Hf He Hs Hr. apply C106_node_over_bytes; [exact Hf|]. exact (C106_own_roots bs qss l Hf He Hs Hr). Qed.

  (** How far a death in the middle of a commit got does not matter. *)
  Theorem C106_deaths_alike (bs bs' : nat -> nat) (qss qss' : nat -> nat -> dorder) (l : list event) :
    fair_node bs qss l -> ops_ok digest show mstate0 (uses bs l) -> fair_node bs' qss' l -> ops_ok digest show mstate0 (uses bs' l) ->
    (d_run digest show qss dstate0 (uses bs l)).1 = (d_run digest show qss' dstate0 (uses bs' l)).1.
  Proof. intros H1 H2 H3 H4. rewrite (C106_node_over_bytes bs qss l H1 H2). symmetry. exact (C106_node_over_bytes bs' qss' l H3 H4). Qed.

  (** Every state the node ever completed can be opened in the bytes at the
      end, and shows what the node's executor had committed. *)
  Theorem C106_states_kept (bs : nat -> nat) (qss : nat -> nat -> dorder) (l l1 l2 : list event) (e : event) (r : hash) (x : executor) (p : params) :
    fair_node bs qss l -> ops_ok digest show mstate0 (uses bs l) ->
    l = l1 ++ e :: l2 -> event_leaves digest show cf (history l1) e = Some (r, x) ->
    exists d, d_open digest (d_final bs qss l) r p = Ok d /\
      (forall a, da_get account_schema (dx_db d) (dx_acc d) a = Ok (committed x !! a)) /\
      (forall id, da_get asset_schema (dx_db d) (dx_bank d) id = Ok (committed_assets x !! id)).
  Proof.
    intros [H1 H2 H3 H4] Ho E Hl.
    destruct (node_same digest show verify shapes cf l bs qss (Down (∅, ∅)) mstate0 dstate0 H2 H1 (J0 digest) eq_refl Ho H3 H4) as (_ & _ & H).
    destruct (H l1 e l2 r x E Hl) as (_ & u1 & o & u2 & x' & Eu & Hle & Hsame).
    destruct (C105_state_readable digest show qss _ u1 u2 o r x' p H2 Ho H3 H4 Eu Hle) as (d & Ed & Ha & Hb).
    destruct Hsame as (_ & _ & _ & _ & _ & E1 & E2). exists d. split; [exact Ed|].
    unfold committed, committed_assets in *. rewrite E1, E2. split; assumption.
  Qed.

  (** A balance query of the API on the node's disk is the query on the bytes. *)
  Theorem C106_balance_query (bs : nat -> nat) (qss : nat -> nat -> dorder) (qs : nat -> dorder) (l : list event) (a : address) (id : hash) (at_epoch : option u64) (ep : epoch) :
    fair_node bs qss l -> ops_ok digest show mstate0 (uses bs l) ->
    adapter_get_epoch digest (disk (history l)) at_epoch = Ok ep -> root_ok digest (m_final bs l) (eh_state_root (ep_header ep)) ->
    exists r, (d_step digest show qs (d_final bs qss l) (OpBalance (eh_state_root (ep_header ep)) (query_params (ep_header ep)) a id)).1 = OutBalance r /\
      adapter_get_balance digest (disk (history l)) a id at_epoch = map_err AExec r.
  Proof.
    intros [H1 H2 H3 H4] Ho Ee Hr.
    destruct (node_same digest show verify shapes cf l bs qss (Down (∅, ∅)) mstate0 dstate0 H2 H1 (J0 digest) eq_refl Ho H3 H4) as (_ & Hd & _).
    destruct (run_same digest show (uses bs l) qss mstate0 dstate0 H2 (J0 digest) Ho H3 H4) as (_ & HJ & _ & _).
    eexists. split; [reflexivity|]. unfold adapter_get_balance. rewrite Ee. cbn [rbind]. f_equal.
    change (disk (history l)).2 with (disk (fold_left (happens digest (mpt_root digest) show verify shapes cf) l (Down (∅, ∅)))).2. rewrite Hd.
    destruct (open_same digest _ _ _ (query_params (ep_header ep)) HJ H3 Hr) as [(x & d & Em & Ed & HR & _)|[Em Ed]]; rewrite Ed; unfold m_open in Em;
      cbn [query_params pm_chain pm_epoch pm_price pm_coinbase] in Em; rewrite Em; [|reflexivity]. cbn [rbind].
    unfold d_get_balance, d_get_account, d_read_account, dbind, dask, dlift, dret, exec_get_balance. cbn [fst snd].
    rewrite (rad_get digest account_schema good_account_schema _ _ _ a (r_acc _ _ _ HR)).
    destruct (StateAdapter.ad_get (x_acc x) a); reflexivity.
  Qed.
  (** In particular that at the latest epoch, on a node that does not synchronise. *)
  Theorem C106_own_balance (bs : nat -> nat) (qss : nat -> nat -> dorder) (qs : nat -> dorder) (l : list event) (a : address) (id : hash) (ep : epoch) :
    fair_node bs qss l -> epochs_ok l -> along never_syncs l -> along roots_agree l ->
    adapter_get_epoch digest (disk (history l)) None = Ok ep ->
    exists r, (d_step digest show qs (d_final bs qss l) (OpBalance (eh_state_root (ep_header ep)) (query_params (ep_header ep)) a id)).1 = OutBalance r /\
      adapter_get_balance digest (disk (history l)) a id None = map_err AExec r.
  Proof.
    intros Hf He Hs Hr Ee. pose proof (C106_own_roots bs qss l Hf He Hs Hr) as Ho. apply C106_balance_query; [exact Hf|exact Ho|exact Ee|].
    destruct Hf as [H1 H2 H3 H4]. apply epochs_ok_seen in He as [He HLP].
    destruct (own_roots digest show verify shapes cf bs qss l HLP H2 He Hs Hr H1 H3 H4) as (_ & [Hl _]).
    right; left. unfold adapter_get_epoch in Ee.
    change (disk (history l)).1 with (disk (fold_left (happens digest (mpt_root digest) show verify shapes cf) l (Down (∅, ∅)))).1 in Ee.
    destruct (get_latest_epoch rocks_col digest _) as [e|e|] eqn:Eg; cbn [map_err] in Ee; try discriminate Ee. injection Ee as ->.
    apply read_latest_inv in Eg as [Hk Hfit]; [|intros b Hb; destruct (Hl b Hb) as (e' & -> & Hf' & _); eauto].
    destruct (Hl _ Hk) as (e' & E & Hf' & Hr'). assert (e' = ep) as ->; [|exact Hr'].
    assert (get_latest_epoch rocks_col digest (disk (fold_left (happens digest (mpt_root digest) show verify shapes cf) l (Down (∅, ∅)))).1 = Ok e') as G1 by (apply read_latest; [rewrite Hk, E; reflexivity|exact Hf']).
    assert (get_latest_epoch rocks_col digest (disk (fold_left (happens digest (mpt_root digest) show verify shapes cf) l (Down (∅, ∅)))).1 = Ok ep) as G2 by (apply read_latest; [exact Hk|exact Hfit]).
    congruence.
  Qed.
End NodeDb.
Print Assumptions C106_node_over_bytes.
Print Assumptions C106_own_roots.
Print Assumptions C106_own_node.
Print Assumptions C106_deaths_alike.
Print Assumptions C106_states_kept.
Print Assumptions C106_balance_query.
Print Assumptions C106_own_balance.
