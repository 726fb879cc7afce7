(** * From a client's request to the committed state (C29): facts. *)
From Verif Require Import Base BaseFacts Hex Types FixedCodec StateAdapter Executor ExecSpec ExecBlock ExecChain ExecMore
  Mempool MempoolSpec MempoolFacts MempoolProps MempoolMore
  Merkle Bincode ConsMsg Proto Wire WireFacts Storage StorageSpec StorageFacts Consensus ConsSpec ConsFacts ConsInv ConsChain ConsMore
  StuckFacts LedgerSpec LedgerFacts LedgerRun NodePool HaltFacts ImmutFacts HeaderFacts PropExecutor PropLedger.
Local Open Scope N_scope.

Section End.
  Context (digest : bytes -> hash) (root_of : gmap bytes bytes -> hash) (show : exec_err -> rstring)
          (verify : bytes -> bytes -> bytes -> bool) (shapes : nat -> shape) (cf : config).
  Notation run_call := (run_call digest root_of show verify shapes cf).
  Notation history := (Consensus.history digest root_of show verify shapes cf).
  Notation happens := (Consensus.happens digest root_of show verify shapes cf).
  Notation execs_seen := (execs_seen digest root_of show verify shapes cf).
  Notation states_ok := (states_ok digest root_of show verify shapes cf).

  Lemma execs_seen_app (l l' : list event) : forall m : machine,
    execs_seen m (l ++ l') = execs_seen m l ++ execs_seen (fold_left happens l m) l'.
  Proof.
    induction l as [|x l IH]; intros m; cbn [app LedgerSpec.execs_seen fold_left]; [reflexivity|]. rewrite IH, app_assoc. reflexivity.
  Qed.
  Lemma states_ok_prefix (l l' : list event) : states_ok (l ++ l') -> states_ok l.
  Proof.
    intros [H1 H2 H3]. rewrite execs_seen_app in H2, H3. split.
    - apply along_app in H1 as [H1 _]. exact H1.
    - apply Forall_app in H2 as [H2 _]. exact H2.
    - eapply clash_sub; [|exact H3]. intros m Hm. rewrite map_app, concat_app. apply elem_of_cons in Hm as [->|Hm]; [left|].
      right. apply elem_of_app. left. exact Hm.
  Qed.
  Lemma history_snoc l ev : history (l ++ [ev]) = happens (history l) ev.
  Proof. unfold Consensus.history. rewrite fold_left_app. reflexivity. Qed.
  Lemma history_call l c (n n' : node) r t : history l = Up n -> run_call c n = (r, n', t) -> history (l ++ [EvCall c]) = Up n'.
  Proof. intros H E. rewrite history_snoc, H. cbn [Consensus.happens]. rewrite E. reflexivity. Qed.

  (** The executor a completed commit leaves. *)
  Lemma exec_known l (n : node) os sent id p pf txs x resp x' : history l = Up n -> nd_busy n = Committing id p pf txs ->
    states_ok (l ++ [EvCall (CallCommitRest os sent)]) ->
    Executor.from_root digest (cf_chain_id cf) (cs_state_root (nd_status n)) (nd_disk n).2 id (cs_price (nd_status n))
      (AUser (eh_proposer (ep_header (pl_epoch p)))) = Ok x -> exec digest root_of show os x txs = Ok (resp, x') ->
    state_fits x' /\ clash_free root_of (∅ :: tries_of x') /\ (forall i, order_ok (os i)).
  Proof.
    intros Hh Eb [H1 H2 H3] Hx He. rewrite execs_seen_app in H2, H3. fold (history l) in H2, H3.
    change (fold_left _ l (Down (∅, ∅))) with (history l) in H2, H3. rewrite Hh in H2, H3.
    assert (execs_seen (Up n) [EvCall (CallCommitRest os sent)] = [x']) as E.
    { cbn [LedgerSpec.execs_seen event_execs call_execs]. rewrite Eb. unfold run_block. rewrite Hx, He. reflexivity. }
    rewrite E in H2, H3. apply Forall_app in H2 as [_ H2]. apply Forall_cons in H2 as [H2 _]. split; [exact H2|]. split.
    - eapply clash_sub; [|exact H3]. intros m Hm. rewrite map_app, concat_app. cbn [map concat]. rewrite app_nil_r.
      apply elem_of_cons in Hm as [->|Hm]; [left|]. right. apply elem_of_app. right. exact Hm.
    - apply along_app in H1 as [_ [H1 _]]. exact H1.
  Qed.

  Lemma txs_stored (m : db) (txs : list signed_tx) (e : epoch) : NoDup (map st_tx_hash txs) ->
    forall t, t ∈ txs ->
    w_latest digest (w_index digest (w_epoch (w_txs m txs) e) e) e !! (2, wenc_hash (st_tx_hash t)) = Some (wenc_signed t).
  Proof.
    intros Hn t Ht. unfold w_latest, w_index, w_epoch. rewrite !lookup_insert_ne by (intros X; discriminate X).
    destruct (batch_lookup m TransactionSchema st_tx_hash txs (st_tx_hash t) wenc_hash_inj) as [(v & Hv & Hk & E)|[Hno _]].
    - etransitivity; [exact E|]. assert (v = t) as ->; [|reflexivity].
      apply elem_of_list_lookup in Hv as [i Hi]. apply elem_of_list_lookup in Ht as [j Hj].
      assert (i = j) as ->; [|congruence].
      apply (NoDup_lookup (map st_tx_hash txs) i j (st_tx_hash t) Hn).
      + rewrite list_lookup_fmap, Hi. cbn [fmap option_fmap option_map]. f_equal. exact Hk.
      + rewrite list_lookup_fmap, Hj. reflexivity.
    - exfalso. apply Hno. apply elem_of_list_fmap. exists t. auto.
  Qed.
  Lemma tx_reads (m : db) (t : signed_tx) : db_fits m -> tx_plain t ->
    m !! (2, wenc_hash (st_tx_hash t)) = Some (wenc_signed t) -> get_transaction_by_hash rocks_col m (st_tx_hash t) = Ok t.
  Proof.
    intros Hf Hp E. unfold get_transaction_by_hash, get_or_none, ad_get, ad_key. cbn [TransactionSchema sc_cat sc_kenc sc_vdec rocks_col].
    rewrite E, (wdec_tx_plain t Hp); [reflexivity|]. exact (Hf _ _ E).
  Qed.

  (** One transfer in a block of its own *)
  Lemma single_transfer os x t resp x' to c from : (forall i, order_ok (os i)) -> fresh x -> wf_accounts (committed x) ->
    rt_action (st_raw t) = Transfer to c -> is_sender digest t from -> (exists u, from = AUser u) ->
    exec digest root_of show os x [t] = Ok (resp, x') ->
    is_Some (committed_assets x !! cr_asset_id c) -> 0 < cr_amount c -> cr_amount c <= bal (committed x) from (cr_asset_id c) ->
    210 <= fee_cycle (rt_fee (st_raw t)) ->
    exists r, er_receipts resp = [r] /\ succeeded r = true /\
      rc_result r = RTransfer to (cr_asset_id c) (bal (committed x) from (cr_asset_id c)) (bal (committed x') from (cr_asset_id c)).
  Proof.
    intros Hos Hf Hw Ha Hs [ua Hua] He Has Hpos Hb Hfee.
    assert (exists u i, committed x !! from = Some (AccUser u) /\ uac_assets u !! cr_asset_id c = Some i) as (u & i & Hu & Hi).
    { unfold bal in Hb. destruct (committed x !! from) as [acc|] eqn:Ea; [|lia]. pose proof (Hw _ _ Ea) as K. rewrite Hua in K.
      destruct acc as [u|v]; [|destruct K]. cbn [account_balance] in Hb. destruct (uac_assets u !! cr_asset_id c) as [i|] eqn:Ei; [eauto|lia]. }
    pose proof (fresh_mid digest show x Hf Hw) as Hm.
    pose proof He as He0. unfold exec in He. cbn [exec_txs] in He.
    destruct (exec_tx digest show (os 1%nat) x t) as [[r x1]|e|] eqn:E1; cbn [rbind] in He; [|discriminate He..].
    destruct (commit _ _ _) as [root x3] eqn:Ec. injection He as <- <-. cbn [er_receipts map].
    destruct Hf as (F1 & F2 & F3 & F4).
    assert (Hg : forall a, StateAdapter.ad_get (x_acc x) a = committed x !! a).
    { intros a. apply fresh_get. split; [exact F1|]. split; [exact F2|]. split; assumption. }
    assert (Hgb : forall a, StateAdapter.ad_get (x_bank x) a = committed_assets x !! a).
    { intros a. unfold StateAdapter.ad_get, committed_assets. rewrite F3, F4, !lookup_empty. reflexivity. }
    assert (Hsu : succeeded r = true).
    { apply (C11_transfer_succeeds_iff digest show (os 1%nat) x t r x1 to c from (Hos 1%nat) Hm Ha Hs E1).
      split; [rewrite Hgb; exact Has|]. split; [|exact Hfee]. exists u, i. rewrite Hg. split; [exact Hu|]. split; [exact Hi|].
      unfold bal in Hb. rewrite Hu in Hb. unfold account_balance in Hb. cbn in Hb. rewrite ?Hi in Hb. exact Hb. }
    exists (with_root r root). split; [reflexivity|]. split; [exact Hsu|].
    destruct (C11_transfer_effect digest show (os 1%nat) x t r x1 to c from (Hos 1%nat) Hm Ha Hs E1 Hsu) as (_ & V & _ & _ & R).
    cbn [with_root rc_result]. rewrite R.
    assert (V0 : forall a id, visible_balance x a id = bal (committed x) a id).
    { intros a id. unfold visible_balance, exec_get_balance, bal. rewrite Hg. destruct (committed x !! a); reflexivity. }
    assert (Hf' : fresh x) by (split; [exact F1|]; split; [exact F2|]; split; assumption).
    pose proof (C11_block_balances digest root_of show os x [t] _ x3 Hos Hf' Hw He0 from (cr_asset_id c)) as B.
    cbn [er_receipts map sum_succeeded] in B. change (succeeded (with_root r root)) with (succeeded r) in B. rewrite Hsu in B.
    unfold amount_sent, amount_received in B. rewrite Ha in B. specialize (V from (cr_asset_id c)). rewrite V0 in V. rewrite V0.
    rewrite decide_True in B by (split; [exact Hs|reflexivity]). rewrite decide_True in V by (split; reflexivity).
    f_equal. destruct (decide (from = AUser to /\ cr_asset_id c = cr_asset_id c)); lia.
  Qed.
End End.
