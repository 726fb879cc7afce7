(** * Commits that fail, and why one client can make them fail (C93); commits
    that succeed (C95). *)
From Verif Require Import Base BaseFacts Hex Types FixedCodec StateAdapter Executor ExecSpec ExecBlock ExecMore
  Mempool MempoolSpec MempoolFacts MempoolProps MempoolMore
  Merkle Bincode ConsMsg Proto Wire WireFacts Storage StorageSpec StorageFacts Consensus ConsSpec ConsFacts ConsInv ConsChain
  StuckFacts LedgerRun NodePool PropExecutor.
Local Open Scope N_scope.

Section Halt.
  Context (digest : bytes -> hash) (root_of : gmap bytes bytes -> hash) (show : exec_err -> rstring)
          (verify : bytes -> bytes -> bytes -> bool) (shapes : nat -> shape) (cf : config).
  Notation run_call := (run_call digest root_of show verify shapes cf).
  Notation history := (Consensus.history digest root_of show verify shapes cf).
  Notation latest d := (get_latest_epoch rocks_col digest (fst d)).

  Lemma flush_lookup (p : mempool) (hs : list hash) (h : hash) : h ∈ hs -> mp_lookup (mp_flush p hs) h = None.
  Proof.
    intros H. unfold mp_lookup, tc_get, mp_flush, tc_flush. cbn [mp_tc tc_map mp_cb]. rewrite map_deletes_lookup.
    destruct (decide (h ∈ hs)); [|contradiction]. cbn. apply lookup_empty.
  Qed.
  Lemma no_full (p : mempool) (hs : list hash) : hs <> [] -> (forall h, h ∈ hs -> mp_lookup p h = None) ->
    is_ok (mp_get_full_txs p hs) = false.
  Proof.
    intros Hne H. destruct (mp_get_full_txs p hs) as [txs|e|] eqn:E; [|reflexivity..]. apply get_full_iff in E.
    destruct E as [|h t hs txs Ht _]; [contradiction|]. rewrite H in Ht by left. discriminate Ht.
  Qed.
  Lemma commit_needs_txs id c (n : node) : is_ok (mp_get_full_txs (nd_pool n) (ep_ordered_tx_hashes (pl_epoch (cm_pill c)))) = false ->
    is_ok (run_call (CallCommit id c) n).1.1 = false.
  Proof.
    intros H. destruct (run_call (CallCommit id c) n) as [[r n'] t] eqn:E. cbn [fst].
    cbn [Consensus.run_call] in E. unfold abind at 1 in E. destruct (commit_start digest id c n) as [[r1 n1] t1] eqn:E1.
    apply commit_start_out in E1. inversion E1 as [r0 Hr|eh r0 Hr Hb Hh|eh txs Hb Hh Hg]; subst.
    - destruct r1; [discriminate Hr|..]; injection E as <- _ _; reflexivity.
    - destruct r1; [discriminate Hr|..]; injection E as <- _ _; reflexivity.
    - rewrite Hg in H. discriminate H.
  Qed.

  Lemma commit_ok id c (n n1 : node) t1 : run_call (CallCommit id c) n = (Ok RepUnit, n1, t1) ->
    exists eh txs, nd_busy n = Idle /\ hash_from_bytes (cm_epoch_hash c) = Ok eh /\
      mp_get_full_txs (nd_pool n) (ep_ordered_tx_hashes (pl_epoch (cm_pill c))) = Ok txs /\
      n1 = set_busy (set_pool (set_disk n (with_proof digest (nd_disk n) (commit_proof c eh)))
                     (mp_flush (nd_pool n) (ep_ordered_tx_hashes (pl_epoch (cm_pill c)))))
           (Committing id (cm_pill c) (commit_proof c eh) txs).
  Proof.
    cbn [Consensus.run_call]. unfold abind at 1. destruct (commit_start digest id c n) as [[r1 m] t] eqn:E1.
    apply commit_start_out in E1. inversion E1 as [r0 Hr|eh r0 Hr Hb Hh|eh txs Hb Hh Hg]; subst; intros E.
    - destruct r1; [discriminate Hr|discriminate E|discriminate E].
    - destruct r1; [discriminate Hr|discriminate E|discriminate E].
    - cbn [aret] in E. injection E as <- _. exists eh, txs. auto.
  Qed.
  Lemma commit_goes id c (n : node) eh txs : nd_busy n = Idle -> hash_from_bytes (cm_epoch_hash c) = Ok eh ->
    mp_get_full_txs (nd_pool n) (ep_ordered_tx_hashes (pl_epoch (cm_pill c))) = Ok txs ->
    exists t1, run_call (CallCommit id c) n = (Ok RepUnit,
      set_busy (set_pool (set_disk n (with_proof digest (nd_disk n) (commit_proof c eh)))
                     (mp_flush (nd_pool n) (ep_ordered_tx_hashes (pl_epoch (cm_pill c)))))
           (Committing id (cm_pill c) (commit_proof c eh) txs), t1).
  Proof.
    intros Hb Hh Hg. cbn [Consensus.run_call]. unfold abind at 1. unfold commit_start. unfold abind at 1. unfold aget at 1.
    rewrite Hb. unfold abind at 1. unfold alift at 1. rewrite Hh. cbn [map_err]. fold (commit_proof c eh).
    unfold abind at 1. unfold save_proof. rewrite awrites_spec.
    fold (with_proof digest (nd_disk n) (commit_proof c eh)).
    unfold abind at 1. unfold get_full_txs. unfold abind at 1. unfold aget, alift. cbn [nd_pool set_disk]. rewrite Hg. cbn [map_err].
    eexists. reflexivity.
  Qed.

  Lemma rest_exec os sent (n : node) id p pf txs : nd_busy n = Committing id p pf txs ->
    (forall x, Executor.from_root digest (cf_chain_id cf) (cs_state_root (nd_status n)) (nd_disk n).2 id (cs_price (nd_status n))
       (AUser (eh_proposer (ep_header (pl_epoch p)))) = Ok x -> is_ok (exec digest root_of show os x txs) = false) ->
    is_ok (run_call (CallCommitRest os sent) n).1.1 = false.
  Proof.
    intros Eb H. destruct (run_call (CallCommitRest os sent) n) as [[r n'] t] eqn:E. cbn [fst].
    cbn [Consensus.run_call] in E. unfold abind at 1 in E.
    destruct (commit_finish digest root_of show shapes cf os sent n) as [[r1 n1] t1] eqn:E1.
    apply commit_finish_out in E1. inversion E1 as [|id' p' pf' txs' r0 Eb' Hr|id' p' pf' txs' resp tr' lo Eb' Hx El]; subst.
    - injection E as <- _ _. reflexivity.
    - destruct r1; [discriminate Hr|..]; injection E as <- _ _; reflexivity.
    - rewrite Eb in Eb'. injection Eb' as <- <- <- <-. destruct Hx as (x & x' & H1 & H2 & _).
      specialize (H x H1). rewrite H2 in H. discriminate H.
  Qed.

  Lemma rest_failed os (n n' : node) r t id p pf txs : nd_busy n = Committing id p pf txs ->
    run_call (CallCommitRest os (Ok tt)) n = (r, n', t) -> is_ok r = false -> n' = set_busy n Idle.
  Proof.
    intros Eb. cbn [Consensus.run_call]. unfold abind at 1. unfold commit_finish. unfold abind at 1. unfold aget at 1. rewrite Eb.
    unfold abind at 1. unfold aupd at 1. unfold abind at 1.
    destruct (execute _ _ _ _ _ _ _ _ _ _ (set_busy n Idle)) as [[r1 n1] t1] eqn:E.
    apply execute_out in E as [(Hr & -> & ->)|(resp & tr' & -> & Hx & -> & ->)].
    - destruct r1; [discriminate Hr|..]; intros [= <- <- <-] _; reflexivity.
    - unfold abind at 1. rewrite update_status_out. unfold abind at 1. unfold aupd at 1. unfold abind at 1. unfold alift at 1.
      unfold aupd, aret. intros [= <- _ _]. discriminate.
  Qed.
  Lemma rest_done os (n : node) id p pf txs x : nd_busy n = Committing id p pf txs ->
    Executor.from_root digest (cf_chain_id cf) (cs_state_root (nd_status n)) (nd_disk n).2 id (cs_price (nd_status n))
       (AUser (eh_proposer (ep_header (pl_epoch p)))) = Ok x -> is_ok (exec digest root_of show os x txs) = true ->
    (run_call (CallCommitRest os (Ok tt)) n).1.1 = Ok RepUnit.
  Proof.
    intros Eb Hx He. destruct (exec digest root_of show os x txs) as [[resp x']|e|] eqn:Ee; [|discriminate He..].
    cbn [Consensus.run_call]. unfold abind at 1. unfold commit_finish. unfold abind at 1. unfold aget at 1. rewrite Eb.
    unfold abind at 1. unfold aupd at 1. unfold abind at 1. unfold execute. unfold abind at 1. unfold aget at 1.
    unfold abind at 1. unfold alift at 1. cbn [nd_disk set_busy]. rewrite Hx. cbn [map_err].
    unfold abind at 1. unfold alift at 1. rewrite Ee. cbn [map_err]. unfold abind at 1. unfold apersist at 1. unfold aret at 1.
    unfold abind at 1. rewrite update_status_out. unfold abind at 1. unfold aupd at 1. unfold abind at 1. unfold alift at 1.
    unfold aupd, aret. reflexivity.
  Qed.

  (** The first transaction's sender is unknown: the block fails. *)
  Lemma unknown_sender_fails os x t ts a : (forall n, order_ok (os n)) -> fresh x -> wf_accounts (committed x) ->
    is_sender digest t a -> committed x !! a = None -> is_ok (exec digest root_of show os x (t :: ts)) = false.
  Proof.
    intros Ho Hf Hw Hs Hn.
    destruct (exec_total_ok digest root_of show os x [] Ho Hf Hw (Forall_nil_2 _)) as (resp & x' & E0).
    destruct (decide (supported t)) as [Hsup|Hsup].
    - assert (exec digest root_of show os x (t :: ts) = Err (EAccountNotFound a)) as ->; [|reflexivity].
      apply (exec_err_iff digest root_of show os x (t :: ts) (EAccountNotFound a) Ho Hf Hw).
      exists [], t, ts, resp, x', a. split; [reflexivity|]. split; [exact E0|]. split; [exact Hsup|]. split; [exact Hs|].
      split; [|reflexivity].
      rewrite (exec_untouched digest root_of show os x [] resp x' a Ho Hf Hw E0 (Forall_nil_2 _)). exact Hn.
    - assert (exec digest root_of show os x (t :: ts) = Panic) as ->; [|reflexivity].
      apply (exec_panic_iff digest root_of show os x (t :: ts) Ho Hf Hw). exists [], t, ts, resp, x'. auto.
  Qed.
End Halt.

Section Attack.
  Context (digest : bytes -> hash) (root_of : gmap bytes bytes -> hash) (show : exec_err -> rstring)
          (verify : bytes -> bytes -> bytes -> bool) (shapes : nat -> shape) (cf : config).
  Notation run_call := (run_call digest root_of show verify shapes cf).
  Notation history := (Consensus.history digest root_of show verify shapes cf).
  Notation latest d := (get_latest_epoch rocks_col digest (fst d)).

  (** A transaction accepted by an empty pool is what the node proposes next. *)
  Lemma lone_proposal l (n n1 : node) net t t1 e now : history l = Up n -> mp_len (nd_pool n) = 0%nat ->
    latest (nd_disk n) = Ok e ->
    run_call (CallInsert net t (Ok tt)) n = (Ok RepUnit, n1, t1) ->
    small (cs_limit (nd_status n)) -> fee_cycle (rt_fee (st_raw t)) <= cs_limit (nd_status n) ->
    eh_epoch_id (ep_header e) < rt_timeout (st_raw t) ->
    exists p h n2, run_call (CallPropose (cs_epoch_id (nd_status n)) now) n1 = (Ok (RepPill p h), n2, []) /\
      ep_ordered_tx_hashes (pl_epoch p) = [st_tx_hash t] /\ pl_propose_hashes p = [] /\
      eh_proposer (ep_header (pl_epoch p)) = cf_self cf /\ eh_epoch_id (ep_header (pl_epoch p)) = cs_epoch_id (nd_status n) /\
      nd_busy n2 = nd_busy n /\ nd_status n2 = nd_status n /\ nd_disk n2 = nd_disk n /\ nd_out n2 = nd_out n /\
      mp_lookup (nd_pool n2) (st_tx_hash t) = Some t.
  Proof.
    intros Hh Hl He Ei Hsm Hc Hto.
    destruct (pool_history _ _ _ _ _ _ _ _ Hh) as [ops Hops].
    pose proof (pool_inv digest verify (cf_pool_size cf) (cf_gap cf) (cf_gap cf) ops) as Hp. rewrite <- Hops in Hp.
    cbn [Consensus.run_call] in Ei.
    pose proof (insert_outcome digest verify (cf_pool_size cf) (cf_gap cf) (cf_gap cf) (nd_pool n) net t (env_of digest (nd_disk n)) (Ok tt) Hp) as Ho.
    destruct (mp_insert digest verify (cf_gap cf) (nd_pool n) net t (env_of digest (nd_disk n)) (Ok tt)) as [r0 p1].
    destruct Ho as (Hp1 & _ & [(Ha & Hr & Een & _)|(_ & Hr & _)]).
    2:{ destruct r0 as [u|x|]; [destruct (Hr u eq_refl)|discriminate Ei..]. }
    assert (n1 = set_pool n p1) as -> by (injection Ei as _ <- _; reflexivity). clear Ei.
    rewrite (len_entries _ _ _ Hp) in Hl. apply nil_length_inv in Hl. rewrite Hl in Een. cbn [app] in Een.
    assert (en_latest (env_of digest (nd_disk n)) = Ok (eh_chain_id (ep_header e), eh_epoch_id (ep_header e))) as Henv.
    { cbn [env_of en_latest]. rewrite He. reflexivity. }
    assert (alive (eh_epoch_id (ep_header e)) (cf_gap cf) (t, false) = true) as Hal.
    { destruct Ha as (_ & _ & Hok & _). unfold tx_ok in Hok.
      destruct (check_signature verify t) as [[]|x|]; [|discriminate Hok..]. cbn [rbind] in Hok.
      destruct (check_transaction digest (cf_gap cf) (env_of digest (nd_disk n)) t) as [[]|x|] eqn:Ec; [|discriminate Hok..].
      unfold check_transaction in Ec. destruct (decide _); [|discriminate Ec]. rewrite Henv in Ec. cbn [rbind] in Ec.
      destruct (decide _); [|discriminate Ec].
      destruct (wrap64 (eh_epoch_id (ep_header e) + cf_gap cf) <? rt_timeout (st_raw t)) eqn:Eg; [discriminate Ec|].
      unfold alive. cbn [fst]. apply andb_true_iff. split; [apply N.ltb_lt; exact Hto|]. apply N.leb_le. apply N.ltb_ge in Eg.
      exact Eg. }
    assert (small_tx t) as Hst by (unfold small_tx, small in *; lia).
    pose proof (package_exact (cf_pool_size cf) (cf_gap cf) p1 Hp1 (cs_limit (nd_status n)) (env_of digest (nd_disk n)) _ _ Henv Hsm) as Hx.
    rewrite Een in Hx. assert (Forall (fun x : entry => small_tx x.1) [(t, false)]) as Hfa by (apply Forall_cons; split; [exact Hst|apply Forall_nil; exact I]).
    specialize (Hx Hfa). cbv zeta in Hx.
    rewrite filter_cons_True in Hx by exact Hal. rewrite filter_nil in Hx.
    assert (fit (cs_limit (nd_status n)) (@cons entry (t, false) []) = @cons entry (t, false) []) as Hfit.
    { cbn [fit]. unfold cycles. cbn [fst]. rewrite (proj2 (N.leb_le _ _) Hc). reflexivity. }
    unfold proposal in Hx. rewrite Hfit in Hx. cbn [length skipn map e_hash fst] in Hx.
    assert (mp_pooled p1 (st_tx_hash t) = Some t) as Hpt.
    { apply (pooled_entry _ _ _ Hp1). exists false. rewrite Een. split; [left|reflexivity]. }
    destruct (mp_package p1 (cs_limit (nd_status n)) (env_of digest (nd_disk n))) as [r2 p2] eqn:Epk. cbn [fst] in Hx. subst r2.
    destruct (package_facts (cf_pool_size cf) (cf_gap cf) p1 Hp1 _ _ _ _ Henv _ _ _ Epk) as (_ & _ & Hpp & Hlk).
    assert (mp_lookup p2 (st_tx_hash t) = Some t) as Hl2.
    { rewrite Hlk. assert (mp_pooled p2 (st_tx_hash t) = Some t) as ->; [|reflexivity]. apply Hpp. split; [exact Hpt|].
      apply alive_unexpired in Hal. exact Hal. }
    cbn [Consensus.run_call]. unfold abind at 1. unfold get_epoch. unfold abind at 1. unfold aget at 1.
    unfold abind at 1. unfold get_txs_from_mempool. cbn [nd_pool set_pool nd_status nd_disk]. rewrite Epk. cbn [map_err].
    rewrite decide_True by reflexivity. unfold abind at 1. unfold aupd at 1. unfold aret.
    eexists _, _, _. split; [reflexivity|]. repeat (split; [reflexivity|]). exact Hl2.
  Qed.
End Attack.
