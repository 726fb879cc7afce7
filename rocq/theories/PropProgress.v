(** * C95: a node's own proposals go through. *)
From Verif Require Import Base BaseFacts Hex Types FixedCodec StateAdapter Executor ExecSpec ExecBlock ExecMore
  Mempool MempoolSpec MempoolFacts MempoolProps MempoolMore
  Merkle Bincode ConsMsg Proto Wire WireFacts Storage StorageSpec StorageFacts Consensus ConsSpec ConsFacts ConsInv ConsChain
  StuckFacts LedgerSpec LedgerRun NodePool HaltFacts CodecProps PropConsensus PropLedger.
Local Open Scope N_scope.

(** A running node can always propose at its number (unless it does not know
    its latest epoch); what it proposes are distinct transactions of its pool
    that are not expired; checked by the node itself, the proposal gives exactly
    these transactions; an idle node accepts its commit. *)
Theorem C95_own_proposal_accepted :
  forall digest root_of show verify shapes cf l n e now,
  history digest root_of show verify shapes cf l = Up n ->
  get_latest_epoch rocks_col digest (nd_disk n).1 = Ok e ->
  let id := cs_epoch_id (nd_status n) in
  exists p h n1 txs,
    run_call digest root_of show verify shapes cf (CallPropose id now) n = (Ok (RepPill p h), n1, []) /\
    (let hd := ep_header (pl_epoch p) in
     eh_epoch_id hd = id /\ eh_pre_hash hd = cs_prev_hash (nd_status n) /\ eh_state_root hd = cs_state_root (nd_status n) /\
     eh_proposer hd = cf_self cf) /\
    nd_status n1 = nd_status n /\ nd_disk n1 = nd_disk n /\ nd_busy n1 = nd_busy n /\
    (* the transactions *)
    let hs := ep_ordered_tx_hashes (pl_epoch p) in
    NoDup hs /\ map st_tx_hash txs = hs /\
    Forall (fun t => mp_pooled (nd_pool n) (st_tx_hash t) = Some t /\ eh_epoch_id (ep_header e) < rt_timeout (st_raw t)) txs /\
    (* check_epoch and commit *)
    (forall pl1 pl2, exists n2, run_call digest root_of show verify shapes cf (CallCheck h p pl1 pl2) n1 = (Ok (RepTxs txs), n2, [])) /\
    (nd_busy n = Idle -> forall id' c, cm_pill c = p -> length (cm_epoch_hash c) = 32%nat ->
       exists pf n2 t2, run_call digest root_of show verify shapes cf (CallCommit id' c) n1 = (Ok RepUnit, n2, t2) /\
         nd_busy n2 = Committing id' p pf txs /\ nd_status n2 = nd_status n /\ (nd_disk n2).2 = (nd_disk n).2).
Proof.
  intros digest root_of show verify shapes cf l n e now Hh He id.
  destruct (pool_history _ _ _ _ _ _ _ _ Hh) as [ops Hops].
  pose proof (pool_inv digest verify (cf_pool_size cf) (cf_gap cf) (cf_gap cf) ops) as Hp. rewrite <- Hops in Hp.
  assert (en_latest (env_of digest (nd_disk n)) = Ok (eh_chain_id (ep_header e), eh_epoch_id (ep_header e))) as Henv.
  { cbn [env_of en_latest]. rewrite He. reflexivity. }
  destruct (package_lists (cf_pool_size cf) (cf_gap cf) (nd_pool n) Hp (cs_limit (nd_status n)) _ _ _ Henv)
    as (o & q & p' & Epk & _).
  destruct (package_facts (cf_pool_size cf) (cf_gap cf) (nd_pool n) Hp _ _ _ _ Henv _ _ _ Epk) as (Hnd & Hin & Hpp & Hlk).
  assert (exists txs, Forall2 (fun h t => mp_lookup p' h = Some t) o txs /\ map st_tx_hash txs = o /\
     Forall (fun t => mp_pooled (nd_pool n) (st_tx_hash t) = Some t /\ eh_epoch_id (ep_header e) < rt_timeout (st_raw t)) txs)
    as (txs & Hg & Hm & Hf).
  { assert (forall h, h ∈ o -> exists t, mp_pooled (nd_pool n) h = Some t /\ unexpired (cf_gap cf) (eh_epoch_id (ep_header e)) t /\ mp_pooled p' h = Some t) as Ho.
    { intros h Hh'. apply Hin, elem_of_app. auto. }
    clear -Ho Hlk Hp. induction o as [|h o IH]; [exists []; repeat constructor|].
    destruct IH as (txs & A & B & C); [intros k Hk; apply Ho; right; exact Hk|].
    destruct (Ho h ltac:(left)) as (t & T1 & T2 & T3). exists (t :: txs).
    assert (st_tx_hash t = h) as Eh by (apply (pooled_entry _ _ _ Hp) in T1 as (b & _ & X); exact X).
    split; [constructor; [rewrite Hlk, T3; reflexivity|exact A]|]. split; [cbn [map]; congruence|].
    constructor; [|exact C]. rewrite Eh. split; [exact T1|apply T2]. }
  apply NoDup_app in Hnd as [Hnd _].
  set (p := MkPill (build_epoch digest shapes cf (nd_status n) id now o) q). set (h := digest (enc_pill p)).
  assert (run_call digest root_of show verify shapes cf (CallPropose id now) n = (Ok (RepPill p h), add_exempt (set_pool n p') h, [])) as Ep.
  { cbn [Consensus.run_call]. unfold abind at 1. unfold get_epoch. unfold abind at 1. unfold aget at 1.
    unfold abind at 1. unfold get_txs_from_mempool. rewrite Epk. cbn [map_err].
    rewrite decide_True by reflexivity. unfold abind at 1. unfold aupd at 1. unfold aret. reflexivity. }
  exists p, h, (add_exempt (set_pool n p') h), txs. split; [exact Ep|].
  split; [repeat split; reflexivity|]. split; [reflexivity|]. split; [reflexivity|]. split; [reflexivity|].
  split; [exact Hnd|]. split; [exact Hm|]. split; [exact Hf|].
  assert (mp_get_full_txs p' o = Ok txs) as Hgf by (apply get_full_iff, Hg).
  split.
  - intros pl1 pl2. eexists. cbn [Consensus.run_call]. unfold abind at 1. unfold check_epoch. unfold abind at 1. unfold aget at 1.
    unfold abind at 1. cbn [nd_exempt add_exempt]. rewrite decide_True by left. unfold aret at 1.
    unfold get_full_txs. unfold abind at 1. unfold aget, alift. cbn [nd_pool add_exempt set_pool p pl_epoch build_epoch ep_ordered_tx_hashes].
    rewrite Hgf. reflexivity.
  - intros Hb id' c Hc Hlen.
    assert (hash_from_bytes (cm_epoch_hash c) = Ok (@Sized 32 (cm_epoch_hash c) (proj2 (Nat.eqb_eq _ _) Hlen))) as Hhash
      by (apply hash_from_bytes_spec; reflexivity).
    assert (mp_get_full_txs (nd_pool (add_exempt (set_pool n p') h)) (ep_ordered_tx_hashes (pl_epoch (cm_pill c))) = Ok txs) as Hg2.
    { rewrite Hc. exact Hgf. }
    assert (nd_busy (add_exempt (set_pool n p') h) = Idle) as Hb2 by exact Hb.
    destruct (commit_goes digest root_of show verify shapes cf id' c _ _ txs Hb2 Hhash Hg2) as (t3 & E3).
    eexists _, _, t3. split; [exact E3|]. rewrite Hc. split; [reflexivity|]. split; reflexivity.
Qed.
Print Assumptions C95_own_proposal_accepted.

(** A commit under way completes, whatever the iteration orders, if all its
    transactions are of a supported kind and of senders that have accounts: on
    a node that does not synchronise and is handed headers with its own state
    root, after any history with crashes and restarts. *)
Theorem C95_commit_completes :
  forall digest root_of show verify shapes cf code qs l n id p pf txs os,
  root_of ∅ = hash_from_empty digest ->
  parsed_genesis (cf_genesis cf) code qs ->
  states_ok digest root_of show verify shapes cf l ->
  epochs_ok digest root_of show verify shapes cf l ->
  along digest root_of show verify shapes cf never_syncs (Down (∅, ∅)) l ->
  along digest root_of show verify shapes cf roots_agree (Down (∅, ∅)) l ->
  history digest root_of show verify shapes cf l = Up n ->
  nd_busy n = Committing id p pf txs ->
  (forall i, order_ok (os i)) ->
  (* supported, and the sender has an account in the state the block runs on *)
  Forall (fun t => supported t /\ exists a, is_sender digest t a /\
    forall x, Executor.from_root digest (cf_chain_id cf) (cs_state_root (nd_status n)) (nd_disk n).2 id (cs_price (nd_status n))
      (AUser (eh_proposer (ep_header (pl_epoch p)))) = Ok x -> is_Some (committed x !! a)) txs ->
  exists n' t, run_call digest root_of show verify shapes cf (CallCommitRest os (Ok tt)) n = (Ok RepUnit, n', t) /\
    (db_fits (nd_disk n').1 ->
     get_latest_epoch rocks_col digest (nd_disk n').1 = Ok (pl_epoch p) /\
     complete (nd_disk n').1 (pl_epoch p) /\
     cs_epoch_id (nd_status n') = wrap64 (id + 1) /\
     nd_busy n' = Idle /\
     nd_out n' = nd_out n ++ [Rich (wrap64 (id + 1));
       RichStatus (wrap64 (id + 1)) (cs_interval (nd_status n)) (authority_list (cs_validators (nd_status n)))]).
Proof.
  intros digest root_of show verify shapes cf code qs l n id p pf txs os Hr Hg Hst Hok Hns Hra Hh Hb Hos Hk.
  destruct (C90_supply_kept digest root_of show verify shapes cf code qs l Hr Hg Hst Hok Hns Hra) as [_ Hop].
  rewrite Hh in Hop. specialize (Hop n eq_refl). cbn [disk] in Hop.
  destruct (Hop (cf_chain_id cf) id (cs_price (nd_status n)) (AUser (eh_proposer (ep_header (pl_epoch p))))) as (x & Hx & Hled).
  assert (Forall (fun t => supported t /\ exists a, is_sender digest t a /\ is_Some (committed x !! a)) txs) as Hk'.
  { eapply Forall_impl; [exact Hk|]. intros t (A & a & B & C). split; [exact A|]. exists a. split; [exact B|]. apply C, Hx. }
  destruct (exec_total_ok digest root_of show os x txs Hos (open_fresh _ _ _ _ _ _ _ _ Hx) (fl_kinds _ _ _ _ _ Hled) Hk') as (resp & x' & Ex).
  assert (is_ok (exec digest root_of show os x txs) = true) as He by (rewrite Ex; reflexivity).
  pose proof (rest_done digest root_of show verify shapes cf os n id p pf txs x Hb Hx He) as Hd.
  destruct (run_call digest root_of show verify shapes cf (CallCommitRest os (Ok tt)) n) as [[r n'] t] eqn:E. cbn [fst] in Hd. subst r.
  exists n', t. split; [reflexivity|]. intros Hf.
  assert (along digest root_of show verify shapes cf (replies_match) (Down (∅, ∅)) l) as Hrm.
  { clear -Hns. revert Hns. generalize (Down (∅, ∅)). induction l as [|ev l IH]; intros m; cbn [along]; [auto|].
    intros [A B]. split; [|apply IH, B]. unfold never_syncs in A. unfold replies_match.
    destruct (event_call ev) as [[]|]; try exact I; contradiction. }
  destruct (C60_commit_finishes digest root_of show verify shapes cf l n id p pf txs os RepUnit n' t Hok Hrm Hh Hb E Hf)
    as (_ & Hl & _ & Hc & Hi & _ & _ & _ & Hb' & Ho). auto 10.
Qed.
Print Assumptions C95_commit_completes.
