(** * C102: only transactions of the chain, and only in time. *)
From Verif Require Import Base BaseFacts Hex Types Rlp RlpFacts FixedCodec CodecProps StateAdapter Executor ExecSpec ExecBlock ExecChain ExecMore
  Mempool MempoolSpec MempoolFacts MempoolProps MempoolMore
  Merkle Bincode ConsMsg Proto Wire WireFacts Storage StorageSpec StorageFacts Consensus ConsSpec ConsFacts ConsInv ConsChain ConsMore
  StuckFacts LedgerSpec LedgerFacts LedgerRun NodePool HaltFacts ImmutFacts HeaderFacts LatestFacts EndFacts
  PropExecutor PropMempool PropConsensus PropLedger PropKept PropEnd PropOnce PropOwn.
Local Open Scope N_scope.

(** Specification.  What other nodes hand over -- epochs to commit or to take
    over, transactions -- names the configured chain. *)
Definition of_this_chain (cf : config) (m : machine) (e : event) : Prop :=
  forall c, event_call e = Some c ->
    Forall (fun ep => eh_chain_id (ep_header ep) = cf_chain_id cf) (call_epochs c) /\
    Forall (fun t => rt_chain_id (st_raw t) = cf_chain_id cf) (pulled c).

Lemma ok_window (digest : bytes -> hash) (verify : bytes -> bytes -> bytes -> bool) (gap : u64) (e : env) (t : signed_tx) :
  tx_ok digest verify gap e t -> exists epoch, en_latest e = Ok (rt_chain_id (st_raw t), epoch) /\
    (epoch : N) <= rt_timeout (st_raw t) /\ (rt_timeout (st_raw t) : N) <= wrap64 (epoch + gap).
Proof.
  unfold tx_ok, check_signature, check_transaction. intros Hok.
  destruct (verify _ _ _); [|discriminate Hok]. cbn [rbind] in Hok.
  destruct (decide _); [|discriminate Hok]. destruct (en_latest e) as [[ch epoch]|x|]; cbn [rbind] in Hok; [|discriminate Hok..].
  destruct (decide (ch = rt_chain_id (st_raw t))) as [-> |]; [|discriminate Hok].
  destruct (N.ltb_spec (wrap64 (epoch + gap)) (rt_timeout (st_raw t))) as [|H1]; [discriminate Hok|].
  destruct (N.ltb_spec (rt_timeout (st_raw t)) epoch) as [|H2]; [discriminate Hok|].
  exists epoch. auto.
Qed.

Section Chain.
  Context (digest : bytes -> hash) (root_of : gmap bytes bytes -> hash) (show : exec_err -> rstring)
          (verify : bytes -> bytes -> bytes -> bool) (shapes : nat -> shape) (cf : config).
  Notation run_call := (run_call digest root_of show verify shapes cf).
  Notation history := (Consensus.history digest root_of show verify shapes cf).
  Notation happens := (happens digest root_of show verify shapes cf).
  Notation along := (along digest root_of show verify shapes cf).
  Notation epochs_ok := (epochs_ok digest root_of show verify shapes cf).

  Lemma chain_seen (l : list event) : forall m, along (of_this_chain cf) m l ->
    Forall (fun ep => eh_chain_id (ep_header ep) = cf_chain_id cf) (epochs_seen digest root_of show verify shapes cf m l).
  Proof.
    induction l as [|e l IH]; intros m; cbn [ConsSpec.along ConsSpec.epochs_seen]; [constructor|]. intros [H1 H2].
    apply Forall_app. split; [|apply IH, H2]. unfold event_epochs.
    destruct e as [c|c k|o1 o2|o1 o2 k]; [exact (proj1 (H1 c eq_refl))..| |];
      destruct (genesis_state digest root_of cf o1 o2 (disk m).2) as [[root tr]|x|]; constructor; try constructor; reflexivity.
  Qed.
  Lemma latest_chain (l : list event) (n : node) e : epochs_ok l -> along (of_this_chain cf) (Down (∅, ∅)) l -> history l = Up n ->
    get_latest_epoch rocks_col digest (nd_disk n).1 = Ok e -> eh_chain_id (ep_header e) = cf_chain_id cf.
  Proof.
    intros Hok Hc Hh Hl. pose proof (latest_all digest root_of show verify shapes cf _ l e Hok (chain_seen l _ Hc)) as H. rewrite Hh in H. apply H, Hl.
  Qed.
  (** Everything the node holds is of the chain. *)
  Lemma chain_held (l : list event) (n : node) : epochs_ok l -> along (of_this_chain cf) (Down (∅, ∅)) l -> history l = Up n ->
    all_in (fun t => rt_chain_id (st_raw t) = cf_chain_id cf) n.
  Proof.
    intros Hok Hc Hh.
    assert (forall l1 l2, l = l1 ++ l2 ->
      along (handed digest verify cf (fun t => rt_chain_id (st_raw t) = cf_chain_id cf)) (Down (∅, ∅)) l1) as G.
    { intros l1. induction l1 as [|e l1 IH] using rev_ind; intros l2 ->; [exact I|].
      rewrite <- app_assoc in *. specialize (IH _ eq_refl). apply along_app. split; [exact IH|]. split; [|exact I].
      change (fold_left happens l1 (Down (∅, ∅))) with (history l1).
      apply along_app in Hc as [Hc1 [Hc2 _]]. intros c Ec. split.
      - destruct (Hc2 c Ec) as [_ A]. rewrite Forall_forall in A. exact A.
      - intros n0 net t s Em _ Ht. apply ok_window in Ht as (ep & Hep & _). cbn [env_of en_latest] in Hep.
        destruct (get_latest_epoch rocks_col digest (nd_disk n0).1) as [e0|x|] eqn:El; [|destruct x; discriminate Hep|discriminate Hep].
        injection Hep as <- _. apply (latest_chain l1 n0 e0); [|exact Hc1|exact Em|exact El].
        apply (epochs_ok_prefix _ _ _ _ _ _ l1 _ Hok). }
    apply (all_in_history digest root_of show verify shapes cf _ l n); [|exact Hh]. apply (G l []). rewrite app_nil_r. reflexivity.
  Qed.
End Chain.

(** ** Whatever block the node executes (for a commit or while catching up,
    completed or not), its transactions name the configured chain, provided what
    other nodes hand over does; so does the node's latest epoch. *)
Theorem C102_only_its_chain :
  forall digest root_of show verify shapes cf l1 e l2 (n : node) c x txs x',
  epochs_ok digest root_of show verify shapes cf (l1 ++ e :: l2) ->
  along digest root_of show verify shapes cf (of_this_chain cf) (Down (∅, ∅)) (l1 ++ e :: l2) ->
  history digest root_of show verify shapes cf l1 = Up n -> event_call e = Some c ->
  (forall ep, get_latest_epoch rocks_col digest (nd_disk n).1 = Ok ep -> eh_chain_id (ep_header ep) = cf_chain_id cf) /\
  (runs_block digest root_of show cf n c x txs x' -> Forall (fun t => rt_chain_id (st_raw t) = cf_chain_id cf) txs).
Proof.
  intros digest root_of show verify shapes cf l1 e l2 n c x txs x' Hok Hch Hh He.
  pose proof (epochs_ok_prefix _ _ _ _ _ _ _ _ Hok) as Hok1. apply along_app in Hch as [H1 [H2 _]]. split.
  - intros ep. apply (latest_chain digest root_of show verify shapes cf l1 n ep Hok1 H1 Hh).
  - intros Hb. destruct (chain_held digest root_of show verify shapes cf l1 n Hok1 H1 Hh) as (_ & _ & A).
    destruct Hb as [os sent id p pf txs x resp x' Eb Hx Ex|os ep txs i r h sr x resp x' Eb Hx Ex].
    + exact (A id p pf txs Eb).
    + exact (proj2 (H2 _ He)).
Qed.
Print Assumptions C102_only_its_chain.

(** ** A node's own proposal for the next epoch names pooled transactions only
    whose timeouts are not before that epoch. *)
Theorem C102_own_proposals_in_time :
  forall digest root_of show verify shapes cf l (n : node) now p ph (n' : node) tr,
  epochs_ok digest root_of show verify shapes cf l ->
  along digest root_of show verify shapes cf one_more (Down (∅, ∅)) l ->
  history digest root_of show verify shapes cf l = Up n ->
  let id := cs_epoch_id (nd_status n) in id <> wrap64 0 ->
  run_call digest root_of show verify shapes cf (CallPropose id now) n = (Ok (RepPill p ph), n', tr) ->
  eh_epoch_id (ep_header (pl_epoch p)) = id /\
  forall h, h ∈ ep_ordered_tx_hashes (pl_epoch p) ++ pl_propose_hashes p ->
    exists t, mp_pooled (nd_pool n) h = Some t /\ (id : N) <= rt_timeout (st_raw t) /\
      (rt_timeout (st_raw t) : N) <= (id - 1 + cf_gap cf) mod two64.
Proof.
  intros digest root_of show verify shapes cf l n now p ph n' tr Hok Hom Hh id Hnz E.
  pose proof (keys_ne _ _ _ _ _ _ _ Hok) as HLP.
  pose proof (chain_history _ _ _ _ _ _ HLP l Hok Hom) as Hs. rewrite Hh in Hs. destruct Hs as [_ [(e & Hl & Hf & [Hm _] & _) _]].
  assert (get_latest_epoch rocks_col digest (nd_disk n).1 = Ok e) as Hle by (apply read_latest; assumption).
  assert (en_latest (env_of digest (nd_disk n)) = Ok (eh_chain_id (ep_header e), eh_epoch_id (ep_header e))) as Henv
    by (cbn [env_of en_latest]; rewrite Hle; reflexivity).
  destruct (pool_history _ _ _ _ _ _ _ _ Hh) as [ops Hops].
  cbn [run_call] in E. unfold get_epoch, abind, aget, get_txs_from_mempool, aupd, aret, alift in E.
  destruct (mp_package (nd_pool n) (cs_limit (nd_status n)) (env_of digest (nd_disk n))) as [r0 p0] eqn:Epk.
  destruct r0 as [[o u]|y|]; cbn [map_err] in E; [|discriminate E..]. destruct (decide _); [|discriminate E].
  injection E as <- _ _ _. cbn [pl_epoch pl_propose_hashes build_epoch ep_header eh_epoch_id ep_ordered_tx_hashes].
  split; [reflexivity|]. intros h Hin. rewrite Hops in Epk.
  destruct (C35_packaged_are_pooled_and_unexpired digest verify (cf_pool_size cf) (cf_gap cf) (cf_gap cf) ops _ _ _ _ _ _ _ Henv Epk) as [A _].
  destruct (A h Hin) as (t & T1 & T2 & T3). exists t. rewrite Hops. split; [exact T1|].
  pose proof (succ_id _ _ Hm Hnz) as Hid. fold id in Hid. rewrite Hid. split; [lia|].
  replace (eh_epoch_id (ep_header e) + 1 - 1 + cf_gap cf) with (eh_epoch_id (ep_header e) + cf_gap cf) by lia. exact T3.
Qed.
Print Assumptions C102_own_proposals_in_time.

(** ** The header's chain is not checked.  Somebody else's proposal of no
    transactions whose header names any other chain is accepted and committed;
    then every transaction of the configured chain is refused, and those of the
    other chain are accepted. *)
Theorem C102_renamed_refuted :
  forall digest root_of show verify shapes cf code qs l (n : node) hp p pl1 pl2 c (m : accounts) (b : assets) os,
  root_of ∅ = hash_from_empty digest -> parsed_genesis (cf_genesis cf) code qs -> states_ok digest root_of show verify shapes cf l ->
  along digest root_of show verify shapes cf replies_match (Down (∅, ∅)) l ->
  history digest root_of show verify shapes cf l = Up n -> nd_busy n = Idle ->
  ledger_at digest (nd_disk n) (cs_state_root (nd_status n)) m b -> (forall i, order_ok (os i)) ->
  hp ∉ nd_exempt n -> pl_propose_hashes p = [] -> ep_ordered_tx_hashes (pl_epoch p) = [] ->
  eh_chain_id (ep_header (pl_epoch p)) <> cf_chain_id cf ->
  cm_pill c = p -> length (cm_epoch_hash c) = 32%nat ->
  let id := cs_epoch_id (nd_status n) in
  let run_call := run_call digest root_of show verify shapes cf in
  epochs_ok digest root_of show verify shapes cf (l ++ [EvCall (CallCommit id c)]) ->
  exists n3 t3 n4 t4,
    run_call (CallCheck hp p pl1 pl2) n = (Ok (RepTxs []), n, []) /\
    run_call (CallCommit id c) n = (Ok RepUnit, n3, t3) /\
    run_call (CallCommitRest os (Ok tt)) n3 = (Ok RepUnit, n4, t4) /\
    (db_fits (nd_disk n4).1 ->
       get_latest_epoch rocks_col digest (nd_disk n4).1 = Ok (pl_epoch p) /\
       (forall net t sent, rt_chain_id (st_raw t) = cf_chain_id cf -> is_ok (run_call (CallInsert net t sent) n4).1.1 = false) /\
       (forall net t, rt_chain_id (st_raw t) = eh_chain_id (ep_header (pl_epoch p)) -> signed digest verify t ->
          (eh_epoch_id (ep_header (pl_epoch p)) : N) <= rt_timeout (st_raw t) ->
          rt_timeout (st_raw t) <= (eh_epoch_id (ep_header (pl_epoch p)) + cf_gap cf) mod two64 ->
          get_transaction_by_hash rocks_col (nd_disk n4).1 (st_tx_hash t) = Err GetNone ->
          (mp_len (nd_pool n4) < cf_pool_size cf)%nat -> (mp_slots (nd_pool n4) < 4 * cf_pool_size cf)%nat ->
          mp_contains (nd_pool n4) (st_tx_hash t) = false ->
          (run_call (CallInsert net t (Ok tt)) n4).1.1 = Ok RepUnit)).
Proof.
  intros digest root_of show verify shapes cf code qs l n hp p pl1 pl2 c m b os Hr Hg0 Hst0 Hrm Hh Hb Hlg Ho Hx Hpr Hord Hne Hc Hlen id rc Hok. unfold rc. clear rc.
  assert (run_call digest root_of show verify shapes cf (CallCheck hp p pl1 pl2) n = (Ok (RepTxs []), n, [])) as E1.
  { cbn [run_call]. unfold abind at 1. unfold check_epoch. unfold abind at 1. unfold aget at 1.
    rewrite decide_False by exact Hx. rewrite Hpr, Hord. unfold abind at 1. unfold abind at 1.
    unfold sync_txs, mp_sync_propose_txs. cbn [tc_show_unknown filter list_filter map_err].
    unfold check_txs, mp_ensure_order_txs. cbn [tc_show_unknown filter list_filter map_err nd_pool set_pool].
    destruct n; reflexivity. }
  assert (exists eh, hash_from_bytes (cm_epoch_hash c) = Ok eh) as [eh Hhash].
  { exists (@Sized 32 (cm_epoch_hash c) (proj2 (Nat.eqb_eq _ _) Hlen)). apply hash_from_bytes_spec. reflexivity. }
  assert (mp_get_full_txs (nd_pool n) (ep_ordered_tx_hashes (pl_epoch (cm_pill c))) = Ok []) as Hg.
  { rewrite Hc, Hord. apply get_full_iff. constructor. }
  destruct (commit_goes digest root_of show verify shapes cf id c n eh [] Hb Hhash Hg) as (t3 & E3).
  match type of E3 with _ = (_, ?x, _) => set (n3 := x) in * end.
  destruct (ledger_open digest (nd_disk n) _ m b (cf_chain_id cf) id (cs_price (nd_status n)) (AUser (eh_proposer (ep_header (pl_epoch p)))) Hlg) as (x & Hx0 & X1 & X2).
  assert (wf_accounts (committed x)) as Hw.
  { destruct (C90_no_inflation digest root_of show verify shapes cf code qs l (cf_chain_id cf) (cs_state_root (nd_status n)) id
      (cs_price (nd_status n)) (AUser (eh_proposer (ep_header (pl_epoch p)))) x Hr Hg0 Hst0) as [F|[F _]].
    - rewrite Hh. exact Hx0.
    - apply (fl_kinds _ _ _ _ _ F).
    - rewrite F. apply map_Forall_empty. }
  assert (Hex : is_ok (exec digest root_of show os x []) = true).
  { destruct (exec_total_ok digest root_of show os x [] Ho (open_fresh _ _ _ _ _ _ _ _ Hx0) Hw (Forall_nil_2 _)) as (resp & x' & ->). reflexivity. }
  assert (nd_busy n3 = Committing id p (commit_proof c eh) []) as B3 by (unfold n3; cbn [nd_busy set_busy]; rewrite Hc; reflexivity).
  assert (Executor.from_root digest (cf_chain_id cf) (cs_state_root (nd_status n3)) (nd_disk n3).2 id (cs_price (nd_status n3))
       (AUser (eh_proposer (ep_header (pl_epoch p)))) = Ok x) as Hx3 by exact Hx0.
  pose proof (rest_done digest root_of show verify shapes cf os n3 id p _ [] x B3 Hx3 Hex) as Hd.
  destruct (run_call digest root_of show verify shapes cf (CallCommitRest os (Ok tt)) n3) as [[r n4] t4] eqn:E4. cbn [fst] in Hd. subst r.
  exists n3, t3, n4, t4. split; [exact E1|]. split; [exact E3|]. split; [exact E4|]. intros Hf.
  assert (history digest root_of show verify shapes cf (l ++ [EvCall (CallCommit id c)]) = Up n3) as Hh3
    by (eapply history_call; [exact Hh|exact E3]).
  assert (along digest root_of show verify shapes cf replies_match (Down (∅, ∅)) (l ++ [EvCall (CallCommit id c)])) as Hrm3.
  { apply along_app. split; [exact Hrm|]. cbn [along]. split; exact I. }
  destruct (C60_commit_finishes digest root_of show verify shapes cf _ n3 id p _ [] os RepUnit n4 t4 Hok Hrm3 Hh3 B3 E4 Hf) as (_ & Hl & _).
  assert (Hh4 : history digest root_of show verify shapes cf ((l ++ [EvCall (CallCommit id c)]) ++ [EvCall (CallCommitRest os (Ok tt))]) = Up n4)
    by (eapply history_call; [exact Hh3|exact E4]).
  pose proof (node_inv _ _ _ _ _ _ _ _ Hh4) as Hp4.
  assert (en_latest (env_of digest (nd_disk n4)) = Ok (eh_chain_id (ep_header (pl_epoch p)), eh_epoch_id (ep_header (pl_epoch p)))) as Henv
    by (cbn [env_of en_latest]; rewrite Hl; reflexivity).
  split; [exact Hl|]. split.
  - intros net t sent Ht. cbn [run_call].
    pose proof (insert_outcome digest verify _ (cf_gap cf) _ (nd_pool n4) net t (env_of digest (nd_disk n4)) sent Hp4) as G.
    destruct (mp_insert _ _ _ _ _ _ _ _) as [r0 q]. destruct G as (_ & _ & [(Ha & _)|(_ & Hr0 & _)]).
    + exfalso. destruct Ha as (_ & _ & Ha & _). apply ok_window in Ha as (ep & Hep & _). rewrite Henv in Hep. injection Hep as Hep _.
      apply Hne. congruence.
    + destruct r0 as [u|y|]; [destruct (Hr0 u eq_refl)|reflexivity..].
  - intros net t Ht [S1 S2] T1 T2 Hst Hln Hsl Hct. cbn [run_call].
    pose proof (insert_outcome digest verify _ (cf_gap cf) _ (nd_pool n4) net t (env_of digest (nd_disk n4)) (Ok tt) Hp4) as G.
    destruct (mp_insert _ _ _ _ _ _ _ _) as [r0 q]. destruct G as (_ & _ & [(_ & -> & _)|(Hn & _)]); [destruct net; reflexivity|].
    exfalso. apply Hn. split; [exact Hln|]. split; [exact Hct|]. split; [|exact Hsl].
    unfold tx_ok, check_signature, check_transaction. rewrite S2. cbn [rbind]. rewrite decide_True by (symmetry; exact S1).
    rewrite Henv. cbn [rbind]. rewrite decide_True by (symmetry; exact Ht).
    destruct (N.ltb_spec (wrap64 (eh_epoch_id (ep_header (pl_epoch p)) + cf_gap cf)) (rt_timeout (st_raw t))) as [Hlt|_].
    { exfalso. change (u64v (wrap64 (eh_epoch_id (ep_header (pl_epoch p)) + cf_gap cf))) with ((eh_epoch_id (ep_header (pl_epoch p)) + cf_gap cf) mod two64) in Hlt. lia. }
    destruct (N.ltb_spec (rt_timeout (st_raw t)) (eh_epoch_id (ep_header (pl_epoch p)))) as [Hlt|_]; [lia|]. cbn [rbind].
    unfold check_storage_exist. cbn [env_of en_stored]. rewrite Hst. reflexivity.
Qed.
Print Assumptions C102_renamed_refuted.

(** ** Nothing else looks at a transaction's chain and timeout: a transfer of
    another chain, or one that has timed out, is carried out when somebody
    proposes it. *)
Theorem C102_executed_anyway_refuted :
  forall digest root_of show verify shapes cf code qs l (n : node) hp p pl1 c (t : signed_tx) (from to : user_address) cr
    (m : accounts) (b : assets) os,
  root_of ∅ = hash_from_empty digest -> parsed_genesis (cf_genesis cf) code qs ->
  along digest root_of show verify shapes cf replies_match (Down (∅, ∅)) l ->
  history digest root_of show verify shapes cf l = Up n -> nd_busy n = Idle ->
  (* another chain's, or too late *)
  rt_chain_id (st_raw t) <> cf_chain_id cf \/ (rt_timeout (st_raw t) : N) < cs_epoch_id (nd_status n) ->
  mp_lookup (nd_pool n) (st_tx_hash t) = None ->
  (* somebody else proposes it *)
  hp ∉ nd_exempt n -> pl_propose_hashes p = [] -> ep_ordered_tx_hashes (pl_epoch p) = [st_tx_hash t] ->
  (* the sender can pay *)
  rt_action (st_raw t) = Transfer to cr -> is_sender digest t (AUser from) ->
  ledger_at digest (nd_disk n) (cs_state_root (nd_status n)) m b ->
  is_Some (b !! cr_asset_id cr) -> 0 < cr_amount cr -> cr_amount cr <= bal m (AUser from) (cr_asset_id cr) ->
  210 <= fee_cycle (rt_fee (st_raw t)) ->
  cm_pill c = p -> length (cm_epoch_hash c) = 32%nat ->
  let id := cs_epoch_id (nd_status n) in
  let run_call := run_call digest root_of show verify shapes cf in
  let l' := l ++ [EvCall (CallCheck hp p pl1 (Ok [t])); EvCall (CallCommit id c); EvCall (CallCommitRest os (Ok tt))] in
  states_ok digest root_of show verify shapes cf l' -> epochs_ok digest root_of show verify shapes cf l' ->
  exists n2 n3 t3 n4 t4,
    run_call (CallCheck hp p pl1 (Ok [t])) n = (Ok (RepTxs [t]), n2, []) /\
    run_call (CallCommit id c) n2 = (Ok RepUnit, n3, t3) /\
    run_call (CallCommitRest os (Ok tt)) n3 = (Ok RepUnit, n4, t4) /\
    history digest root_of show verify shapes cf l' = Up n4 /\
    (db_fits (nd_disk n4).1 -> exists m' b',
       ledger_at digest (nd_disk n4) (cs_state_root (nd_status n4)) m' b' /\
       forall x asset,
         bal m' x asset + (if decide (x = AUser from /\ asset = cr_asset_id cr) then cr_amount cr else 0)
         = bal m x asset + (if decide (x = AUser to /\ asset = cr_asset_id cr) then cr_amount cr else 0)).
Proof.
  intros digest root_of show verify shapes cf code qs l n hp p pl1 c t from to cr m b os Hr Hg Hns Hh Hb _ Hlk Hx Hpr Hord
    Hact Hsnd Hlg Has Hpos Hbal Hfee Hc Hlen id rc l' Hst Hep.
  exact (proposed_transfer digest root_of show verify shapes cf code qs l n hp p pl1 c t from to cr m b os Hr Hg Hns Hh Hb Hlk Hx Hpr Hord
    Hact Hsnd Hlg Has Hpos Hbal Hfee Hc Hlen Hst Hep).
Qed.
Print Assumptions C102_executed_anyway_refuted.
