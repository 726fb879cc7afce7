(** * C29: from a client's request to the committed state. *)
From Verif Require Import Base BaseFacts Hex Types Rlp RlpFacts FixedCodec StateAdapter Executor ExecSpec ExecBlock ExecChain ExecMore
  Mempool MempoolSpec MempoolFacts MempoolProps MempoolMore
  Merkle Bincode ConsMsg Proto Wire WireFacts Storage StorageSpec StorageFacts Consensus ConsSpec ConsFacts ConsInv ConsChain ConsMore
  StuckFacts LedgerSpec LedgerFacts LedgerRun NodePool HaltFacts ImmutFacts HeaderFacts Api ApiSpec ApiFacts EndFacts
  PropExecutor PropLedger PropConsensus PropApi.
Local Open Scope N_scope.

(** The accounts and assets of the state with root [root] on a disk. *)
Definition ledger_at (digest : bytes -> hash) (d : durable) (root : hash) (m : accounts) (b : assets) : Prop :=
  exists chain e p cb x, Executor.from_root digest chain root (snd d) e p cb = Ok x /\ committed x = m /\ committed_assets x = b.

Lemma ledger_open (digest : bytes -> hash) (d : durable) (root : hash) (m : accounts) (b : assets) (chain : hash) (e p : u64) (cb : address) : ledger_at digest d root m b ->
  exists x, Executor.from_root digest chain root (snd d) e p cb = Ok x /\ committed x = m /\ committed_assets x = b.
Proof.
  intros (chain0 & e0 & p0 & cb0 & x & H & <- & <-). unfold from_root in *.
  apply rbind_ok in H as (top & H1 & H). apply rbind_ok in H as (acc & H2 & H).
  apply rbind_ok in H as (bank & H3 & H). injection H as <-.
  exists (MkExec chain e p cb top acc bank (snd d)). split; [|split; reflexivity].
  apply rbind_ok. exists top. split; [exact H1|]. apply rbind_ok. exists acc. split; [exact H2|]. apply rbind_ok. exists bank.
  split; [exact H3|reflexivity].
Qed.

Lemma open_ctx (digest : bytes -> hash) (chain root : hash) (db : trie_db) (e p : u64) (cb : address) (x : executor) :
  Executor.from_root digest chain root db e p cb = Ok x -> x_epoch_id x = e.
Proof.
  unfold from_root. intros H. apply rbind_ok in H as (top & _ & H). apply rbind_ok in H as (acc & _ & H).
  apply rbind_ok in H as (bank & _ & H). injection H as <-. reflexivity.
Qed.

Lemma block_done :
  forall digest root_of show verify shapes cf code qs l (n : node) id p pf txs os rep (n' : node) tr,
  root_of ∅ = hash_from_empty digest -> parsed_genesis (cf_genesis cf) code qs ->
  states_ok digest root_of show verify shapes cf (l ++ [EvCall (CallCommitRest os (Ok tt))]) ->
  history digest root_of show verify shapes cf l = Up n -> nd_busy n = Committing id p pf txs ->
  run_call digest root_of show verify shapes cf (CallCommitRest os (Ok tt)) n = (Ok rep, n', tr) ->
  db_fits (nd_disk n').1 -> NoDup (map st_tx_hash txs) -> Forall tx_plain txs ->
  exists x x' resp,
    Executor.from_root digest (cf_chain_id cf) (cs_state_root (nd_status n)) (nd_disk n).2 id (cs_price (nd_status n))
      (AUser (eh_proposer (ep_header (pl_epoch p)))) = Ok x /\
    exec digest root_of show os x txs = Ok (resp, x') /\
    ledger_at digest (nd_disk n') (cs_state_root (nd_status n')) (committed x') (committed_assets x') /\
    length (er_receipts resp) = length txs /\
    (forall i t r, txs !! i = Some t -> er_receipts resp !! i = Some r ->
       get_transaction_by_hash rocks_col (nd_disk n').1 (st_tx_hash t) = Ok t /\
       get_receipt rocks_col (nd_disk n').1 (st_tx_hash t) = Ok r /\
       rc_epoch_id r = id /\ rc_tx_hash r = st_tx_hash t /\ rc_state_root r = cs_state_root (nd_status n')) /\
    (forall a asset, bal (committed x') a asset + sum_succeeded (fun t => amount_sent digest t a asset) txs (er_receipts resp)
       = bal (committed x) a asset + sum_succeeded (fun t => amount_received t a asset) txs (er_receipts resp)) /\
    (forall asset v, committed_assets x !! asset = Some v -> committed_assets x' !! asset = Some v).
Proof.
  intros digest root_of show verify shapes cf code qs l n id p pf txs os rep n' tr Hr Hg Hst Hh Eb E Hf Hnd Hpl.
  pose proof (states_ok_prefix _ _ _ _ _ _ _ _ Hst) as Hst0.
  cbn [run_call] in E. unfold abind at 1 in E.
  destruct (commit_finish digest root_of show shapes cf os (Ok tt) n) as [[r1 n1] t1] eqn:E1. apply commit_finish_out in E1.
  destruct r1 as [[]|x|]; [|discriminate E..]. cbn [aret] in E. injection E as _ <- _.
  inversion E1 as [|id' p' pf' txs' r1' Eb' Hr1|id' p' pf' txs' resp tr' lo Eb' Hx El]; subst.
  { discriminate Hr1. }
  rewrite Eb in Eb'. injection Eb' as <- <- <- <-. cbn [nd_disk nd_status nd_busy nd_out fst snd] in *.
  rewrite applied_db in *.
  destruct Hx as (x & x' & Hx & Ex & ->).
  destruct (exec_known _ _ _ _ _ _ l n os (Ok tt) id p pf txs x resp x' Hh Eb Hst Hx Ex) as (Hsf & Hcl & Hos).
  pose proof (open_fresh _ _ _ _ _ _ _ _ Hx) as Hfr.
  assert (wf_accounts (committed x)) as Hw.
  { destruct (C90_no_inflation digest root_of show verify shapes cf code qs l (cf_chain_id cf) (cs_state_root (nd_status n)) id
      (cs_price (nd_status n)) (AUser (eh_proposer (ep_header (pl_epoch p)))) x Hr Hg Hst0) as [F|[F _]].
    - rewrite Hh. exact Hx.
    - apply (fl_kinds _ _ _ _ _ F).
    - rewrite F. apply map_Forall_empty. }
  destruct (C13_receipts_match_block digest root_of show os x txs resp x' Hos Hfr Hw Ex) as [Hlen Hrc].
  assert (map rc_tx_hash (er_receipts resp) = map st_tx_hash txs) as Hhs.
  { apply list_eq. intros i. rewrite !list_lookup_fmap. destruct (er_receipts resp !! i) as [r|] eqn:Er.
    - destruct (txs !! i) as [t|] eqn:Et.
      + cbn. f_equal. apply (Hrc i t r Et Er).
      + exfalso. apply lookup_lt_Some in Er. apply lookup_ge_None in Et. lia.
    - destruct (txs !! i) as [t|] eqn:Et; [|reflexivity]. exfalso. apply lookup_lt_Some in Et. apply lookup_ge_None in Er. lia. }
  assert (cs_state_root (new_status digest shapes (nd_status n) id (pl_epoch p) pf resp) = er_state_root resp) as Hroot by reflexivity.
  destruct (C24_reopen_after_exec digest root_of show os x txs resp x' [] (cf_chain_id cf) id (cs_price (nd_status n))
     (AUser (cf_self cf)) Hr ltac:(rewrite app_nil_r; exact Hcl) Hos Ex Hsf) as (y & Hy & _ & Y1 & Y2 & _).
  cbn [db_after] in Hy.
  exists x, x', resp. split; [exact Hx|]. split; [exact Ex|].
  split; [eexists _, _, _, _, y; split; [rewrite Hroot; exact Hy|auto]|].
  split; [exact Hlen|]. split; [|split].
  - intros i t r Ht Hri. destruct (Hrc i t r Ht Hri) as (R1 & R2 & R3 & _ & k & _ & _ & R6).
    assert (In1 : t ∈ txs) by (apply elem_of_list_lookup; eauto).
    assert (In2 : r ∈ er_receipts resp) by (apply elem_of_list_lookup; eauto).
    split; [|split; [|split; [|split]]].
    + apply tx_reads; [exact Hf|rewrite Forall_forall in Hpl; apply Hpl, In1|]. apply txs_stored; assumption.
    + rewrite <- R1. apply receipt_reads; [exact Hf| |].
      * unfold receipt_plain. destruct (rc_result r); try exact I. apply R6.
      * apply receipts_stored; [rewrite Hhs; exact Hnd|exact In2].
    + rewrite R2. apply (open_ctx _ _ _ _ _ _ _ _ Hx).
    + exact R1.
    + rewrite R3. symmetry. exact Hroot.
  - exact (C11_block_balances digest root_of show os x txs resp x' Hos Hfr Hw Ex).
  - intros asset v Hv. exact (C17_assets_never_lost_or_altered digest root_of show os x txs resp x' asset v Hos Hfr Hw Ex Hv).
Qed.

(** ** Every completed commit.  Afterwards the transactions of the block are
    stored as they are, each with its receipt, and the state root the node
    works on opens as the previous state changed by exactly the transfers whose
    receipts are successes. *)
Theorem C29_block_carried_out :
  forall digest root_of show verify shapes cf code qs l (n : node) id p pf txs os rep (n' : node) tr,
  root_of ∅ = hash_from_empty digest -> parsed_genesis (cf_genesis cf) code qs ->
  states_ok digest root_of show verify shapes cf (l ++ [EvCall (CallCommitRest os (Ok tt))]) ->
  history digest root_of show verify shapes cf l = Up n -> nd_busy n = Committing id p pf txs ->
  run_call digest root_of show verify shapes cf (CallCommitRest os (Ok tt)) n = (Ok rep, n', tr) ->
  db_fits (nd_disk n').1 -> NoDup (map st_tx_hash txs) -> Forall tx_plain txs ->
  exists m b m' b' rs,
    ledger_at digest (nd_disk n) (cs_state_root (nd_status n)) m b /\
    ledger_at digest (nd_disk n') (cs_state_root (nd_status n')) m' b' /\
    length rs = length txs /\
    (forall i t r, txs !! i = Some t -> rs !! i = Some r ->
       get_transaction_by_hash rocks_col (nd_disk n').1 (st_tx_hash t) = Ok t /\
       get_receipt rocks_col (nd_disk n').1 (st_tx_hash t) = Ok r /\
       rc_epoch_id r = id /\ rc_tx_hash r = st_tx_hash t /\ rc_state_root r = cs_state_root (nd_status n')) /\
    (forall a asset, bal m' a asset + sum_succeeded (fun t => amount_sent digest t a asset) txs rs
       = bal m a asset + sum_succeeded (fun t => amount_received t a asset) txs rs) /\
    (forall asset v, b !! asset = Some v -> b' !! asset = Some v).
Proof.
  intros digest root_of show verify shapes cf code qs l n id p pf txs os rep n' tr Hr Hg Hst Hh Eb E Hf Hnd Hpl.
  destruct (block_done digest root_of show verify shapes cf code qs l n id p pf txs os rep n' tr Hr Hg Hst Hh Eb E Hf Hnd Hpl)
    as (x & x' & resp & Hx & _ & L & Hn & Hrd & Hbl & Has).
  exists (committed x), (committed_assets x), (committed x'), (committed_assets x'), (er_receipts resp).
  split; [eexists _, _, _, _, x; split; [exact Hx|auto]|]. auto 10.
Qed.
Print Assumptions C29_block_carried_out.

(** A node that has the transfer in its pool commits an epoch made of it. *)
Lemma transfer_committed :
  forall digest root_of show verify shapes cf code qs l (n2 : node) id p c (t : signed_tx) (from to : user_address) cr
    (m : accounts) (b : assets) os,
  root_of ∅ = hash_from_empty digest -> parsed_genesis (cf_genesis cf) code qs ->
  along digest root_of show verify shapes cf replies_match (Down (∅, ∅)) l ->
  history digest root_of show verify shapes cf l = Up n2 -> nd_busy n2 = Idle -> mp_lookup (nd_pool n2) (st_tx_hash t) = Some t ->
  ep_ordered_tx_hashes (pl_epoch p) = [st_tx_hash t] -> cm_pill c = p -> length (cm_epoch_hash c) = 32%nat ->
  rt_action (st_raw t) = Transfer to cr -> is_sender digest t (AUser from) ->
  ledger_at digest (nd_disk n2) (cs_state_root (nd_status n2)) m b ->
  is_Some (b !! cr_asset_id cr) -> 0 < cr_amount cr -> cr_amount cr <= bal m (AUser from) (cr_asset_id cr) ->
  210 <= fee_cycle (rt_fee (st_raw t)) ->
  let l' := l ++ [EvCall (CallCommit id c); EvCall (CallCommitRest os (Ok tt))] in
  let run_call := run_call digest root_of show verify shapes cf in
  states_ok digest root_of show verify shapes cf l' -> epochs_ok digest root_of show verify shapes cf l' ->
  exists n3 t3 n4 t4,
    run_call (CallCommit id c) n2 = (Ok RepUnit, n3, t3) /\
    run_call (CallCommitRest os (Ok tt)) n3 = (Ok RepUnit, n4, t4) /\
    history digest root_of show verify shapes cf l' = Up n4 /\
    (exists pf, hash_from_bytes (cm_epoch_hash c) = Ok (pf_epoch_hash pf) /\ pf = commit_proof c (pf_epoch_hash pf) /\ nd_busy n3 = Committing id p pf [t]) /\
    (db_fits (nd_disk n4).1 ->
     get_latest_epoch rocks_col digest (nd_disk n4).1 = Ok (pl_epoch p) /\
     cs_epoch_id (nd_status n4) = wrap64 (id + 1) /\
     get_transaction_by_hash rocks_col (nd_disk n4).1 (st_tx_hash t) = Ok t /\
     exists m' b' r,
       ledger_at digest (nd_disk n4) (cs_state_root (nd_status n4)) m' b' /\
       get_receipt rocks_col (nd_disk n4).1 (st_tx_hash t) = Ok r /\ rc_epoch_id r = id /\
       rc_result r = RTransfer to (cr_asset_id cr) (bal m (AUser from) (cr_asset_id cr)) (bal m' (AUser from) (cr_asset_id cr)) /\
       forall x asset,
         bal m' x asset + (if decide (x = AUser from /\ asset = cr_asset_id cr) then cr_amount cr else 0)
         = bal m x asset + (if decide (x = AUser to /\ asset = cr_asset_id cr) then cr_amount cr else 0)).
Proof.
  intros digest root_of show verify shapes cf code qs l n2 id p c t from to cr m b os Hr Hg Hns Hh2 Hb2' Hlk Hord Hc Hlen
    Hact Hsnd Hlg Has Hpos Hbal Hfee l' rc Hst Hep.
  assert (hash_from_bytes (cm_epoch_hash c) = Ok (@Sized 32 (cm_epoch_hash c) (proj2 (Nat.eqb_eq _ _) Hlen))) as Hhash
    by (apply CodecProps.hash_from_bytes_spec; reflexivity).
  assert (mp_get_full_txs (nd_pool n2) (ep_ordered_tx_hashes (pl_epoch (cm_pill c))) = Ok [t]) as Hfull.
  { rewrite Hc, Hord. apply get_full_iff. constructor; [exact Hlk|constructor]. }
  destruct (commit_goes digest root_of show verify shapes cf id c n2 _ [t] Hb2' Hhash Hfull) as (t3 & En3).
  match type of En3 with _ = (_, ?x, _) => set (n3 := x) in En3 end.
  (* the history up to the start of the commit *)
  set (l3 := l ++ [EvCall (CallCommit id c)]).
  assert (l' = l3 ++ [EvCall (CallCommitRest os (Ok tt))]) as El' by (unfold l', l3; rewrite <- app_assoc; reflexivity).
  assert (history digest root_of show verify shapes cf l3 = Up n3) as Hh3.
  { unfold l3. eapply history_call; [exact Hh2|exact En3]. }
  assert (nd_busy n3 = Committing id p (commit_proof c (@Sized 32 (cm_epoch_hash c) (proj2 (Nat.eqb_eq _ _) Hlen))) [t]) as Hb3.
  { unfold n3. cbn [nd_busy set_busy]. rewrite Hc. reflexivity. }
  assert (nd_status n3 = nd_status n2) as Hs3 by reflexivity.
  assert ((nd_disk n3).2 = (nd_disk n2).2) as Hd3.
  { unfold n3. cbn [nd_disk set_busy set_pool set_disk]. unfold with_proof. reflexivity. }
  (* the state it runs on *)
  rewrite El' in Hst, Hep. pose proof (states_ok_prefix _ _ _ _ _ _ _ _ Hst) as Hst3. pose proof (epochs_ok_prefix _ _ _ _ _ _ _ _ Hep) as Hep3.
  assert (states_ok digest root_of show verify shapes cf l) as Hst0 by (exact (states_ok_prefix _ _ _ _ _ _ _ _ Hst3)).
  destruct (ledger_open digest (nd_disk n2) _ m b (cf_chain_id cf) id (cs_price (nd_status n2)) (AUser (eh_proposer (ep_header (pl_epoch p)))) Hlg)
    as (x & Hx & Xm & Xb).
  pose proof (open_fresh _ _ _ _ _ _ _ _ Hx) as Hfr.
  assert (wf_accounts (committed x)) as Hw.
  { destruct (C90_no_inflation digest root_of show verify shapes cf code qs l (cf_chain_id cf) (cs_state_root (nd_status n2)) id
      (cs_price (nd_status n2)) (AUser (eh_proposer (ep_header (pl_epoch p)))) x Hr Hg Hst0) as [F|[F _]].
    - rewrite Hh2. exact Hx.
    - apply (fl_kinds _ _ _ _ _ F).
    - rewrite F. apply map_Forall_empty. }
  assert (Hx3 : Executor.from_root digest (cf_chain_id cf) (cs_state_root (nd_status n3)) (nd_disk n3).2 id (cs_price (nd_status n3))
       (AUser (eh_proposer (ep_header (pl_epoch p)))) = Ok x) by (rewrite Hs3, Hd3; exact Hx).
  assert (forall i0, order_ok (os i0)) as Hos.
  { destruct Hst as [Ho _ _]. apply along_app in Ho as [_ [Ho _]]. exact Ho. }
  assert (supported t) as Hsup by (unfold supported; rewrite Hact; exact I).
  assert (is_Some (committed x !! AUser from)) as Hacc.
  { rewrite Xm. unfold bal in Hbal. destruct (m !! AUser from); [eauto|lia]. }
  destruct (exec_total_ok digest root_of show os x [t] Hos Hfr Hw) as (resp & x' & Ex).
  { constructor; [|constructor]. split; [exact Hsup|]. exists (AUser from). auto. }
  assert (is_ok (exec digest root_of show os x [t]) = true) as Hok by (rewrite Ex; reflexivity).
  pose proof (rest_done digest root_of show verify shapes cf os n3 id p _ [t] x Hb3 Hx3 Hok) as Hd.
  destruct (run_call digest root_of show verify shapes cf (CallCommitRest os (Ok tt)) n3) as [[r4 n4] t4] eqn:En4. cbn [fst] in Hd. subst r4.
  exists n3, t3, n4, t4. split; [exact En3|]. split; [exact En4|].
  split; [rewrite El'; eapply history_call; [exact Hh3|exact En4]|].
  split; [eexists; split; [|split; [|exact Hb3]]; [exact Hhash|reflexivity]|].
  intros Hf4.
  assert (along digest root_of show verify shapes cf replies_match (Down (∅, ∅)) l3) as Hrm.
  { unfold l3. apply along_app. split.
    - exact Hns.
    - cbn [along]. repeat (split; [exact I|]). exact I. }
  destruct (C60_commit_finishes digest root_of show verify shapes cf l3 n3 id p _ [t] os RepUnit n4 t4 Hep3 Hrm Hh3 Hb3 En4 Hf4)
    as (_ & Hl4 & _ & _ & Hi4 & _ & _ & (x0 & x0' & resp0 & Hx0 & Ex0 & Hr0 & Hd0) & _).
  rewrite Hx3 in Hx0. injection Hx0 as <-. rewrite Ex in Ex0. injection Ex0 as <- <-.
  split; [exact Hl4|]. split; [exact Hi4|].
  assert (Forall tx_plain [t]) as Hpl by (constructor; [unfold tx_plain; rewrite Hact; exact I|constructor]).
  assert (NoDup (map st_tx_hash [t])) as Hnd by (cbn [map]; apply NoDup_singleton).
  destruct (block_done digest root_of show verify shapes cf code qs l3 n3 id p _ [t] os RepUnit n4 t4 Hr Hg Hst Hh3 Hb3 En4 Hf4 Hnd Hpl)
    as (x1 & x1' & resp1 & Hx1 & Ex1 & L' & Hlen' & Hrd & Hbl & _).
  rewrite Hx3 in Hx1. injection Hx1 as <-. rewrite Ex in Ex1. injection Ex1 as <- <-.
  destruct (single_transfer digest root_of show os x t resp x' to cr (AUser from) Hos Hfr Hw Hact Hsnd ltac:(eauto) Ex
    ltac:(rewrite Xb; exact Has) Hpos ltac:(rewrite Xm; exact Hbal) Hfee) as (r & Er & Hsu & Hres).
  destruct (Hrd 0%nat t r eq_refl ltac:(rewrite Er; reflexivity)) as (T1 & T2 & T3 & T4 & T5). rewrite Er in Hbl.
  split; [exact T1|]. exists (committed x'), (committed_assets x'), r. split; [exact L'|]. split; [exact T2|]. split; [exact T3|].
  split; [rewrite Hres, Xm; reflexivity|].
  intros z asset. specialize (Hbl z asset). cbn [sum_succeeded] in Hbl. rewrite Hsu in Hbl.
  unfold amount_sent, amount_received in Hbl. rewrite Hact in Hbl.
  rewrite Xm in Hbl.
  destruct (decide (z = AUser from /\ asset = cr_asset_id cr)) as [[-> ->]|D].
  - rewrite (decide_True (P := address_bytes (AUser from) = sender_bytes digest t /\ _)) in Hbl by (split; [exact Hsnd|reflexivity]).
    destruct (decide (AUser from = AUser to /\ cr_asset_id cr = cr_asset_id cr)); lia.
  - rewrite (decide_False (P := address_bytes z = sender_bytes digest t /\ _)) in Hbl.
    + destruct (decide (z = AUser to /\ asset = cr_asset_id cr)); lia.
    + intros [D1 D2]. apply D. split; [|exact D2]. apply CodecProps.address_bytes_inj. rewrite D1. symmetry. exact Hsnd.
Qed.

(** ** One transfer, from the request to the state.  A client asks an idle
    node with an empty pool to send an amount the sender has; the node answers
    with a hash.  Then the node's next proposal consists of this transaction;
    committing the proposal succeeds; and the transaction and its receipt can
    be read, the receipt tells the sender's balance before and after, and in
    the state the node works on exactly this amount has moved. *)
Theorem C29_transfer_carried_out :
  forall digest root_of show verify shapes cf code qs l (n : node) i a en (t : signed_tx) h e now (from to : user_address) cr
    (m : accounts) (b : assets) os,
  root_of ∅ = hash_from_empty digest -> parsed_genesis (cf_genesis cf) code qs ->
  along digest root_of show verify shapes cf replies_match (Down (∅, ∅)) l ->
  (* the node *)
  history digest root_of show verify shapes cf l = Up n -> nd_busy n = Idle -> mp_len (nd_pool n) = 0%nat ->
  get_latest_epoch rocks_col digest (nd_disk n).1 = Ok e ->
  (* the request and its answer *)
  plain_raw i -> plain_transfer a -> plain_enc en ->
  send_transfer (fun t => fst (mp_insert digest verify (cf_gap cf) (nd_pool n) false t (env_of digest (nd_disk n)) (Ok tt))) i a en = (Some t, Ok h) ->
  (* what it asks for can be done *)
  rt_action (st_raw t) = Transfer to cr -> is_sender digest t (AUser from) ->
  ledger_at digest (nd_disk n) (cs_state_root (nd_status n)) m b ->
  is_Some (b !! cr_asset_id cr) -> 0 < cr_amount cr -> cr_amount cr <= bal m (AUser from) (cr_asset_id cr) ->
  210 <= fee_cycle (rt_fee (st_raw t)) -> fee_cycle (rt_fee (st_raw t)) <= cs_limit (nd_status n) -> small (cs_limit (nd_status n)) ->
  eh_epoch_id (ep_header e) < rt_timeout (st_raw t) ->
  let id := cs_epoch_id (nd_status n) in
  let run_call := run_call digest root_of show verify shapes cf in
  exists n1 n2 p ph,
    run_call (CallInsert false t (Ok tt)) n = (Ok RepUnit, n1, []) /\
    run_call (CallPropose id now) n1 = (Ok (RepPill p ph), n2, []) /\
    ep_ordered_tx_hashes (pl_epoch p) = [st_tx_hash t] /\
    forall c, cm_pill c = p -> length (cm_epoch_hash c) = 32%nat ->
    let l' := l ++ [EvCall (CallInsert false t (Ok tt)); EvCall (CallPropose id now); EvCall (CallCommit id c);
                    EvCall (CallCommitRest os (Ok tt))] in
    states_ok digest root_of show verify shapes cf l' -> epochs_ok digest root_of show verify shapes cf l' ->
    exists n3 t3 n4 t4,
      run_call (CallCommit id c) n2 = (Ok RepUnit, n3, t3) /\
      run_call (CallCommitRest os (Ok tt)) n3 = (Ok RepUnit, n4, t4) /\
      history digest root_of show verify shapes cf l' = Up n4 /\
      (db_fits (nd_disk n4).1 ->
       get_latest_epoch rocks_col digest (nd_disk n4).1 = Ok (pl_epoch p) /\
       cs_epoch_id (nd_status n4) = wrap64 (id + 1) /\
       get_transaction_by_hash rocks_col (nd_disk n4).1 (st_tx_hash t) = Ok t /\
       exists m' b' r,
         ledger_at digest (nd_disk n4) (cs_state_root (nd_status n4)) m' b' /\
         get_receipt rocks_col (nd_disk n4).1 (st_tx_hash t) = Ok r /\ rc_epoch_id r = id /\
         rc_result r = RTransfer to (cr_asset_id cr) (bal m (AUser from) (cr_asset_id cr)) (bal m' (AUser from) (cr_asset_id cr)) /\
         forall x asset,
           bal m' x asset + (if decide (x = AUser from /\ asset = cr_asset_id cr) then cr_amount cr else 0)
           = bal m x asset + (if decide (x = AUser to /\ asset = cr_asset_id cr) then cr_amount cr else 0)).
Proof.
  intros digest root_of show verify shapes cf code qs l n i a en t h e now from to cr m b os Hr Hg Hns Hh Hb Hpool Hle Pi Pa Pe
    Hsend Hact Hsnd Hlg Has Hpos Hbal Hfee Hlim Hsm Hto id rc.
  apply (C80_send_transfer _ i a en Pi Pa Pe) in Hsend as [_ Hrep].
  assert (exists n1, rc (CallInsert false t (Ok tt)) n = (Ok RepUnit, n1, [])) as [n1 En1].
  { unfold rc. cbn [run_call]. destruct (mp_insert digest verify (cf_gap cf) (nd_pool n) false t (env_of digest (nd_disk n)) (Ok tt)) as [r0 p0].
    cbn [fst] in Hrep. destruct r0 as [u|x|]; cbn [reply_of] in Hrep; [|discriminate Hrep..]. eexists. reflexivity. }
  destruct (lone_proposal digest root_of show verify shapes cf l n n1 false t [] e now Hh Hpool Hle En1 Hsm Hlim Hto)
    as (p & ph & n2 & En2 & Hord & _ & Hpr & Hpid & Hb2 & Hs2 & Hd2 & Ho2 & Hlk). fold id in En2.
  exists n1, n2, p, ph. split; [exact En1|]. split; [exact En2|]. split; [exact Hord|].
  intros c Hc Hlen l' Hst Hep.
  set (l2 := l ++ [EvCall (CallInsert false t (Ok tt)); EvCall (CallPropose id now)]).
  assert (l' = l2 ++ [EvCall (CallCommit id c); EvCall (CallCommitRest os (Ok tt))]) as El' by (unfold l', l2; rewrite <- app_assoc; reflexivity).
  assert (history digest root_of show verify shapes cf l2 = Up n2) as Hh2.
  { unfold l2. change [EvCall (CallInsert false t (Ok tt)); EvCall (CallPropose id now)]
      with ([EvCall (CallInsert false t (Ok tt))] ++ [EvCall (CallPropose id now)]).
    rewrite !app_assoc. eapply history_call; [|exact En2]. eapply history_call; [exact Hh|exact En1]. }
  assert (along digest root_of show verify shapes cf replies_match (Down (∅, ∅)) l2) as Hns2.
  { unfold l2. apply along_app. split; [exact Hns|]. cbn [along]. repeat (split; [exact I|]). exact I. }
  rewrite El' in Hst, Hep |- *.
  assert (nd_busy n2 = Idle) as Hb2' by congruence.
  rewrite <- Hd2, <- Hs2 in Hlg.
  destruct (transfer_committed digest root_of show verify shapes cf code qs l2 n2 id p c t from to cr m b os Hr Hg Hns2 Hh2 Hb2' Hlk Hord Hc Hlen
    Hact Hsnd Hlg Has Hpos Hbal Hfee Hst Hep) as (n3 & t3 & n4 & t4 & K1 & K2 & K3 & _ & K4).
  exists n3, t3, n4, t4. auto.
Qed.
Print Assumptions C29_transfer_carried_out.
