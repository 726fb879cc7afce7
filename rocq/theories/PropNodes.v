(** * C99: a transfer submitted to one node is carried out on the others. *)
From Verif Require Import Base BaseFacts Hex Types Rlp RlpFacts FixedCodec StateAdapter Executor ExecSpec ExecBlock ExecChain ExecMore
  Mempool MempoolSpec MempoolFacts MempoolProps MempoolMore PropConsMsg
  Merkle Bincode ConsMsg Proto Wire WireFacts Storage StorageSpec StorageFacts Consensus ConsSpec ConsFacts ConsInv ConsChain ConsMore
  StuckFacts LedgerSpec LedgerFacts LedgerRun NodePool HaltFacts ImmutFacts HeaderFacts Api ApiSpec ApiFacts EndFacts ReplicaSpec ReplicaFacts
  PropExecutor PropLedger PropConsensus PropApi PropReplica PropEnd.
Local Open Scope N_scope.

Section Nodes.
  Context (digest : bytes -> hash) (root_of : gmap bytes bytes -> hash) (show : exec_err -> rstring)
          (verify : bytes -> bytes -> bytes -> bool) (shapes : nat -> shape).
  Notation history cf := (Consensus.history digest root_of show verify shapes cf).
  Notation happens cf := (Consensus.happens digest root_of show verify shapes cf).
  Notation handed cf := (ReplicaSpec.handed digest root_of show verify shapes cf).
  Notation run_call cf := (Consensus.run_call digest root_of show verify shapes cf).

  Lemma handed_app cf (l k : list event) : forall m, handed cf m (l ++ k) = handed cf m l ++ handed cf (fold_left (happens cf) l m) k.
  Proof.
    induction l as [|e l IH]; intros m; cbn [app ReplicaSpec.handed fold_left]; [reflexivity|]. rewrite IH, app_assoc. reflexivity.
  Qed.
  Lemma happens_call cf c (n n' : node) r t : run_call cf c n = (r, n', t) -> happens cf (Up n) (EvCall c) = Up n'.
  Proof. intros E. cbn [Consensus.happens]. rewrite E. reflexivity. Qed.
  Lemma states_runs cf l : states_ok digest root_of show verify shapes cf l -> runs_ok digest root_of show verify shapes cf l.
  Proof.
    intros [H1 _ H3]. split; [exact H1|]. apply Forall_forall. intros x Hx. eapply clash_sub; [|exact H3]. intros m Hm. right.
    apply elem_of_list_In, in_concat. exists (tries_of x). split; [|apply elem_of_list_In, Hm]. apply in_map, elem_of_list_In, Hx.
  Qed.

  (** An accepted transaction is in the pool. *)
  Lemma inserted cf l (n n1 : node) net t t1 : history cf l = Up n -> run_call cf (CallInsert net t (Ok tt)) n = (Ok RepUnit, n1, t1) ->
    mp_lookup (nd_pool n1) (st_tx_hash t) = Some t /\ nd_busy n1 = nd_busy n /\ nd_status n1 = nd_status n /\ nd_disk n1 = nd_disk n /\
    t1 = [] /\ tx_ok digest verify (cf_gap cf) (env_of digest (nd_disk n)) t.
  Proof.
    intros Hh Ei. destruct (pool_history _ _ _ _ _ _ _ _ Hh) as [ops Hops].
    pose proof (pool_inv digest verify (cf_pool_size cf) (cf_gap cf) (cf_gap cf) ops) as Hp. rewrite <- Hops in Hp.
    cbn [Consensus.run_call] in Ei.
    pose proof (insert_outcome digest verify (cf_pool_size cf) (cf_gap cf) (cf_gap cf) (nd_pool n) net t (env_of digest (nd_disk n)) (Ok tt) Hp) as Ho.
    destruct (mp_insert digest verify (cf_gap cf) (nd_pool n) net t (env_of digest (nd_disk n)) (Ok tt)) as [r0 p1].
    destruct Ho as (Hp1 & _ & [(Ha & Hr & Een & _)|(_ & Hr & _)]).
    2:{ destruct r0 as [u|x|]; [destruct (Hr u eq_refl)|discriminate Ei..]. }
    assert (n1 = set_pool n p1 /\ t1 = []) as [-> ->] by (destruct r0; [injection Ei as <- <-; auto|discriminate Ei..]). clear Ei.
    split; [|split; [reflexivity|split; [reflexivity|split; [reflexivity|split; [reflexivity|]]]]].
    - cbn [nd_pool set_pool]. unfold mp_lookup.
      assert (mp_pooled p1 (st_tx_hash t) = Some t) as X.
      { apply (pooled_entry _ _ _ Hp1). exists false. rewrite Een. split; [apply elem_of_app; right; left|reflexivity]. }
      unfold mp_pooled in X. rewrite X. reflexivity.
    - apply Ha.
  Qed.
  (** A node with an empty pool accepts what passes its checks. *)
  Lemma accepts cf l (n : node) net t : history cf l = Up n -> mp_len (nd_pool n) = 0%nat -> (0 < cf_pool_size cf)%nat ->
    (mp_slots (nd_pool n) < 4 * cf_pool_size cf)%nat -> tx_ok digest verify (cf_gap cf) (env_of digest (nd_disk n)) t ->
    exists n1, run_call cf (CallInsert net t (Ok tt)) n = (Ok RepUnit, n1, []).
  Proof.
    intros Hh Hl H0 Hs Hok. destruct (pool_history _ _ _ _ _ _ _ _ Hh) as [ops Hops].
    pose proof (pool_inv digest verify (cf_pool_size cf) (cf_gap cf) (cf_gap cf) ops) as Hp. rewrite <- Hops in Hp.
    cbn [Consensus.run_call].
    pose proof (insert_outcome digest verify (cf_pool_size cf) (cf_gap cf) (cf_gap cf) (nd_pool n) net t (env_of digest (nd_disk n)) (Ok tt) Hp) as Ho.
    destruct (mp_insert digest verify (cf_gap cf) (nd_pool n) net t (env_of digest (nd_disk n)) (Ok tt)) as [r0 p1].
    destruct Ho as (Hp1 & _ & [(Ha & Hr & Een & _)|(Ha & _)]).
    - assert (r0 = Ok tt) as -> by (rewrite Hr; destruct net; reflexivity). eexists. reflexivity.
    - exfalso. apply Ha. split; [rewrite Hl; exact H0|]. split; [|split; [exact Hok|exact Hs]].
      destruct (mp_contains (nd_pool n) (st_tx_hash t)) eqn:Ec; [exfalso|reflexivity]. apply (contains_entry _ _ _ Hp) in Ec.
      rewrite (len_entries _ _ _ Hp) in Hl. apply nil_length_inv in Hl. rewrite Hl in Ec. inversion Ec.
  Qed.

  (** Nodes that agree check alike. *)
  Lemma agree_ok gap (n n' : node) t : agree digest n n' -> tx_ok digest verify gap (env_of digest (nd_disk n)) t ->
    tx_ok digest verify gap (env_of digest (nd_disk n')) t.
  Proof.
    intros A H. apply tx_ok_iff in H as (H1 & H2 & H3 & H4). apply tx_ok_iff. split; [exact H1|]. split; [exact H2|].
    cbn [env_of en_latest en_stored] in *. rewrite <- (ag_latest _ _ _ A), <- (ag_txs _ _ _ A). auto.
  Qed.
  Lemma agree_ledger (n n' : node) m b : agree digest n n' -> ledger_at digest (nd_disk n) (cs_state_root (nd_status n)) m b ->
    ledger_at digest (nd_disk n') (cs_state_root (nd_status n')) m b.
  Proof.
    intros A (chain & e & p & cb & x & H & H1). exists chain, e, p, cb, x. split; [|exact H1].
    rewrite <- (ag_state_root _ _ _ A), <- (ag_states _ _ _ A). exact H.
  Qed.
End Nodes.

(** Two nodes of one chain, handed the same blocks so far, both between
    commits.  A client asks the first for a transfer the sender can pay; the
    first answers with a hash.  Then the message it sends to the second is
    accepted there, the next proposal of the second consists of this
    transaction, and when both are told to commit it both complete; afterwards
    both nodes agree, and on each the transaction and its receipt can be read
    and exactly this amount has moved. *)
Theorem C99_transfer_everywhere :
  forall digest root_of show verify shapes cf cf' code qs oa ob oc od l l' (n n' : node) i a en (t : signed_tx) h e now
    (from to : user_address) cr (m : accounts) (b : assets) os os',
  root_of ∅ = hash_from_empty digest -> parsed_genesis (cf_genesis cf) code qs -> LATEST_EPOCH_KEY digest <> LATEST_PROOF_KEY digest ->
  same_rules cf cf' -> cf_gap cf = cf_gap cf' -> Forall plain_event l -> Forall plain_event l' ->
  let hist := EvBoot oa ob :: l in let hist' := EvBoot oc od :: l' in
  history digest root_of show verify shapes cf hist = Up n -> history digest root_of show verify shapes cf' hist' = Up n' ->
  handed digest root_of show verify shapes cf (Down (∅, ∅)) hist = handed digest root_of show verify shapes cf' (Down (∅, ∅)) hist' ->
  runs_ok digest root_of show verify shapes cf hist -> runs_ok digest root_of show verify shapes cf' hist' ->
  nd_busy n = Idle -> nd_busy n' = Idle ->
  mp_len (nd_pool n') = 0%nat -> (0 < cf_pool_size cf')%nat -> (mp_slots (nd_pool n') < 4 * cf_pool_size cf')%nat ->
  get_latest_epoch rocks_col digest (nd_disk n).1 = Ok e ->
  (* the request and its answer *)
  plain_raw i -> plain_transfer a -> plain_enc en ->
  send_transfer (fun t => fst (mp_insert digest verify (cf_gap cf) (nd_pool n) false t (env_of digest (nd_disk n)) (Ok tt))) i a en = (Some t, Ok h) ->
  fits (enc_txs [t]) ->
  (* what it asks for can be done *)
  rt_action (st_raw t) = Transfer to cr -> is_sender digest t (AUser from) ->
  ledger_at digest (nd_disk n) (cs_state_root (nd_status n)) m b ->
  is_Some (b !! cr_asset_id cr) -> 0 < cr_amount cr -> cr_amount cr <= bal m (AUser from) (cr_asset_id cr) ->
  210 <= fee_cycle (rt_fee (st_raw t)) -> fee_cycle (rt_fee (st_raw t)) <= cs_limit (nd_status n') -> small (cs_limit (nd_status n')) ->
  eh_epoch_id (ep_header e) < rt_timeout (st_raw t) ->
  let id := cs_epoch_id (nd_status n) in
  let rc := run_call digest root_of show verify shapes cf in
  let rc' := run_call digest root_of show verify shapes cf' in
  exists n1 n1' n2' p ph,
    rc (CallInsert false t (Ok tt)) n = (Ok RepUnit, n1, []) /\
    dec_txs (enc_txs [t]) = Ok [t] /\
    rc' (CallInsert true t (Ok tt)) n' = (Ok RepUnit, n1', []) /\
    rc' (CallPropose id now) n1' = (Ok (RepPill p ph), n2', []) /\
    ep_ordered_tx_hashes (pl_epoch p) = [st_tx_hash t] /\
    forall c, cm_pill c = p -> length (cm_epoch_hash c) = 32%nat ->
    let full := hist ++ [EvCall (CallInsert false t (Ok tt)); EvCall (CallCommit id c); EvCall (CallCommitRest os (Ok tt))] in
    let full' := hist' ++ [EvCall (CallInsert true t (Ok tt)); EvCall (CallPropose id now); EvCall (CallCommit id c);
                           EvCall (CallCommitRest os' (Ok tt))] in
    states_ok digest root_of show verify shapes cf full -> epochs_ok digest root_of show verify shapes cf full ->
    states_ok digest root_of show verify shapes cf' full' -> epochs_ok digest root_of show verify shapes cf' full' ->
    exists n4 n4',
      history digest root_of show verify shapes cf full = Up n4 /\ history digest root_of show verify shapes cf' full' = Up n4' /\
      nd_busy n4 = Idle /\ nd_busy n4' = Idle /\ agree digest n4 n4' /\
      (db_fits (nd_disk n4).1 -> db_fits (nd_disk n4').1 ->
       forall x, x = n4 \/ x = n4' ->
       get_latest_epoch rocks_col digest (nd_disk x).1 = Ok (pl_epoch p) /\
       cs_epoch_id (nd_status x) = wrap64 (id + 1) /\
       get_transaction_by_hash rocks_col (nd_disk x).1 (st_tx_hash t) = Ok t /\
       exists m' b' r,
         ledger_at digest (nd_disk x) (cs_state_root (nd_status x)) m' b' /\
         get_receipt rocks_col (nd_disk x).1 (st_tx_hash t) = Ok r /\ rc_epoch_id r = id /\
         rc_result r = RTransfer to (cr_asset_id cr) (bal m (AUser from) (cr_asset_id cr)) (bal m' (AUser from) (cr_asset_id cr)) /\
         forall y asset,
           bal m' y asset + (if decide (y = AUser from /\ asset = cr_asset_id cr) then cr_amount cr else 0)
           = bal m y asset + (if decide (y = AUser to /\ asset = cr_asset_id cr) then cr_amount cr else 0)).
Proof.
  intros digest root_of show verify shapes cf cf' code qs oa ob oc od l l' n n' i a en t h e now from to cr m b os os'
    Hr Hg Hk Hsr Hgap Hl Hl' hist hist' Hh Hh' Hhd Hru Hru' Hb Hb' Hpool Hsz Hsl Hle Pi Pa Pe Hsend Hft Hact Hsnd Hlg Has Hpos Hbal Hfee Hlim Hsm Hto id rc rc'.
  apply (C80_send_transfer _ i a en Pi Pa Pe) in Hsend as [_ Hrep].
  assert (exists n1, rc (CallInsert false t (Ok tt)) n = (Ok RepUnit, n1, [])) as [n1 En1].
  { unfold rc. cbn [run_call]. destruct (mp_insert digest verify (cf_gap cf) (nd_pool n) false t (env_of digest (nd_disk n)) (Ok tt)) as [r0 p0].
    cbn [fst] in Hrep. destruct r0 as [u|x|]; cbn [reply_of] in Hrep; [|discriminate Hrep..]. eexists. reflexivity. }
  destruct (inserted digest root_of show verify shapes cf hist n n1 false t [] Hh En1) as (Hlk1 & Hb1 & Hs1 & Hd1 & _ & Hok).
  pose proof (C91_same_blocks_same_chain digest root_of show verify shapes cf cf' oa ob oc od l l' n n' Hk Hsr Hl Hl' Hru Hru' Hh Hh' Hhd) as A.
  pose proof (agree_ok digest verify (cf_gap cf) n n' t A Hok) as Hok'. rewrite Hgap in Hok'.
  destruct (accepts digest root_of show verify shapes cf' hist' n' true t Hh' Hpool Hsz Hsl Hok') as [n1' En1'].
  pose proof Hle as Hle'. rewrite (ag_latest _ _ _ A) in Hle'.
  destruct (lone_proposal digest root_of show verify shapes cf' hist' n' n1' true t [] e now Hh' Hpool Hle' En1' Hsm Hlim Hto)
    as (p & ph & n2' & En2' & Hord & _ & _ & _ & Hb2' & Hs2' & Hd2' & _ & Hlk2').
  rewrite <- (ag_number _ _ _ A) in En2'. fold id in En2'.
  assert (tx_plain t) as Htp by (unfold tx_plain; rewrite Hact; exact I).
  exists n1, n1', n2', p, ph. split; [exact En1|]. split.
  { pose proof (C66_roundtrip_transactions [t] [] ltac:(repeat constructor; exact Htp) Hft) as X. rewrite app_nil_r in X. exact X. }
  split; [exact En1'|]. split; [exact En2'|]. split; [exact Hord|].
  intros c Hc Hlen full full' Hst Hep Hst' Hep'.
  (* the first node *)
  set (lA := hist ++ [EvCall (CallInsert false t (Ok tt))]).
  assert (full = lA ++ [EvCall (CallCommit id c); EvCall (CallCommitRest os (Ok tt))]) as Ef by (unfold full, lA; rewrite <- app_assoc; reflexivity).
  assert (history digest root_of show verify shapes cf lA = Up n1) as HhA by (eapply history_call; [exact Hh|exact En1]).
  assert (forall cfg k, Forall plain_event k -> along digest root_of show verify shapes cfg replies_match (Down (∅, ∅)) (EvBoot oa ob :: k) /\
            along digest root_of show verify shapes cfg replies_match (Down (∅, ∅)) (EvBoot oc od :: k)) as Hpr.
  { intros cfg k Hk0. assert (forall mm, along digest root_of show verify shapes cfg replies_match mm k) as X.
    { induction Hk0 as [|ev k P _ IH]; intros mm; cbn [along]; [exact I|]. split; [|apply IH].
      unfold replies_match. destruct ev as [cl| | |]; try destruct P. cbn [event_call]. destruct cl; try exact I; destruct P. }
    split; (split; [exact I|apply X]). }
  assert (along digest root_of show verify shapes cf replies_match (Down (∅, ∅)) lA) as HnA.
  { apply along_app. split; [apply (Hpr cf l Hl)|]. cbn [along]. repeat (split; [exact I|]). exact I. }
  pose proof Hlg as HlgA. rewrite <- Hd1, <- Hs1 in HlgA.
  rewrite Ef in Hst, Hep.
  destruct (transfer_committed digest root_of show verify shapes cf code qs lA n1 id p c t from to cr m b os Hr Hg HnA HhA ltac:(congruence) Hlk1 Hord Hc Hlen
    Hact Hsnd HlgA Has Hpos Hbal Hfee Hst Hep) as (n3 & t3 & n4 & t4 & K1 & K2 & K3 & (pf & KP & KP2 & K4) & K5).
  (* the second *)
  set (lB := hist' ++ [EvCall (CallInsert true t (Ok tt)); EvCall (CallPropose id now)]).
  assert (full' = lB ++ [EvCall (CallCommit id c); EvCall (CallCommitRest os' (Ok tt))]) as Ef' by (unfold full', lB; rewrite <- app_assoc; reflexivity).
  assert (history digest root_of show verify shapes cf' lB = Up n2') as HhB.
  { unfold lB. change [EvCall (CallInsert true t (Ok tt)); EvCall (CallPropose id now)]
      with ([EvCall (CallInsert true t (Ok tt))] ++ [EvCall (CallPropose id now)]).
    rewrite !app_assoc. eapply history_call; [|exact En2']. eapply history_call; [exact Hh'|exact En1']. }
  assert (along digest root_of show verify shapes cf' replies_match (Down (∅, ∅)) lB) as HnB.
  { apply along_app. split; [apply (Hpr cf' l' Hl')|]. cbn [along]. repeat (split; [exact I|]). exact I. }
  pose proof (agree_ledger digest n n' m b A Hlg) as HlgB. rewrite <- Hd2', <- Hs2' in HlgB.
  rewrite Ef' in Hst', Hep'. pose proof (proj1 (proj2 Hsr)) as Hgen.
  assert (parsed_genesis (cf_genesis cf') code qs) as Hg' by (rewrite <- Hgen; exact Hg).
  destruct (transfer_committed digest root_of show verify shapes cf' code qs lB n2' id p c t from to cr m b os' Hr Hg' HnB HhB ltac:(congruence) Hlk2' Hord Hc Hlen
    Hact Hsnd HlgB Has Hpos Hbal Hfee Hst' Hep') as (n3' & t3' & n4' & t4' & K1' & K2' & K3' & (pf' & KP' & KP2' & K4') & K5').
  assert (pf' = pf) as -> by (rewrite KP2, KP2'; f_equal; congruence).
  exists n4, n4'. rewrite Ef, Ef'. split; [exact K3|]. split; [exact K3'|].
  assert (forall cfg (x3 x4 : node) oo xt, nd_busy x3 = Committing id p pf [t] ->
            run_call digest root_of show verify shapes cfg (CallCommitRest oo (Ok tt)) x3 = (Ok RepUnit, x4, xt) -> nd_busy x4 = Idle) as Hidle.
  { intros cfg x3 x4 oo xt X E. cbn [run_call] in E. unfold abind at 1 in E.
    destruct (commit_finish digest root_of show shapes cfg oo (Ok tt) x3) as [[r1 y] ty] eqn:E1. apply commit_finish_out in E1.
    destruct r1 as [[]|z|]; [|discriminate E..]. cbn [aret] in E. injection E as <- _.
    inversion E1 as [|id' p' pf' txs' r1' Eb' Hr1|id' p' pf' txs' resp tr' lo Eb' Hx El]; subst; [discriminate Hr1|]. reflexivity. }
  split; [exact (Hidle _ _ _ _ _ K4 K2)|]. split; [exact (Hidle _ _ _ _ _ K4' K2')|].
  split.
  - (* agreement *)
    pose proof (states_runs digest root_of show verify shapes cf _ Hst) as R. pose proof (states_runs digest root_of show verify shapes cf' _ Hst') as R'.
    rewrite <- Ef in R, K3. rewrite <- Ef' in R', K3'.
    refine (C91_same_blocks_same_chain digest root_of show verify shapes cf cf' oa ob oc od
      (l ++ [EvCall (CallInsert false t (Ok tt)); EvCall (CallCommit id c); EvCall (CallCommitRest os (Ok tt))])
      (l' ++ [EvCall (CallInsert true t (Ok tt)); EvCall (CallPropose id now); EvCall (CallCommit id c); EvCall (CallCommitRest os' (Ok tt))])
      n4 n4' Hk Hsr _ _ R R' K3 K3' _).
    + apply Forall_app. split; [exact Hl|]. repeat (apply Forall_cons; split; [exact I|]). apply Forall_nil; exact I.
    + apply Forall_app. split; [exact Hl'|]. repeat (apply Forall_cons; split; [exact I|]). apply Forall_nil; exact I.
    + change (handed digest root_of show verify shapes cf (Down (∅, ∅)) full = handed digest root_of show verify shapes cf' (Down (∅, ∅)) full').
      unfold full, full'. rewrite !handed_app. rewrite Hhd. f_equal.
      change (fold_left (happens digest root_of show verify shapes cf) hist (Down (∅, ∅))) with (history digest root_of show verify shapes cf hist).
      change (fold_left (happens digest root_of show verify shapes cf') hist' (Down (∅, ∅))) with (history digest root_of show verify shapes cf' hist').
      rewrite Hh, Hh'. cbn [handed]. unfold rc in En1. unfold rc' in En1', En2'.
      rewrite (happens_call _ _ _ _ _ _ _ _ _ _ _ En1), (happens_call _ _ _ _ _ _ _ _ _ _ _ K1).
      rewrite (happens_call _ _ _ _ _ _ _ _ _ _ _ En1'), (happens_call _ _ _ _ _ _ _ _ _ _ _ En2'), (happens_call _ _ _ _ _ _ _ _ _ _ _ K1').
      cbn [handed_at app]. rewrite K4, K4'. reflexivity.
  - intros F F' x [-> | ->]; [exact (K5 F)|exact (K5' F')].
Qed.
Print Assumptions C99_transfer_everywhere.
