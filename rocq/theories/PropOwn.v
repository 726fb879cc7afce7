(** * C101: only the owner spends. *)
From Verif Require Import Base BaseFacts Hex Types Rlp RlpFacts FixedCodec StateAdapter Executor ExecSpec ExecBlock ExecChain ExecMore
  Mempool MempoolSpec MempoolFacts MempoolProps MempoolMore
  Merkle Bincode ConsMsg Proto Wire WireFacts Storage StorageSpec StorageFacts Consensus ConsSpec ConsFacts ConsInv ConsChain ConsMore
  StuckFacts LedgerSpec LedgerFacts LedgerRun NodePool HaltFacts ImmutFacts HeaderFacts EndFacts
  PropExecutor PropLedger PropKept PropEnd PropOnce.
Local Open Scope N_scope.

(** Specification.  A transaction that carries its hash and a signature of it
    under the public key it names: *)
Definition signed (digest : bytes -> hash) (verify : bytes -> bytes -> bytes -> bool) (t : signed_tx) : Prop :=
  st_tx_hash t = digest (enc_raw (st_raw t)) /\ verify (sbytes (st_tx_hash t)) (st_signature t) (st_pubkey t) = true.
(** The transactions other nodes send when asked, for a proposal or an epoch: *)
Definition pulled (c : call) : list signed_tx :=
  let sent (r : res mp_err (list signed_tx)) := match r with Ok l => l | _ => [] end in
  match c with
  | CallCheck _ _ r1 r2 => sent r1 ++ sent r2
  | CallSyncEpoch _ _ (Ok (RpTxs l)) => l
  | _ => []
  end.
Definition peers_signed (digest : bytes -> hash) (verify : bytes -> bytes -> bytes -> bool) (m : machine) (e : event) : Prop :=
  forall c t, event_call e = Some c -> t ∈ pulled c -> signed digest verify t.
(** No transaction signed with a key of [a] is handed to the node. *)
Definition owner_silent (digest : bytes -> hash) (verify : bytes -> bytes -> bytes -> bool) (a : address) (m : machine) (e : event) : Prop :=
  forall c t, event_call e = Some c -> (t ∈ pulled c \/ exists net s, c = CallInsert net t s) ->
    signed digest verify t -> ~ is_sender digest t a.
(** A block is executed by a call, whether or not it then completes: the state
    before, the transactions, the state after. *)
Inductive runs_block (digest : bytes -> hash) (root_of : gmap bytes bytes -> hash) (show : exec_err -> rstring) (cf : config) (n : node) :
  call -> executor -> list signed_tx -> executor -> Prop :=
| rb_commit os sent id p pf txs x resp x' : nd_busy n = Committing id p pf txs ->
    Executor.from_root digest (cf_chain_id cf) (cs_state_root (nd_status n)) (nd_disk n).2 id (cs_price (nd_status n))
      (AUser (eh_proposer (ep_header (pl_epoch p)))) = Ok x ->
    exec digest root_of show os x txs = Ok (resp, x') -> runs_block digest root_of show cf n (CallCommitRest os sent) x txs x'
| rb_sync os e txs i r h sr x resp x' : nd_busy n = Syncing i r h sr ->
    Executor.from_root digest (cf_chain_id cf) sr (nd_disk n).2 (eh_epoch_id (ep_header e)) (cs_price (nd_status n))
      (AUser (eh_proposer (ep_header e))) = Ok x ->
    exec digest root_of show os x txs = Ok (resp, x') ->
    runs_block digest root_of show cf n (CallSyncEpoch os (Ok (RpEpoch e)) (Ok (RpTxs txs))) x txs x'.

Section Own.
  Context (digest : bytes -> hash) (root_of : gmap bytes bytes -> hash) (show : exec_err -> rstring)
          (verify : bytes -> bytes -> bytes -> bool) (shapes : nat -> shape) (cf : config).
  Notation run_call := (run_call digest root_of show verify shapes cf).
  Notation history := (Consensus.history digest root_of show verify shapes cf).
  Notation happens := (happens digest root_of show verify shapes cf).
  Notation along := (along digest root_of show verify shapes cf).
  Notation inv_of := (mp_inv (cf_pool_size cf) (cf_gap cf)).
  Notation signed := (signed digest verify).

  Definition handed (Q : signed_tx -> Prop) (m : machine) (e : event) : Prop :=
    forall c, event_call e = Some c -> (forall t, t ∈ pulled c -> Q t) /\ 
      (forall n net t s, m = Up n -> c = CallInsert net t s -> tx_ok digest verify (cf_gap cf) (env_of digest (nd_disk n)) t -> Q t).
  Lemma ok_signed gap e t : tx_ok digest verify gap e t -> signed t.
  Proof.
    unfold tx_ok, check_signature, check_transaction. intros Hok.
    destruct (verify (sbytes (st_tx_hash t)) (st_signature t) (st_pubkey t)) eqn:Ev; [|discriminate Hok]. cbn [rbind] in Hok.
    destruct (decide (digest (enc_raw (st_raw t)) = st_tx_hash t)) as [Ed|]; [|discriminate Hok]. split; [symmetry; exact Ed|exact Ev].
  Qed.
  Definition all_in (Q : signed_tx -> Prop) (n : node) : Prop :=
    (forall h t, mp_pooled (nd_pool n) h = Some t -> Q t) /\ (forall h t, mp_cb (nd_pool n) !! h = Some t -> Q t) /\
    (forall id p pf txs, nd_busy n = Committing id p pf txs -> Forall Q txs).

  Lemma cb_from txs : forall m h t, fold_left cb_insert txs m !! h = Some t -> m !! h = Some t \/ t ∈ txs.
  Proof.
    induction txs as [|x txs IH]; intros m h t; cbn [fold_left]; [auto|]. intros E. apply IH in E as [E|E]; [|right; right; exact E].
    unfold cb_insert in E. destruct (m !! st_tx_hash x) eqn:Ex; [auto|].
    destruct (decide (h = st_tx_hash x)) as [-> |Hn]; [rewrite lookup_insert in E; injection E as <-; right; left|].
    rewrite lookup_insert_ne in E by congruence. auto.
  Qed.
  Lemma lookup_q Q (n : node) h t : all_in Q n -> mp_lookup (nd_pool n) h = Some t -> Q t.
  Proof.
    intros (A & B & _). unfold mp_lookup. unfold mp_pooled in A. destruct (tc_get (mp_tc (nd_pool n)) h) as [t0|] eqn:E.
    - intros [= ->]. apply (A h t E).
    - apply B.
  Qed.
  Lemma full_q Q (n : node) hs txs : all_in Q n -> mp_get_full_txs (nd_pool n) hs = Ok txs -> Forall Q txs.
  Proof.
    intros A. unfold mp_get_full_txs. destruct (decide _); [|discriminate]. intros [= <-].
    apply Forall_forall. intros t Ht. apply elem_of_list_omap in Ht as (h & _ & Hh). eapply lookup_q; eauto.
  Qed.

  Lemma all_in_call Q c (n : node) r (n' : node) tr : inv_of (nd_pool n) -> all_in Q n -> handed Q (Up n) (EvCall c) ->
    run_call c n = (r, n', tr) -> all_in Q n'.
  Proof.
    intros Hp A Hc E. destruct (Hc c eq_refl) as [Hpull Hins]. clear Hc.
    destruct c as [net tx sent|id now|hp p pl1 pl2|id c|os sent|msg first|os re rt].
    - cbn [Consensus.run_call] in E.
      pose proof (insert_outcome digest verify _ (cf_gap cf) _ (nd_pool n) net tx (env_of digest (nd_disk n)) sent Hp) as G.
      destruct (mp_insert _ _ _ _ _ _ _ _) as [r0 p]. injection E as <- <- <-. destruct G as (Hp' & Hcb & G).
      destruct A as (A1 & A2 & A3). split; [|split; [cbn [nd_pool set_pool]; rewrite Hcb; exact A2|exact A3]].
      cbn [nd_pool set_pool]. intros h t Ht.
      destruct G as [(Ha & _ & En & _)|(_ & _ & En & _)];
        apply (pooled_entry _ _ _ Hp') in Ht as (b & Hin & Hh); rewrite En in Hin;
        [|apply (A1 h); apply (pooled_entry _ _ _ Hp); eauto].
      apply elem_of_app in Hin as [Hin|Hin]; [apply (A1 h); apply (pooled_entry _ _ _ Hp); eauto|].
      apply elem_of_list_singleton in Hin. injection Hin as -> ->. apply (Hins n net tx sent eq_refl eq_refl). exact (proj1 (proj2 (proj2 Ha))).
    - pose proof (light_call_out _ _ _ _ _ _ (CallPropose id now) _ _ _ _ eq_refl E) as [(q & x & Hn & _) _].
      destruct (package_sub digest root_of show verify shapes cf n id now r n' tr Hp E) as [S _]. destruct A as (A1 & A2 & A3).
      split; [|split; [|subst n'; exact A3]].
      + intros h t Ht. apply (A1 h t), S, Ht.
      + clear S. cbn [Consensus.run_call] in E. unfold get_epoch, abind, aget, get_txs_from_mempool, aupd, aret, alift in E.
        pose proof (package_inv _ _ (nd_pool n) (cs_limit (nd_status n)) (env_of digest (nd_disk n)) Hp) as (_ & Q2 & _).
        destruct (mp_package _ _ _) as [r0 p0]. cbn [snd] in Q2.
        assert (nd_pool n' = p0) as -> by (destruct r0 as [[o u]|y|]; cbn [map_err] in E; [destruct (decide _)|..]; injection E as <- <- <-; reflexivity).
        rewrite Q2. exact A2.
    - cbn [Consensus.run_call] in E. unfold check_epoch, abind, aget in E. cbn [pulled] in Hpull.
      destruct (decide (hp ∈ nd_exempt n)); unfold aret in E.
      + destruct (get_full_txs _ n) as [[r1 n1] t1] eqn:E0. apply get_full_light in E0 as [-> ->].
        destruct r1; injection E as <- <- <-; exact A.
      + destruct (sync_txs _ _ n) as [[r1 n1] t1] eqn:E1.
        assert (all_in Q n1) as A1.
        { pose proof (sync_from _ _ _ _ _ _ _ Hp E1) as (_ & B1 & _ & S1). destruct A as (A1 & A2 & A3). split; [|split].
          - intros h t Ht. apply S1 in Ht as [Ht|(l & -> & Hl & _)]; [apply (A1 h t Ht)|]. apply Hpull, elem_of_app. left. exact Hl.
          - unfold sync_txs, mp_sync_propose_txs in E1. destruct (tc_show_unknown _ _) as [|u us].
            + injection E1 as _ <- _. exact A2.
            + destruct pl1 as [txs|y|]; injection E1 as _ <- _; exact A2.
          - rewrite B1. exact A3. }
        clear A. destruct r1 as [[]|e|]; [|injection E as <- <- <-; exact A1..].
        destruct (check_txs _ _ n1) as [[r2 n2] t2] eqn:E2.
        assert (all_in Q n2) as A2.
        { pose proof (check_from _ _ _ _ _ _ E2) as (_ & B2 & _ & S2). destruct A1 as (A1 & A2 & A3). split; [|split].
          - intros h t Ht. apply (A1 h t), S2, Ht.
          - unfold check_txs, mp_ensure_order_txs in E2. destruct (tc_show_unknown _ _) as [|u us].
            + injection E2 as _ <- _. exact A2.
            + destruct pl2 as [txs|y|]; [destruct (decide _)|..]; injection E2 as _ <- _; try exact A2.
              intros h t. cbn [nd_pool set_pool mp_cb]. intros Ht. apply cb_from in Ht as [Ht|Ht]; [apply (A2 h t Ht)|].
              apply Hpull, elem_of_app. right. exact Ht.
          - rewrite B2. exact A3. }
        clear A1. destruct r2 as [[]|e|]; [|injection E as <- <- <-; exact A2..].
        destruct (get_full_txs _ n2) as [[r3 n3] t3] eqn:E3. apply get_full_light in E3 as [-> ->].
        destruct r3; injection E as <- <- <-; exact A2.
    - apply call_commit in E as (r1 & E).
      inversion E as [r2 Hr2|eh r2 Hr2 Ei Eh|eh txs Ei Eh Eg]; subst; [exact A|exact A|].
      pose proof (full_q Q n _ _ A Eg) as Hq. destruct A as (A1 & A2 & A3).
      destruct (flush_facts _ _ _ (ep_ordered_tx_hashes (pl_epoch (cm_pill c))) Hp) as (_ & _ & Q1 & _). split; [|split].
      + cbn [nd_pool set_disk set_pool set_busy]. intros h t Ht. rewrite Q1 in Ht. destruct (decide _); [discriminate Ht|apply (A1 h t Ht)].
      + cbn [nd_pool set_disk set_pool set_busy]. unfold mp_flush. cbn [mp_cb]. intros h t Ht. rewrite lookup_empty in Ht. discriminate Ht.
      + cbn [nd_busy set_busy]. intros id' p' pf' txs' [= <- <- <- <-]. exact Hq.
    - apply call_rest in E as (r1 & E). destruct A as (A1 & A2 & A3).
      inversion E as [|id p pf txs r2 Eb Hr2|id p pf txs resp tr' lo Eb Hx El]; subst;
        (split; [exact A1|split; [exact A2|]]); [exact A3|cbn; discriminate..].
    - apply call_sync in E as (r1 & E & _). destruct A as (A1 & A2 & A3).
      inversion E; subst; (split; [exact A1|split; [exact A2|]]); [exact A3|cbn; discriminate..].
    - apply call_sync_epoch in E as (r1 & E). destruct A as (A1 & A2 & A3).
      inversion E; subst; (split; [exact A1|split; [exact A2|]]); [exact A3|cbn; discriminate..].
  Qed.

  Lemma all_in_history Q l (n : node) : along (handed Q) (Down (∅, ∅)) l -> history l = Up n -> all_in Q n.
  Proof.
    revert n. induction l as [|ev l IH] using rev_ind; intros n Ha Hh; [discriminate Hh|].
    apply along_app in Ha as [Ha [Hc _]]. fold (history l) in Hc.
    rewrite history_snoc in Hh. change (fold_left happens l (Down (∅, ∅))) with (history l) in Hc.
    destruct ev as [c|c k|o1 o2|o1 o2 k]; destruct (history l) as [d|n0] eqn:E0; cbn [Consensus.happens] in Hh; try discriminate Hh.
    - destruct (run_call c n0) as [[r n'] t] eqn:E. injection Hh as <-.
      apply (all_in_call Q c n0 r n' t); [exact (node_inv _ _ _ _ _ _ _ _ E0)|apply IH; [exact Ha|reflexivity]|exact Hc|exact E].
    - destruct (run_call c n0) as [[r n'] t]. discriminate Hh.
    - destruct (handle_init digest root_of cf o1 o2 d) as [[d'|x|] t]; try discriminate Hh.
      destruct (start digest cf d') as [n'|x|] eqn:Es; try discriminate Hh. injection Hh as <-.
      apply start_out in Es as (e & _ & ->). split; [|split].
      + intros h t' Ht. exfalso. clear -Ht. cbn in Ht. discriminate Ht.
      + cbn. intros h t' Ht. rewrite lookup_empty in Ht. discriminate Ht.
      + cbn. discriminate.
    - injection Hh as <-. apply IH; [exact Ha|reflexivity].
    - destruct (handle_init digest root_of cf o1 o2 d) as [r t]. discriminate Hh.
    - injection Hh as <-. apply IH; [exact Ha|reflexivity].
  Qed.

  Lemma sum_some (f : signed_tx -> N) ts : forall rs, 0 < sum_succeeded f ts rs -> exists t, t ∈ ts /\ 0 < f t.
  Proof.
    induction ts as [|t ts IH]; intros [|r rs]; cbn [sum_succeeded]; try lia. intros H.
    destruct (succeeded r).
    - destruct (decide (0 < f t)) as [|Hn]; [exists t; split; [left|assumption]|].
      destruct (IH rs) as (t' & H1 & H2); [lia|]. exists t'. split; [right; exact H1|exact H2].
    - destruct (IH rs) as (t' & H1 & H2); [lia|]. exists t'. split; [right; exact H1|exact H2].
  Qed.

  (** The state a block is run on has the kinds of accounts right, and the
      iteration orders enumerate. *)
  Lemma block_known code qs l1 e l2 (n : node) c x txs x' :
    root_of ∅ = hash_from_empty digest -> parsed_genesis (cf_genesis cf) code qs ->
    states_ok digest root_of show verify shapes cf (l1 ++ e :: l2) ->
    history l1 = Up n -> event_call e = Some c -> runs_block digest root_of show cf n c x txs x' ->
    exists os resp, (forall i, order_ok (os i)) /\ fresh x /\ wf_accounts (committed x) /\ exec digest root_of show os x txs = Ok (resp, x').
  Proof.
    intros Hr Hg Hst Hh He Hb.
    pose proof (states_ok_prefix _ _ _ _ _ _ _ _ Hst) as Hst0. destruct Hst as [H1 _ _]. apply along_app in H1 as [_ [H1 _]].
    assert (forall ch root id pr cb, Executor.from_root digest ch root (nd_disk n).2 id pr cb = Ok x -> wf_accounts (committed x)) as Hw.
    { intros ch root id pr cb Hx. destruct (C90_no_inflation digest root_of show verify shapes cf code qs l1 ch root id pr cb x Hr Hg Hst0) as [F|[F _]].
      - rewrite Hh. exact Hx.
      - apply (fl_kinds _ _ _ _ _ F).
      - rewrite F. apply map_Forall_empty. }
    destruct Hb as [os sent id p pf txs x resp x' Eb Hx Ex|os ep txs i r h sr x resp x' Eb Hx Ex]; exists os, resp.
    - split; [|split; [exact (open_fresh _ _ _ _ _ _ _ _ Hx)|split; [exact (Hw _ _ _ _ _ Hx)|exact Ex]]].
      destruct e as [c|c k| |]; try discriminate He; injection He as ->; exact H1.
    - split; [|split; [exact (open_fresh _ _ _ _ _ _ _ _ Hx)|split; [exact (Hw _ _ _ _ _ Hx)|exact Ex]]].
      destruct e as [c|c k| |]; try discriminate He; injection He as ->; exact H1.
  Qed.
  Lemma block_spends code qs l1 e l2 (n : node) c x txs x' (a : address) (asset : hash) :
    root_of ∅ = hash_from_empty digest -> parsed_genesis (cf_genesis cf) code qs ->
    states_ok digest root_of show verify shapes cf (l1 ++ e :: l2) ->
    history l1 = Up n -> event_call e = Some c -> runs_block digest root_of show cf n c x txs x' ->
    bal (committed x') a asset < bal (committed x) a asset ->
    exists t to cr, t ∈ txs /\ is_sender digest t a /\ rt_action (st_raw t) = Transfer to cr /\ cr_asset_id cr = asset.
  Proof.
    intros Hr Hg Hst Hh He Hb Hlt. destruct (block_known code qs l1 e l2 n c x txs x' Hr Hg Hst Hh He Hb) as (os & resp & Ho & Hf & Hw & Ex).
    pose proof (C11_block_balances digest root_of show os x txs resp x' Ho Hf Hw Ex a asset) as Hbal.
    destruct (sum_some (fun t => amount_sent digest t a asset) txs (er_receipts resp)) as (t & Ht & Hs); [lia|].
    unfold amount_sent in Hs. destruct (rt_action (st_raw t)) as [to cr| | |] eqn:Ea; try lia.
    destruct (decide _) as [[D1 D2]|]; [|lia]. exists t, to, cr. repeat split; auto.
  Qed.
End Own.

(** ** Whenever a block is executed (a commit, an epoch taken over from a peer;
    the node may crash meanwhile) and some account has less of an asset
    afterwards, the block contains a transfer of this asset signed with a key of
    that account, provided the transactions other nodes send are signed. *)
Theorem C101_spending_is_signed :
  forall digest root_of show verify shapes cf code qs l1 e l2 (n : node) c x txs x' (a : address) (asset : hash),
  root_of ∅ = hash_from_empty digest -> parsed_genesis (cf_genesis cf) code qs ->
  states_ok digest root_of show verify shapes cf (l1 ++ e :: l2) ->
  along digest root_of show verify shapes cf (peers_signed digest verify) (Down (∅, ∅)) (l1 ++ e :: l2) ->
  history digest root_of show verify shapes cf l1 = Up n -> event_call e = Some c ->
  runs_block digest root_of show cf n c x txs x' ->
  bal (committed x') a asset < bal (committed x) a asset ->
  exists t to cr, t ∈ txs /\ signed digest verify t /\ is_sender digest t a /\
    rt_action (st_raw t) = Transfer to cr /\ cr_asset_id cr = asset.
Proof.
  intros digest root_of show verify shapes cf code qs l1 e l2 n c x txs x' a asset Hr Hg Hst Hps Hh He Hb Hlt.
  destruct (block_spends digest root_of show verify shapes cf code qs l1 e l2 n c x txs x' a asset Hr Hg Hst Hh He Hb Hlt) as (t & to & cr & Ht & H1 & H2 & H3).
  exists t, to, cr. split; [exact Ht|]. split; [|auto].
  apply along_app in Hps as [P1 [P2 _]].
  destruct Hb as [os sent id p pf txs x resp x' Eb Hx Ex|os ep txs i r h sr x resp x' Eb Hx Ex].
  - assert (along digest root_of show verify shapes cf (handed digest verify cf (signed digest verify)) (Down (∅, ∅)) l1) as Hal.
    { eapply along_impl; [|exact P1]. intros m ev P c Hc. split; [intros t' Ht'; exact (P c t' Hc Ht')|].
      intros n0 net t' s _ _ Hok. exact (ok_signed _ _ _ _ _ Hok). }
    destruct (all_in_history digest root_of show verify shapes cf _ l1 n Hal Hh) as (_ & _ & A).
    specialize (A id p pf txs Eb). rewrite Forall_forall in A. apply A, Ht.
  - apply (P2 _ t He). exact Ht.
Qed.
Print Assumptions C101_spending_is_signed.

(** ** An account whose owner signs nothing loses nothing: between any two
    moments of the node's life, without restart or synchronisation in between. *)
Definition plain_event (e : event) : Prop :=
  match e with EvCall (CallSync _ _) | EvCall (CallSyncEpoch _ _ _) => False | EvCall _ => True | _ => False end.

Lemma ledger_unique (digest : bytes -> hash) (d : durable) (root : hash) (m m' : accounts) (b b' : assets) :
  ledger_at digest d root m b -> ledger_at digest d root m' b' -> m = m' /\ b = b'.
Proof.
  intros L (ch & e & p & cb & x & Hx & <- & <-). destruct (ledger_open _ _ _ _ _ ch e p cb L) as (y & Hy & <- & <-).
  rewrite Hx in Hy. injection Hy as <-. auto.
Qed.

Theorem C101_silent_account_loses_nothing :
  forall digest root_of show verify shapes cf code qs l l2 (n n2 : node) (a : address) (asset : hash)
    (m m2 : accounts) (b b2 : assets),
  root_of ∅ = hash_from_empty digest -> parsed_genesis (cf_genesis cf) code qs ->
  states_ok digest root_of show verify shapes cf (l ++ l2) ->
  along digest root_of show verify shapes cf (peers_signed digest verify) (Down (∅, ∅)) (l ++ l2) ->
  along digest root_of show verify shapes cf (owner_silent digest verify a) (Down (∅, ∅)) (l ++ l2) ->
  history digest root_of show verify shapes cf l = Up n -> Forall plain_event l2 ->
  history digest root_of show verify shapes cf (l ++ l2) = Up n2 ->
  ledger_at digest (nd_disk n) (cs_state_root (nd_status n)) m b ->
  ledger_at digest (nd_disk n2) (cs_state_root (nd_status n2)) m2 b2 ->
  bal m a asset <= bal m2 a asset.
Proof.
  intros digest root_of show verify shapes cf code qs l l2 n n2 a asset m m2 b b2 Hr Hg Hst Hps Hos Hh Hpl Hh2 L1 L2.
  assert (exists m3 b3, ledger_at digest (nd_disk n2) (cs_state_root (nd_status n2)) m3 b3 /\ bal m a asset <= bal m3 a asset) as (m3 & b3 & L3 & Hle).
  2:{ destruct (ledger_unique _ _ _ _ _ _ _ L2 L3) as [-> ->]. exact Hle. }
  clear m2 b2 L2. revert n2 Hh2.
  induction l2 as [|ev l2 IH] using rev_ind; intros n2 Hh2.
  { rewrite app_nil_r in Hh2. rewrite Hh in Hh2. injection Hh2 as <-. exists m, b. split; [exact L1|lia]. }
  rewrite app_assoc in *. apply Forall_app in Hpl as [Hpl Hev]. apply Forall_cons in Hev as [Hev _].
  pose proof (states_ok_prefix _ _ _ _ _ _ _ _ Hst) as Hst0.
  apply along_app in Hps as [Hps Hps1]. apply along_app in Hos as [Hos Hos1].
  rewrite history_snoc in Hh2.
  destruct ev as [c| | |]; try destruct Hev. destruct (history digest root_of show verify shapes cf (l ++ l2)) as [d|n1] eqn:E1; [discriminate Hh2|].
  destruct (IH Hst0 Hps Hos Hpl n1 eq_refl) as (m1 & b1 & L & Hle). clear IH.
  cbn [happens] in Hh2. destruct (run_call digest root_of show verify shapes cf c n1) as [[r n'] tr] eqn:E. injection Hh2 as <-.
  assert (forall d s, nd_disk n' = d -> nd_status n' = s -> d.2 = (nd_disk n1).2 -> cs_state_root s = cs_state_root (nd_status n1) ->
    exists m3 b3, ledger_at digest (nd_disk n') (cs_state_root (nd_status n')) m3 b3 /\ bal m a asset <= bal m3 a asset) as Same.
  { intros d s -> -> Hd Hs. exists m1, b1. split; [|exact Hle]. unfold ledger_at in *. rewrite Hs, Hd. exact L. }
  destruct (light_call c) eqn:Lc.
  { apply light_call_out in E as [(p & y & -> & _) _]; [|exact Lc]. apply (Same (nd_disk n1) (nd_status n1)); reflexivity. }
  destruct c as [| | |id cm|os sent|msg first|os re rt]; try discriminate Lc; try destruct Hev.
  - apply call_commit in E as (r1 & E). inversion E; subst; eapply Same; reflexivity.
  - apply call_rest in E as (r1 & E).
    inversion E as [|id p pf txs r2 Eb Hr2|id p pf txs resp tr' lo Eb Hx El]; subst; [eapply Same; reflexivity..|]. clear Same.
    destruct Hx as (x & x' & Hx & Ex & ->).
    destruct (exec_known _ _ _ _ _ _ (l ++ l2) n1 os r1 id p pf txs x resp x' E1 Eb Hst Hx Ex) as (Hsf & Hcl & Ho).
    destruct (C24_reopen_after_exec digest root_of show os x txs resp x' [] (cf_chain_id cf) id (cs_price (nd_status n1))
       (AUser (cf_self cf)) Hr ltac:(rewrite app_nil_r; exact Hcl) Ho Ex Hsf) as (y & Hy & _ & Y1 & Y2 & _).
    cbn [db_after] in Hy. exists (committed x'), (committed_assets x').
    split; [eexists _, _, _, _, y; split; [exact Hy|auto]|].
    destruct (ledger_unique _ _ _ _ (committed x) _ (committed_assets x) L) as [-> ->]; [eexists _, _, _, _, x; split; [exact Hx|auto]|].
    destruct (decide (bal (committed x) a asset <= bal (committed x') a asset)) as [|Hn]; [lia|]. exfalso.
    assert (runs_block digest root_of show cf n1 (CallCommitRest os r1) x txs x') as Hb by (econstructor; eassumption).
    destruct (block_spends digest root_of show verify shapes cf code qs (l ++ l2) (EvCall (CallCommitRest os r1)) [] n1 _ x txs x' a asset
      Hr Hg Hst E1 eq_refl Hb) as (t & to & cr & Ht & Hsnd & _); [lia|].
    assert (along digest root_of show verify shapes cf (handed digest verify cf (fun t => signed digest verify t /\ ~ is_sender digest t a)) (Down (∅, ∅)) (l ++ l2)) as Hal.
    { eapply along_impl; [|exact (along_and _ _ _ _ _ _ _ _ _ _ Hps Hos)]. intros mm ev [P1 P2] c Hc. split.
      - intros t' Ht'. split; [exact (P1 c t' Hc Ht')|]. apply (P2 c t' Hc); [left; exact Ht'|exact (P1 c t' Hc Ht')].
      - intros n0 net t' s _ -> Hok. pose proof (ok_signed _ _ _ _ _ Hok) as Hsg. split; [exact Hsg|]. apply (P2 _ t' Hc); [right; eauto|exact Hsg]. }
    destruct (all_in_history digest root_of show verify shapes cf _ (l ++ l2) n1 Hal E1) as (_ & _ & A).
    specialize (A id p pf txs Eb). rewrite Forall_forall in A. apply (A t Ht), Hsnd.
Qed.
Print Assumptions C101_silent_account_loses_nothing.

(** ** Without the proviso: a proposer can spend anybody's money.  [t] names
    [from]'s public key; its signature may be anything.  A proposal that orders
    it is accepted, the transaction being pulled from the proposer; the commit
    completes and the amount has moved. *)
Theorem C101_unsigned_transfer_refuted :
  forall digest root_of show verify shapes cf code qs l (n : node) hp p pl1 c (t : signed_tx) (from to : user_address) cr
    (m : accounts) (b : assets) os,
  root_of ∅ = hash_from_empty digest -> parsed_genesis (cf_genesis cf) code qs ->
  along digest root_of show verify shapes cf replies_match (Down (∅, ∅)) l ->
  history digest root_of show verify shapes cf l = Up n -> nd_busy n = Idle ->
  (* nobody has signed it *)
  ~ signed digest verify t -> mp_lookup (nd_pool n) (st_tx_hash t) = None ->
  (* somebody else proposes it *)
  hp ∉ nd_exempt n -> pl_propose_hashes p = [] -> ep_ordered_tx_hashes (pl_epoch p) = [st_tx_hash t] ->
  (* the sender can pay *)
  rt_action (st_raw t) = Transfer to cr -> is_sender digest t (AUser from) ->
  ledger_at digest (nd_disk n) (cs_state_root (nd_status n)) m b ->
  is_Some (b !! cr_asset_id cr) -> 0 < cr_amount cr -> cr_amount cr <= bal m (AUser from) (cr_asset_id cr) ->
  210 <= fee_cycle (rt_fee (st_raw t)) ->
  cm_pill c = p -> length (cm_epoch_hash c) = 32%nat ->
  let id := cs_epoch_id (nd_status n) in
  let run_call := run_call digest root_of show verify shapes cf in
  let l' := l ++ [EvCall (CallCheck hp p pl1 (Ok [t])); EvCall (CallCommit id c); EvCall (CallCommitRest os (Ok tt))] in
  states_ok digest root_of show verify shapes cf l' -> epochs_ok digest root_of show verify shapes cf l' ->
  exists n2 n3 t3 n4 t4,
    run_call (CallCheck hp p pl1 (Ok [t])) n = (Ok (RepTxs [t]), n2, []) /\
    run_call (CallCommit id c) n2 = (Ok RepUnit, n3, t3) /\
    run_call (CallCommitRest os (Ok tt)) n3 = (Ok RepUnit, n4, t4) /\
    history digest root_of show verify shapes cf l' = Up n4 /\
    (db_fits (nd_disk n4).1 -> exists m' b',
       ledger_at digest (nd_disk n4) (cs_state_root (nd_status n4)) m' b' /\
       forall x asset,
         bal m' x asset + (if decide (x = AUser from /\ asset = cr_asset_id cr) then cr_amount cr else 0)
         = bal m x asset + (if decide (x = AUser to /\ asset = cr_asset_id cr) then cr_amount cr else 0)).
Proof.
  intros digest root_of show verify shapes cf code qs l n hp p pl1 c t from to cr m b os Hr Hg Hns Hh Hb _ Hlk Hx Hpr Hord
    Hact Hsnd Hlg Has Hpos Hbal Hfee Hc Hlen id rc l' Hst Hep.
  exact (proposed_transfer digest root_of show verify shapes cf code qs l n hp p pl1 c t from to cr m b os Hr Hg Hns Hh Hb Hlk Hx Hpr Hord
    Hact Hsnd Hlg Has Hpos Hbal Hfee Hc Hlen Hst Hep).
Qed.
Print Assumptions C101_unsigned_transfer_refuted.
