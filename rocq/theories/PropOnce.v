(** * C100: a transaction is carried out at most once. *)
From Verif Require Import Base BaseFacts Hex Types Rlp RlpFacts FixedCodec StateAdapter Executor ExecSpec ExecBlock ExecChain ExecMore
  Mempool MempoolSpec MempoolFacts MempoolProps MempoolMore
  Merkle Bincode ConsMsg Proto Wire WireFacts Storage StorageSpec StorageFacts Consensus ConsSpec ConsFacts ConsInv ConsChain ConsMore
  StuckFacts LedgerSpec LedgerFacts LedgerRun NodePool HaltFacts ImmutFacts HeaderFacts EndFacts
  PropExecutor PropLedger PropKept PropEnd.
Local Open Scope N_scope.

(** Specification.  The transactions of the commit a node is in the middle of: *)
Definition under_way (n : node) (h : hash) : Prop :=
  match nd_busy n with Committing _ _ _ txs => h ∈ map st_tx_hash txs | _ => False end.
(** Nobody hands the node a transaction it is just committing; peers asked for
    proposed transactions do not answer with committed ones; the transactions
    of epochs taken over from a peer are not in the node's pool. *)
Definition careful (m : machine) (e : event) : Prop :=
  match m, e with
  | Up n, EvCall (CallInsert _ t _) => ~ under_way n (st_tx_hash t)
  | Up n, EvCall (CallCheck _ _ (Ok l) _) => forall t, t ∈ l ->
      get_transaction_by_hash rocks_col (nd_disk n).1 (st_tx_hash t) = Err GetNone /\ ~ under_way n (st_tx_hash t)
  | Up n, EvCall (CallSyncEpoch _ _ (Ok (RpTxs l))) => forall t, t ∈ l -> mp_pooled (nd_pool n) (st_tx_hash t) = None
  | _, _ => True
  end.

Lemma none_stored (m : gmap (N * bytes) bytes) (h : hash) :
  get_transaction_by_hash rocks_col m h = Err GetNone <-> m !! (2, wenc_hash h) = None.
Proof.
  unfold get_transaction_by_hash, get_or_none, ad_get, ad_key. cbn [TransactionSchema sc_cat sc_kenc sc_vdec rocks_col].
  destruct (m !! (2, wenc_hash h)) as [v|]; [|tauto]. split; [|discriminate].
  destruct (wdec_signed v); cbn; discriminate.
Qed.

Section Once.
  Context (digest : bytes -> hash) (root_of : gmap bytes bytes -> hash) (show : exec_err -> rstring)
          (verify : bytes -> bytes -> bytes -> bool) (shapes : nat -> shape) (cf : config).
  Notation run_call := (run_call digest root_of show verify shapes cf).
  Notation history := (Consensus.history digest root_of show verify shapes cf).
  Notation happens := (happens digest root_of show verify shapes cf).
  Notation along := (along digest root_of show verify shapes cf).
  Notation inv_of := (mp_inv (cf_pool_size cf) (cf_gap cf)).

  (** Nothing in the pool is stored or being committed. *)
  Definition fresh_pool (n : node) : Prop :=
    pool_keyed (nd_pool n) /\
    forall h t, mp_pooled (nd_pool n) h = Some t -> (nd_disk n).1 !! (2, wenc_hash h) = None /\ ~ under_way n h.

  Lemma fresh_sub (n n' : node) : nd_disk n' = nd_disk n -> nd_busy n' = nd_busy n -> (pool_keyed (nd_pool n) -> pool_keyed (nd_pool n')) ->
    (forall h t, mp_pooled (nd_pool n') h = Some t -> mp_pooled (nd_pool n) h = Some t \/
       ((nd_disk n).1 !! (2, wenc_hash h) = None /\ ~ under_way n h)) -> fresh_pool n -> fresh_pool n'.
  Proof.
    intros Hd Hb Hk Hp [K F]. split; [auto|]. unfold under_way in *. rewrite Hd, Hb. intros h t Ht.
    apply Hp in Ht as [Ht|Ht]; [apply (F _ _ Ht)|exact Ht].
  Qed.

  Lemma inserted_from txs : forall c : tx_cache, inv c -> forall h t,
    tc_get (fold_left (fun c t => snd (tc_insert c t true)) txs c) h = Some t -> tc_get c h = Some t \/ (t ∈ txs /\ st_tx_hash t = h).
  Proof.
    induction txs as [|x txs IH]; intros c Hi h t; cbn [fold_left]; [auto|]. intros E.
    destruct (tc_insert c x true) as [r c'] eqn:Ei. cbn [snd] in E.
    destruct (insert_spec _ _ _ _ _ Hi Ei) as (Hi' & _ & Hr).
    destruct (IH c' Hi' h t E) as [E'|[E1 E2]]; [|right; split; [right; exact E1|exact E2]].
    unfold tc_get in *. apply fmap_Some in E' as (w & E' & ->). apply (inv_map _ Hi') in E' as [Hw Hh].
    destruct r as [[]|y|]; [| |contradiction].
    - destruct Hr as (_ & _ & [i Hl] & _). rewrite Hl in Hw. apply elem_of_app in Hw as [Hw|Hw].
      + left. apply fmap_Some. exists w. split; [|reflexivity]. apply (inv_map _ Hi). auto.
      + apply elem_of_list_singleton in Hw as ->. right. split; [left|exact Hh].
    - destruct Hr as (El & _). left. apply fmap_Some. exists w. split; [|reflexivity]. apply (inv_map _ Hi). rewrite <- El. auto.
  Qed.
  Lemma sync_from hs pl (n : node) r (n' : node) tr : inv_of (nd_pool n) -> sync_txs hs pl n = (r, n', tr) ->
    nd_disk n' = nd_disk n /\ nd_busy n' = nd_busy n /\ (pool_keyed (nd_pool n) -> pool_keyed (nd_pool n')) /\
    forall h t, mp_pooled (nd_pool n') h = Some t -> mp_pooled (nd_pool n) h = Some t \/
      (exists l, pl = Ok l /\ t ∈ l /\ st_tx_hash t = h).
  Proof.
    intros Hp E. pose proof (sync_light _ _ _ _ _ _ E) as [(p & x & -> & K) _]. repeat (split; [try reflexivity; exact K|]). clear K.
    revert E. unfold sync_txs, mp_sync_propose_txs. destruct (tc_show_unknown _ _) as [|u us].
    - intros [= <- _ <- _]. auto.
    - destruct pl as [txs|y|]; intros [= <- _ <- _]; cbn [nd_pool] in *; auto. intros h t. unfold mp_pooled. cbn.
      intros H. apply inserted_from in H; [|apply Hp]. destruct H as [H|[H1 H2]]; eauto 10.
  Qed.
  Lemma check_from hs pl (n : node) r (n' : node) tr : check_txs hs pl n = (r, n', tr) ->
    nd_disk n' = nd_disk n /\ nd_busy n' = nd_busy n /\ (pool_keyed (nd_pool n) -> pool_keyed (nd_pool n')) /\
    forall h t, mp_pooled (nd_pool n') h = Some t -> mp_pooled (nd_pool n) h = Some t.
  Proof.
    intros E. pose proof (check_light _ _ _ _ _ _ E) as [(p & x & -> & K) _]. repeat (split; [try reflexivity; exact K|]). clear K.
    revert E. unfold check_txs, mp_ensure_order_txs. destruct (tc_show_unknown _ _) as [|u us].
    - intros [= <- _ <- _]. auto.
    - destruct pl as [txs|y|]; [destruct (decide _)|..]; intros [= <- _ <- _]; cbn [nd_pool] in *; auto.
  Qed.

  Lemma applied_txs (m : db) e resp txs h : m !! (2, wenc_hash h) = None -> h ∉ map st_tx_hash txs ->
    apply_writes m (applied_writes digest e resp txs) !! (2, wenc_hash h) = None.
  Proof.
    intros Hm Hn. rewrite applied_db. unfold w_latest, w_index, w_epoch. rewrite !lookup_insert_ne by (intros X; discriminate X).
    destruct (batch_lookup (w_receipts m (er_receipts resp)) TransactionSchema st_tx_hash txs h wenc_hash_inj) as [(v & Hv & Hk & _)|[_ E]].
    - destruct Hn. apply elem_of_list_fmap. eauto.
    - etransitivity; [exact E|]. cbn [rocks_col TransactionSchema sc_cat sc_kenc]. rewrite w_receipts_other by lia. exact Hm.
  Qed.
  Lemma proof_txs (d : durable) p h : (with_proof digest d p).1 !! (2, wenc_hash h) = d.1 !! (2, wenc_hash h).
  Proof. rewrite with_proof_db. cbn [fst]. unfold w_proof. apply lookup_insert_ne. intros X; discriminate X. Qed.

  Lemma package_sub (n : node) id now r (n' : node) tr : inv_of (nd_pool n) -> run_call (CallPropose id now) n = (r, n', tr) ->
    (forall h t, mp_pooled (nd_pool n') h = Some t -> mp_pooled (nd_pool n) h = Some t) /\
    (forall p ph, r = Ok (RepPill p ph) -> forall h, h ∈ ep_ordered_tx_hashes (pl_epoch p) ++ pl_propose_hashes p -> exists t, mp_pooled (nd_pool n) h = Some t).
  Proof.
    intros Hp E. cbn [Consensus.run_call] in E. unfold get_epoch, abind, aget, get_txs_from_mempool, aupd, aret, alift in E.
    pose proof (package_inv _ _ (nd_pool n) (cs_limit (nd_status n)) (env_of digest (nd_disk n)) Hp) as (Q1 & _ & _ & Q4).
    destruct (en_latest (env_of digest (nd_disk n))) as [[ch ep]|x|] eqn:El.
    - destruct (package_lists _ _ _ Hp (cs_limit (nd_status n)) _ _ _ El) as (o & q & p' & Ep & _).
      pose proof (package_facts _ _ _ Hp (cs_limit (nd_status n)) _ _ _ El _ _ _ Ep) as (_ & Y & X & _).
      rewrite Ep in E. cbn [map_err] in E.
      assert (nd_pool n' = p') as -> by (destruct (decide _); injection E as <- <- <-; reflexivity).
      split; [intros h t Ht; apply X in Ht; apply Ht|].
      destruct (decide _); injection E as <- <- <-; [|discriminate]. intros p ph [= <- <-] h Hh. cbn in Hh.
      apply Y in Hh as (t & Ht & _). eauto.
    - destruct Q4 as [Q4 Q5]. destruct (mp_package _ _ _) as [r0 p0]. cbn [fst snd] in *. subst r0 p0.
      cbn [map_err] in E. injection E as <- <- <-. split; [auto|discriminate].
    - destruct Q4 as [Q4 Q5]. destruct (mp_package _ _ _) as [r0 p0]. cbn [fst snd] in *. subst r0 p0.
      cbn [map_err] in E. injection E as <- <- <-. split; [auto|discriminate].
  Qed.

  Lemma fresh_call c (n : node) r (n' : node) tr : inv_of (nd_pool n) -> fresh_pool n -> careful (Up n) (EvCall c) ->
    run_call c n = (r, n', tr) -> fresh_pool n'.
  Proof.
    intros Hp F Hc E. destruct c as [net tx sent|id now|hp p pl1 pl2|id c|os sent|msg first|os re rt]; cbn [careful] in Hc.
    - pose proof (light_call_out _ _ _ _ _ _ (CallInsert net tx sent) _ _ _ _ eq_refl E) as [(q & x & Hn & K) _].
      cbn [Consensus.run_call] in E.
      pose proof (insert_outcome digest verify _ (cf_gap cf) _ (nd_pool n) net tx (env_of digest (nd_disk n)) sent Hp) as G.
      destruct (mp_insert _ _ _ _ _ _ _ _) as [r0 p]. injection E as <- <- <-. destruct G as (Hp' & _ & G).
      injection Hn as <- <-.
      apply (fresh_sub n); [reflexivity..|exact K| |exact F]. cbn [nd_pool set_pool]. intros h t Ht.
      destruct G as [(Ha & _ & En & _)|(_ & _ & En & _)];
        apply (pooled_entry _ _ _ Hp') in Ht as (b & Hin & Hh); rewrite En in Hin;
        [|left; apply (pooled_entry _ _ _ Hp); eauto].
      apply elem_of_app in Hin as [Hin|Hin]; [left; apply (pooled_entry _ _ _ Hp); eauto|].
      apply elem_of_list_singleton in Hin. injection Hin as -> ->. right. subst h. split; [|exact Hc].
      apply none_stored. destruct Ha as (_ & _ & Hok & _). unfold tx_ok in Hok.
      destruct (check_signature verify tx) as [[]|y|]; [|discriminate Hok..]. cbn [rbind] in Hok.
      destruct (check_transaction _ _ _ _) as [[]|y|]; [|discriminate Hok..]. cbn [rbind] in Hok.
      unfold check_storage_exist, env_of in Hok. cbn [en_stored] in Hok.
      destruct (get_transaction_by_hash rocks_col (nd_disk n).1 (st_tx_hash tx)) as [v|[]|]; cbn [rbind] in Hok; try discriminate Hok. reflexivity.
    - pose proof (light_call_out _ _ _ _ _ _ (CallPropose id now) _ _ _ _ eq_refl E) as [(q & x & Hn & K) _].
      destruct (package_sub n id now r n' tr Hp E) as [S _]. subst n'.
      apply (fresh_sub n); [reflexivity..|exact K| |exact F]. intros h t Ht. left. apply S, Ht.
    - cbn [Consensus.run_call] in E. unfold check_epoch, abind, aget in E.
      destruct (decide (hp ∈ nd_exempt n)); unfold aret in E.
      + destruct (get_full_txs _ n) as [[r1 n1] t1] eqn:E0. apply get_full_light in E0 as [-> ->].
        destruct r1; injection E as <- <- <-; exact F.
      + destruct (sync_txs _ _ n) as [[r1 n1] t1] eqn:E1.
        pose proof (sync_from _ _ _ _ _ _ Hp E1) as (D1 & B1 & K1 & S1).
        assert (fresh_pool n1) as F1.
        { apply (fresh_sub n); try assumption. intros h t Ht. apply S1 in Ht as [Ht|(l & -> & Hl & <-)]; [auto|]. right.
          destruct (Hc t Hl) as [C1 C2]. apply none_stored in C1. auto. }
        destruct r1 as [[]|e|]; [|injection E as <- <- <-; exact F1..].
        destruct (check_txs _ _ n1) as [[r2 n2] t2] eqn:E2. pose proof (check_from _ _ _ _ _ _ E2) as (D2 & B2 & K2 & S2).
        assert (fresh_pool n2) as F2 by (apply (fresh_sub n1); try assumption; intros h t Ht; left; apply S2, Ht).
        destruct r2 as [[]|e|]; [|injection E as <- <- <-; exact F2..].
        destruct (get_full_txs _ n2) as [[r3 n3] t3] eqn:E3. apply get_full_light in E3 as [-> ->].
        destruct r3; injection E as <- <- <-; exact F2.
    - apply call_commit in E as (r1 & E). destruct F as [K F].
      inversion E as [r2 Hr2|eh r2 Hr2 Ei Eh|eh txs Ei Eh Eg]; subst.
      + split; assumption.
      + split; [exact K|]. cbn [nd_pool set_disk nd_disk]. unfold under_way. cbn [nd_busy set_disk]. intros h t Ht.
        rewrite proof_txs. apply (F h t Ht).
      + split; [apply keyed_flush, K|]. cbn [nd_pool set_disk set_pool set_busy nd_disk]. unfold under_way. cbn [nd_busy set_busy].
        intros h t Ht. rewrite proof_txs.
        destruct (flush_facts _ _ _ (ep_ordered_tx_hashes (pl_epoch (cm_pill c))) Hp) as (_ & _ & Q & _).
        rewrite Q in Ht. destruct (decide (h ∈ _)) as [D|D]; [discriminate Ht|].
        split; [apply (F h t Ht)|]. rewrite (keyed_full _ _ _ K Eg). exact D.
    - apply call_rest in E as (r1 & E). destruct F as [K F].
      inversion E as [|id p pf txs r2 Eb Hr2|id p pf txs resp tr' lo Eb Hx El]; subst.
      + split; assumption.
      + split; [exact K|]. intros h t Ht. split; [apply (F h t Ht)|]. intros X; exact X.
      + split; [exact K|]. intros h t Ht. cbn [nd_pool nd_disk fst] in *. split; [|intros X; exact X].
        destruct (F h t Ht) as [F1 F2]. apply applied_txs; [exact F1|]. unfold under_way in F2. rewrite Eb in F2. exact F2.
    - apply call_sync in E as (r1 & E & _). destruct F as [K F].
      inversion E; subst; split; try assumption; intros h t Ht; (split; [apply (F h t Ht)|intros X; exact X]).
    - apply call_sync_epoch in E as (r1 & E). destruct F as [K F].
      inversion E as [Hns|id rich ch sr Eb Hlt|id rich ch sr r2 Eb Hr2 Hre|id rich ch sr r2 e Eb Hr2 Hre Hl'|id rich ch sr e txs resp tr' Eb Hle Hre Hrt Hl' Hx d1]; subst.
      + split; assumption.
      + split; [exact K|]. intros h t Ht. split; [apply (F h t Ht)|intros X; exact X].
      + split; [exact K|]. intros h t Ht. split; [apply (F h t Ht)|intros X; exact X].
      + split; [exact K|]. intros h t Ht. split; [|intros X; exact X]. cbn [nd_disk set_busy set_disk]. rewrite proof_txs. apply (F h t Ht).
      + split; [exact K|]. intros h t Ht. cbn [nd_pool nd_disk fst] in *. split; [|intros X; exact X].
        apply applied_txs; [unfold d1; cbn [fst]; rewrite proof_txs; apply (F h t Ht)|].
        intros X. apply elem_of_list_fmap in X as (t' & -> & Ht'). rewrite (Hc t' Ht') in Ht. discriminate Ht.
  Qed.

  Lemma fresh_history l (n : node) : along careful (Down (∅, ∅)) l -> history l = Up n -> fresh_pool n.
  Proof.
    revert n. induction l as [|ev l IH] using rev_ind; intros n Ha Hh; [discriminate Hh|].
    apply along_app in Ha as [Ha [Hc _]]. fold (history l) in Hc.
    rewrite history_snoc in Hh. change (fold_left happens l (Down (∅, ∅))) with (history l) in Hc.
    destruct ev as [c|c k|o1 o2|o1 o2 k]; destruct (history l) as [d|n0] eqn:E0; cbn [Consensus.happens] in Hh; try discriminate Hh.
    - destruct (run_call c n0) as [[r n'] t] eqn:E. injection Hh as <-.
      apply (fresh_call c n0 r n' t); [exact (node_inv _ _ _ _ _ _ _ _ E0)|apply IH; [exact Ha|reflexivity]|exact Hc|exact E].
    - destruct (run_call c n0) as [[r n'] t]. discriminate Hh.
    - destruct (handle_init digest root_of cf o1 o2 d) as [[d'|x|] t]; try discriminate Hh.
      destruct (start digest cf d') as [n'|x|] eqn:Es; try discriminate Hh. injection Hh as <-.
      apply start_out in Es as (e & _ & ->). split; [apply keyed_new|]. intros h t' Ht. exfalso. clear -Ht. cbn in Ht. discriminate Ht.
    - injection Hh as <-. apply IH; [exact Ha|reflexivity].
    - destruct (handle_init digest root_of cf o1 o2 d) as [r t]. discriminate Hh.
    - injection Hh as <-. apply IH; [exact Ha|reflexivity].
  Qed.
End Once.

(** ** A careful node does not propose a transaction a second time: nothing its
    proposal names is stored, or being committed. *)
Theorem C100_own_proposals_fresh :
  forall digest root_of show verify shapes cf l (n : node) id now p ph (n' : node) tr,
  along digest root_of show verify shapes cf careful (Down (∅, ∅)) l ->
  history digest root_of show verify shapes cf l = Up n ->
  run_call digest root_of show verify shapes cf (CallPropose id now) n = (Ok (RepPill p ph), n', tr) ->
  forall h, h ∈ ep_ordered_tx_hashes (pl_epoch p) ++ pl_propose_hashes p ->
    get_transaction_by_hash rocks_col (nd_disk n).1 h = Err GetNone /\ ~ under_way n h.
Proof.
  intros digest root_of show verify shapes cf l n id now p ph n' tr Ha Hh E h Hin.
  pose proof (node_inv _ _ _ _ _ _ _ _ Hh) as Hp.
  destruct (package_sub digest root_of show verify shapes cf n id now _ n' tr Hp E) as [_ S].
  destruct (S p ph eq_refl h Hin) as [t Ht].
  destruct (fresh_history digest root_of show verify shapes cf l n Ha Hh) as [_ F]. destruct (F h t Ht) as [F1 F2].
  split; [apply none_stored, F1|exact F2].
Qed.
Print Assumptions C100_own_proposals_fresh.

(** ** Replayed by a leader.  The transfer [t] has been committed (it is stored)
    and is not in the pool.  A proposal ordering it once more is accepted, the
    transaction being pulled from the proposer; its commit completes, and the
    amount moves a second time. *)
Lemma pulled_again (digest : bytes -> hash) (root_of : gmap bytes bytes -> hash) (show : exec_err -> rstring)
  (verify : bytes -> bytes -> bytes -> bool) (shapes : nat -> shape) (cf : config) (hp : hash) (p : pill) (t : signed_tx) (pl1 : res mp_err (list signed_tx)) (n : node) : hp ∉ nd_exempt n -> pl_propose_hashes p = [] ->
  ep_ordered_tx_hashes (pl_epoch p) = [st_tx_hash t] -> mp_lookup (nd_pool n) (st_tx_hash t) = None ->
  exists n2, run_call digest root_of show verify shapes cf (CallCheck hp p pl1 (Ok [t])) n = (Ok (RepTxs [t]), n2, []) /\
    nd_busy n2 = nd_busy n /\ nd_status n2 = nd_status n /\ nd_disk n2 = nd_disk n /\ mp_lookup (nd_pool n2) (st_tx_hash t) = Some t.
Proof.
  intros Hx Hpr Hord Hlk. unfold mp_lookup in Hlk. destruct (tc_get (mp_tc (nd_pool n)) (st_tx_hash t)) as [?|] eqn:Eg; [discriminate Hlk|].
  assert (tc_contain (mp_tc (nd_pool n)) (st_tx_hash t) = false) as Hc.
  { unfold tc_contain. unfold tc_get in Eg. destruct (tc_map (mp_tc (nd_pool n)) !! st_tx_hash t); [discriminate Eg|reflexivity]. }
  set (p2 := MkMP (mp_size (nd_pool n)) (mp_gap (nd_pool n)) (mp_tc (nd_pool n)) (<[st_tx_hash t := t]> (mp_cb (nd_pool n))) (mp_out (nd_pool n))).
  assert (mp_lookup p2 (st_tx_hash t) = Some t) as Hl2.
  { unfold mp_lookup, p2. cbn [mp_tc mp_cb]. rewrite Eg. apply lookup_insert. }
  exists (set_pool (set_pool n (nd_pool n)) p2). split; [|auto].
  cbn [Consensus.run_call]. unfold abind at 1. unfold check_epoch. unfold abind at 1. unfold aget at 1.
  rewrite decide_False by exact Hx. rewrite Hpr, Hord. unfold abind at 1. unfold abind at 1.
  unfold sync_txs, mp_sync_propose_txs. cbn [tc_show_unknown filter list_filter map_err].
  unfold check_txs, mp_ensure_order_txs, tc_show_unknown. cbn [nd_pool set_pool].
  rewrite filter_cons_True by exact Hc. rewrite filter_nil. cbn [length]. rewrite decide_True by reflexivity.
  cbn [fold_left map_err]. unfold cb_insert. rewrite Hlk.
  unfold get_full_txs, abind, aget, alift. cbn [nd_pool set_pool]. fold p2.
  assert (mp_get_full_txs p2 [st_tx_hash t] = Ok [t]) as ->.
  { apply get_full_iff. constructor; [exact Hl2|constructor]. }
  reflexivity.
Qed.

Lemma proposed_transfer :
  forall digest root_of show verify shapes cf code qs l (n : node) hp p pl1 c (t : signed_tx) (from to : user_address) cr
    (m : accounts) (b : assets) os,
  root_of ∅ = hash_from_empty digest -> parsed_genesis (cf_genesis cf) code qs ->
  along digest root_of show verify shapes cf replies_match (Down (∅, ∅)) l ->
  history digest root_of show verify shapes cf l = Up n -> nd_busy n = Idle ->
  mp_lookup (nd_pool n) (st_tx_hash t) = None ->
  (* somebody else proposes it *)
  hp ∉ nd_exempt n -> pl_propose_hashes p = [] -> ep_ordered_tx_hashes (pl_epoch p) = [st_tx_hash t] ->
  (* the sender can still pay *)
  rt_action (st_raw t) = Transfer to cr -> is_sender digest t (AUser from) ->
  ledger_at digest (nd_disk n) (cs_state_root (nd_status n)) m b ->
  is_Some (b !! cr_asset_id cr) -> 0 < cr_amount cr -> cr_amount cr <= bal m (AUser from) (cr_asset_id cr) ->
  210 <= fee_cycle (rt_fee (st_raw t)) ->
  cm_pill c = p -> length (cm_epoch_hash c) = 32%nat ->
  let id := cs_epoch_id (nd_status n) in
  let run_call := run_call digest root_of show verify shapes cf in
  let l' := l ++ [EvCall (CallCheck hp p pl1 (Ok [t])); EvCall (CallCommit id c); EvCall (CallCommitRest os (Ok tt))] in
  states_ok digest root_of show verify shapes cf l' -> epochs_ok digest root_of show verify shapes cf l' ->
  exists n2 n3 t3 n4 t4,
    run_call (CallCheck hp p pl1 (Ok [t])) n = (Ok (RepTxs [t]), n2, []) /\
    run_call (CallCommit id c) n2 = (Ok RepUnit, n3, t3) /\
    run_call (CallCommitRest os (Ok tt)) n3 = (Ok RepUnit, n4, t4) /\
    history digest root_of show verify shapes cf l' = Up n4 /\
    (db_fits (nd_disk n4).1 -> exists m' b',
       ledger_at digest (nd_disk n4) (cs_state_root (nd_status n4)) m' b' /\
       forall x asset,
         bal m' x asset + (if decide (x = AUser from /\ asset = cr_asset_id cr) then cr_amount cr else 0)
         = bal m x asset + (if decide (x = AUser to /\ asset = cr_asset_id cr) then cr_amount cr else 0)).
Proof.
  intros digest root_of show verify shapes cf code qs l n hp p pl1 c t from to cr m b os Hr Hg Hns Hh Hb Hlk Hx Hpr Hord
    Hact Hsnd Hlg Has Hpos Hbal Hfee Hc Hlen id rc l' Hst Hep.
  destruct (pulled_again digest root_of show verify shapes cf hp p t pl1 n Hx Hpr Hord Hlk) as (n2 & E2 & B2 & S2 & D2 & L2).
  set (l2 := l ++ [EvCall (CallCheck hp p pl1 (Ok [t]))]).
  assert (l' = l2 ++ [EvCall (CallCommit id c); EvCall (CallCommitRest os (Ok tt))]) as El' by (unfold l', l2; rewrite <- app_assoc; reflexivity).
  assert (history digest root_of show verify shapes cf l2 = Up n2) as Hh2 by (unfold l2; eapply history_call; [exact Hh|exact E2]).
  assert (along digest root_of show verify shapes cf replies_match (Down (∅, ∅)) l2) as Hns2.
  { unfold l2. apply along_app. split; [exact Hns|]. cbn [along]. repeat (split; [exact I|]). exact I. }
  rewrite El' in Hst, Hep |- *.
  assert (nd_busy n2 = Idle) as B2' by congruence. rewrite <- D2, <- S2 in Hlg.
  destruct (transfer_committed digest root_of show verify shapes cf code qs l2 n2 id p c t from to cr m b os Hr Hg Hns2 Hh2 B2' L2 Hord Hc Hlen
    Hact Hsnd Hlg Has Hpos Hbal Hfee Hst Hep) as (n3 & t3 & n4 & t4 & K1 & K2 & K3 & _ & K4).
  exists n2, n3, t3, n4, t4. split; [exact E2|]. split; [exact K1|]. split; [exact K2|]. split; [exact K3|].
  intros Hf. destruct (K4 Hf) as (_ & _ & _ & m' & b' & r & Q1 & _ & _ & _ & Q2). exists m', b'. auto.
Qed.

Theorem C100_replayed_refuted :
  forall digest root_of show verify shapes cf code qs l (n : node) hp p pl1 c (t : signed_tx) (from to : user_address) cr
    (m : accounts) (b : assets) os,
  root_of ∅ = hash_from_empty digest -> parsed_genesis (cf_genesis cf) code qs ->
  along digest root_of show verify shapes cf replies_match (Down (∅, ∅)) l ->
  history digest root_of show verify shapes cf l = Up n -> nd_busy n = Idle ->
  (* the transaction was committed before *)
  get_transaction_by_hash rocks_col (nd_disk n).1 (st_tx_hash t) = Ok t -> mp_lookup (nd_pool n) (st_tx_hash t) = None ->
  (* somebody else proposes it *)
  hp ∉ nd_exempt n -> pl_propose_hashes p = [] -> ep_ordered_tx_hashes (pl_epoch p) = [st_tx_hash t] ->
  (* the sender can still pay *)
  rt_action (st_raw t) = Transfer to cr -> is_sender digest t (AUser from) ->
  ledger_at digest (nd_disk n) (cs_state_root (nd_status n)) m b ->
  is_Some (b !! cr_asset_id cr) -> 0 < cr_amount cr -> cr_amount cr <= bal m (AUser from) (cr_asset_id cr) ->
  210 <= fee_cycle (rt_fee (st_raw t)) ->
  cm_pill c = p -> length (cm_epoch_hash c) = 32%nat ->
  let id := cs_epoch_id (nd_status n) in
  let run_call := run_call digest root_of show verify shapes cf in
  let l' := l ++ [EvCall (CallCheck hp p pl1 (Ok [t])); EvCall (CallCommit id c); EvCall (CallCommitRest os (Ok tt))] in
  states_ok digest root_of show verify shapes cf l' -> epochs_ok digest root_of show verify shapes cf l' ->
  exists n2 n3 t3 n4 t4,
    run_call (CallCheck hp p pl1 (Ok [t])) n = (Ok (RepTxs [t]), n2, []) /\
    run_call (CallCommit id c) n2 = (Ok RepUnit, n3, t3) /\
    run_call (CallCommitRest os (Ok tt)) n3 = (Ok RepUnit, n4, t4) /\
    history digest root_of show verify shapes cf l' = Up n4 /\
    (db_fits (nd_disk n4).1 -> exists m' b',
       ledger_at digest (nd_disk n4) (cs_state_root (nd_status n4)) m' b' /\
       forall x asset,
         bal m' x asset + (if decide (x = AUser from /\ asset = cr_asset_id cr) then cr_amount cr else 0)
         = bal m x asset + (if decide (x = AUser to /\ asset = cr_asset_id cr) then cr_amount cr else 0)).
Proof.
  intros digest root_of show verify shapes cf code qs l n hp p pl1 c t from to cr m b os Hr Hg Hns Hh Hb _ Hlk Hx Hpr Hord
    Hact Hsnd Hlg Has Hpos Hbal Hfee Hc Hlen id rc l' Hst Hep.
  exact (proposed_transfer digest root_of show verify shapes cf code qs l n hp p pl1 c t from to cr m b os Hr Hg Hns Hh Hb Hlk Hx Hpr Hord
    Hact Hsnd Hlg Has Hpos Hbal Hfee Hc Hlen Hst Hep).
Qed.
Print Assumptions C100_replayed_refuted.

(** ** Proposed again after catching up.  The node takes over from a peer an
    epoch that contains a transaction of its own pool; the pool is left as it
    is, and the node's next proposal consists of the committed transaction. *)
Definition sync_event (e : event) : Prop := match e with EvCall (CallSync _ _) | EvCall (CallSyncEpoch _ _ _) => True | _ => False end.

Lemma sync_pool_same (digest : bytes -> hash) (root_of : gmap bytes bytes -> hash) (show : exec_err -> rstring)
  (verify : bytes -> bytes -> bytes -> bool) (shapes : nat -> shape) (cf : config) ls : forall n n2 : node, Forall sync_event ls ->
  fold_left (happens digest root_of show verify shapes cf) ls (Up n) = Up n2 -> nd_pool n2 = nd_pool n.
Proof.
  induction ls as [|ev ls IH]; intros n n2 Hs E; cbn [fold_left] in E; [injection E as <-; reflexivity|].
  apply Forall_cons in Hs as [H1 Hs]. destruct ev as [c| | |]; try destruct H1. cbn [Consensus.happens] in E.
  destruct (run_call digest root_of show verify shapes cf c n) as [[r n1] t] eqn:E1.
  rewrite (IH n1 n2 Hs E). destruct c as [| | | | |msg first|os re rt]; try destruct H1.
  - apply call_sync in E1 as (r1 & E1 & _). inversion E1; subst; reflexivity.
  - apply call_sync_epoch in E1 as (r1 & E1). inversion E1; subst; reflexivity.
Qed.

Theorem C100_proposed_again_after_sync_refuted :
  forall digest root_of show verify shapes cf l (n n1 : node) net (t : signed_tx) tr1 ls (n2 : node) e now,
  history digest root_of show verify shapes cf l = Up n -> mp_len (nd_pool n) = 0%nat ->
  run_call digest root_of show verify shapes cf (CallInsert net t (Ok tt)) n = (Ok RepUnit, n1, tr1) ->
  Forall sync_event ls ->
  history digest root_of show verify shapes cf (l ++ EvCall (CallInsert net t (Ok tt)) :: ls) = Up n2 ->
  (* it is committed now *)
  get_transaction_by_hash rocks_col (nd_disk n2).1 (st_tx_hash t) = Ok t ->
  (* and neither expired nor too large *)
  get_latest_epoch rocks_col digest (nd_disk n2).1 = Ok e ->
  eh_epoch_id (ep_header e) < rt_timeout (st_raw t) -> rt_timeout (st_raw t) <= (eh_epoch_id (ep_header e) + cf_gap cf) mod two64 ->
  small (cs_limit (nd_status n2)) -> fee_cycle (rt_fee (st_raw t)) <= cs_limit (nd_status n2) ->
  exists p h n3,
    run_call digest root_of show verify shapes cf (CallPropose (cs_epoch_id (nd_status n2)) now) n2 = (Ok (RepPill p h), n3, []) /\
    ep_ordered_tx_hashes (pl_epoch p) = [st_tx_hash t].
Proof.
  intros digest root_of show verify shapes cf l n n1 net t tr1 ls n2 e now Hh Hl Ei Hs Hh2 _ He Hto Hgap Hsm Hc.
  assert (nd_pool n2 = nd_pool n1) as Hp2.
  { apply (sync_pool_same digest root_of show verify shapes cf ls); [exact Hs|]. rewrite <- Hh2. unfold Consensus.history.
    rewrite fold_left_app. cbn [fold_left]. fold (Consensus.history digest root_of show verify shapes cf l).
    change (fold_left _ l (Down (∅, ∅))) with (history digest root_of show verify shapes cf l). rewrite Hh. cbn [Consensus.happens]. rewrite Ei. reflexivity. }
  pose proof (node_inv _ _ _ _ _ _ _ _ Hh) as Hp. pose proof (node_inv _ _ _ _ _ _ _ _ Hh2) as Hpn.
  cbn [Consensus.run_call] in Ei.
  pose proof (insert_outcome digest verify (cf_pool_size cf) (cf_gap cf) (cf_gap cf) (nd_pool n) net t (env_of digest (nd_disk n)) (Ok tt) Hp) as Ho.
  destruct (mp_insert digest verify (cf_gap cf) (nd_pool n) net t (env_of digest (nd_disk n)) (Ok tt)) as [r0 p1].
  destruct Ho as (_ & _ & [(_ & _ & Een & _)|(_ & Hr & _)]).
  2:{ destruct r0 as [u|x|]; [destruct (Hr u eq_refl)|discriminate Ei..]. }
  assert (nd_pool n1 = p1) as Hp1 by (injection Ei as _ <- _; reflexivity). rewrite <- Hp1, <- Hp2 in Een.
  rewrite (len_entries _ _ _ Hp) in Hl. apply nil_length_inv in Hl. rewrite Hl in Een. cbn [app] in Een.
  assert (en_latest (env_of digest (nd_disk n2)) = Ok (eh_chain_id (ep_header e), eh_epoch_id (ep_header e))) as Henv.
  { cbn [env_of en_latest]. rewrite He. reflexivity. }
  assert (alive (eh_epoch_id (ep_header e)) (cf_gap cf) (t, false) = true) as Hal.
  { unfold alive. cbn [fst]. apply andb_true_iff. split; [apply N.ltb_lt; exact Hto|]. apply N.leb_le. exact Hgap. }
  assert (small_tx t) as Hst by (unfold small_tx, small in *; lia).
  pose proof (package_exact (cf_pool_size cf) (cf_gap cf) (nd_pool n2) Hpn (cs_limit (nd_status n2)) (env_of digest (nd_disk n2)) _ _ Henv Hsm) as Hx.
  rewrite Een in Hx. assert (Forall (fun x : entry => small_tx x.1) [(t, false)]) as Hfa by (apply Forall_cons; split; [exact Hst|apply Forall_nil; exact I]).
  specialize (Hx Hfa). cbv zeta in Hx.
  rewrite filter_cons_True in Hx by exact Hal. rewrite filter_nil in Hx.
  assert (fit (cs_limit (nd_status n2)) (@cons entry (t, false) []) = @cons entry (t, false) []) as Hfit.
  { cbn [fit]. unfold cycles. cbn [fst]. rewrite (proj2 (N.leb_le _ _) Hc). reflexivity. }
  unfold proposal in Hx. rewrite Hfit in Hx. cbn [length skipn map e_hash fst] in Hx.
  destruct (mp_package (nd_pool n2) (cs_limit (nd_status n2)) (env_of digest (nd_disk n2))) as [r2 p2] eqn:Epk. cbn [fst] in Hx. subst r2.
  cbn [Consensus.run_call]. unfold abind at 1. unfold get_epoch. unfold abind at 1. unfold aget at 1.
  unfold abind at 1. unfold get_txs_from_mempool. rewrite Epk. cbn [map_err].
  rewrite decide_True by reflexivity. unfold abind at 1. unfold aupd at 1. unfold aret.
  eexists _, _, _. split; reflexivity.
Qed.
Print Assumptions C100_proposed_again_after_sync_refuted.
