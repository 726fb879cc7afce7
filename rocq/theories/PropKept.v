(** * C49: an accepted transaction is kept until it is committed or expires. *)
From Verif Require Import Base BaseFacts Hex Types FixedCodec StateAdapter Executor Mempool MempoolSpec MempoolFacts MempoolProps MempoolMore
  Merkle Bincode ConsMsg Proto Wire Storage StorageSpec Consensus ConsSpec ConsFacts ConsInv NodePool.
Local Open Scope N_scope.

(** The call that takes [t] out of the pool of a node in state [m]: it commits
    an epoch that orders [t], or it proposes an epoch when the timeout of [t] is
    not above the latest stored epoch, or is more than the configured gap above. *)
Inductive takes_out (digest : bytes -> hash) (gap : u64) (t : signed_tx) (m : node) : call -> Prop :=
| out_committed id c : st_tx_hash t ∈ ep_ordered_tx_hashes (pl_epoch (cm_pill c)) -> takes_out digest gap t m (CallCommit id c)
| out_expired id now e : get_latest_epoch rocks_col digest (nd_disk m).1 = Ok e ->
    ~ (eh_epoch_id (ep_header e) < rt_timeout (st_raw t) /\
       rt_timeout (st_raw t) <= (eh_epoch_id (ep_header e) + gap) mod two64) ->
    takes_out digest gap t m (CallPropose id now).

Section Kept.
  Context (digest : bytes -> hash) (root_of : gmap bytes bytes -> hash) (show : exec_err -> rstring)
          (verify : bytes -> bytes -> bytes -> bool) (shapes : nat -> shape) (cf : config).
  Notation run_call := (run_call digest root_of show verify shapes cf).
  Notation history := (Consensus.history digest root_of show verify shapes cf).
  Notation inv_of := (mp_inv (cf_pool_size cf) (cf_gap cf)).

  Lemma node_inv l (n : node) : history l = Up n -> inv_of (nd_pool n).
  Proof. intros H. apply pool_history in H as [ops ->]. apply pool_inv. Qed.

  Lemma sync_kept hs pl (n : node) r (n' : node) tr h t : inv_of (nd_pool n) -> sync_txs hs pl n = (r, n', tr) ->
    mp_pooled (nd_pool n) h = Some t -> mp_pooled (nd_pool n') h = Some t.
  Proof.
    intros Hp. unfold sync_txs, mp_sync_propose_txs. destruct (tc_show_unknown _ _) as [|u us].
    - intros [= <- <- <-]. exact id.
    - destruct pl as [txs|x|]; intros [= <- <- <-]; try exact id. intros E. cbn [nd_pool set_pool].
      unfold mp_pooled. apply sync_keeps; [apply Hp|exact E].
  Qed.
  Lemma check_kept hs pl (n : node) r (n' : node) tr h t : check_txs hs pl n = (r, n', tr) ->
    mp_pooled (nd_pool n) h = Some t -> mp_pooled (nd_pool n') h = Some t.
  Proof.
    unfold check_txs, mp_ensure_order_txs. destruct (tc_show_unknown _ _) as [|u us].
    - intros [= <- <- <-]. exact id.
    - destruct pl as [txs|x|]; [destruct (decide _)|..]; intros [= <- <- <-]; exact id.
  Qed.

  Lemma call_kept c (n : node) r (n' : node) tr h t : inv_of (nd_pool n) -> run_call c n = (r, n', tr) ->
    mp_pooled (nd_pool n) h = Some t -> mp_pooled (nd_pool n') h = Some t \/ takes_out digest (cf_gap cf) t n c.
  Proof.
    intros Hp E Ht. assert (st_tx_hash t = h) as Hh by (apply (pooled_entry _ _ _ Hp) in Ht as (b & _ & X); exact X).
    destruct c as [net tx sent|id now|hp p pl1 pl2|id c|os sent|msg first|os re rt].
    - left. cbn [Consensus.run_call] in E.
      pose proof (insert_outcome digest verify _ (cf_gap cf) _ (nd_pool n) net tx (env_of digest (nd_disk n)) sent Hp) as G.
      destruct (mp_insert _ _ _ _ _ _ _ _) as [r0 p]. injection E as <- <- <-. destruct G as (Hp' & _ & G).
      cbn [nd_pool set_pool]. apply (pooled_entry _ _ _ Hp) in Ht as (b & Hin & _). apply (pooled_entry _ _ _ Hp'). exists b.
      split; [|exact Hh]. destruct G as [(_ & _ & -> & _)|(_ & _ & -> & _)]; [apply elem_of_app; left|]; exact Hin.
    - cbn [Consensus.run_call] in E. unfold get_epoch, abind, aget, get_txs_from_mempool, aupd, aret, alift in E.
      pose proof (package_inv _ _ (nd_pool n) (cs_limit (nd_status n)) (env_of digest (nd_disk n)) Hp) as (Q1 & _ & _ & Q4).
      destruct (en_latest (env_of digest (nd_disk n))) as [[ch ep]|x|] eqn:El.
      + destruct (package_lists _ _ _ Hp (cs_limit (nd_status n)) _ _ _ El) as (o & q & p' & Ep & _).
        pose proof (package_facts _ _ _ Hp (cs_limit (nd_status n)) _ _ _ El _ _ _ Ep) as (_ & _ & X & _).
        rewrite Ep in E. cbn [map_err] in E.
        assert (nd_pool n' = p') as -> by (destruct (decide _); injection E as <- <- <-; reflexivity).
        cbn [env_of en_latest] in *.
        destruct (get_latest_epoch rocks_col digest (nd_disk n).1) as [e|x|] eqn:Ee;
          cbn [ext_err map_err rbind] in El; [|exfalso; clear -El; destruct x; discriminate El|exfalso; clear -El; discriminate El].
        injection El as <- <-.
        destruct (decide (eh_epoch_id (ep_header e) < rt_timeout (st_raw t) /\
           rt_timeout (st_raw t) <= (eh_epoch_id (ep_header e) + cf_gap cf) mod two64)) as [D|D].
        * left. apply X. split; [exact Ht|exact D].
        * right. eapply out_expired; [exact Ee|exact D].
      + left. destruct Q4 as [Q4 Q5]. destruct (mp_package _ _ _) as [r0 p0]. cbn [fst snd] in *. subst r0 p0.
        cbn [map_err] in E. injection E as <- <- <-. exact Ht.
      + left. destruct Q4 as [Q4 Q5]. destruct (mp_package _ _ _) as [r0 p0]. cbn [fst snd] in *. subst r0 p0.
        cbn [map_err] in E. injection E as <- <- <-. exact Ht.
    - left. cbn [Consensus.run_call] in E. unfold check_epoch, abind, aget in E.
      destruct (decide (hp ∈ nd_exempt n)); unfold aret in E.
      + destruct (get_full_txs _ n) as [[r1 n1] t1] eqn:E0. apply get_full_light in E0 as [-> ->].
        destruct r1; injection E as <- <- <-; exact Ht.
      + destruct (sync_txs _ _ n) as [[r1 n1] t1] eqn:E1. pose proof (sync_kept _ _ _ _ _ _ _ _ Hp E1 Ht) as H1.
        destruct r1 as [[]|e|]; [|injection E as <- <- <-; exact H1..].
        destruct (check_txs _ _ n1) as [[r2 n2] t2] eqn:E2. pose proof (check_kept _ _ _ _ _ _ _ _ E2 H1) as H2.
        destruct r2 as [[]|e|]; [|injection E as <- <- <-; exact H2..].
        destruct (get_full_txs _ n2) as [[r3 n3] t3] eqn:E3. apply get_full_light in E3 as [-> ->].
        destruct r3; injection E as <- <- <-; exact H2.
    - apply call_commit in E as (r1 & E).
      inversion E as [r0 _ | eh r0 | eh txs]; subst; try (left; exact Ht). cbn [nd_pool set_busy set_pool].
      destruct (flush_facts _ _ (nd_pool n) (ep_ordered_tx_hashes (pl_epoch (cm_pill c))) Hp) as (_ & _ & F & _). rewrite F.
      destruct (decide (st_tx_hash t ∈ ep_ordered_tx_hashes (pl_epoch (cm_pill c)))) as [D|D]; [right; constructor; exact D|left; exact Ht].
    - left. apply call_rest in E as (r1 & E). inversion E; subst; exact Ht.
    - left. apply call_sync in E as (r1 & E & _). inversion E; subst; exact Ht.
    - left. apply call_sync_epoch in E as (r1 & E). inversion E; subst; exact Ht.
  Qed.

  Lemma happens_kept c l (n n' : node) h t : history l = Up n -> history (l ++ [EvCall c]) = Up n' ->
    mp_pooled (nd_pool n) h = Some t -> mp_pooled (nd_pool n') h = Some t \/ takes_out digest (cf_gap cf) t n c.
  Proof.
    intros Hl H Ht. unfold Consensus.history in H. rewrite fold_left_app in H.
    change (fold_left _ l _) with (history l) in H. rewrite Hl in H. cbn [fold_left happens] in H.
    destruct (run_call c n) as [[r n1] tr] eqn:E. injection H as <-.
    eapply call_kept; [eapply node_inv, Hl|exact E|exact Ht].
  Qed.
  Lemma call_up c l (n : node) : history l = Up n -> exists n', history (l ++ [EvCall c]) = Up n'.
  Proof.
    intros Hl. unfold Consensus.history. rewrite fold_left_app. change (fold_left _ l _) with (history l). rewrite Hl.
    cbn [fold_left happens]. destruct (run_call c n) as [[r n1] tr]. eauto.
  Qed.
End Kept.

(** Whatever other calls a running node serves in between -- transactions from
    users and peers, proposals, checks, commits, syncs, in any order and with any
    answers of the other nodes -- a pooled transaction stays pooled, unchanged,
    until the first call that commits it or finds it expired. *)
Theorem C49_kept_while_running :
  forall digest root_of show verify shapes cf (l : list event) (n : node) (h : hash) (t : signed_tx) (cs : list call) (n2 : node),
  let history := history digest root_of show verify shapes cf in
  history l = Up n -> mp_pooled (nd_pool n) h = Some t ->
  history (l ++ map EvCall cs) = Up n2 ->
  mp_pooled (nd_pool n2) h = Some t \/
  exists cs1 c cs2 m, cs = cs1 ++ c :: cs2 /\ history (l ++ map EvCall cs1) = Up m /\
    mp_pooled (nd_pool m) h = Some t /\ takes_out digest (cf_gap cf) t m c.
Proof.
  intros digest root_of show verify shapes cf l n h t cs n2 hist. subst hist. intros Hl Ht.
  revert n2. induction cs as [|c cs IH] using rev_ind; intros n2 H2.
  - cbn [map] in H2. rewrite app_nil_r in H2. rewrite Hl in H2. injection H2 as <-. left. exact Ht.
  - rewrite map_app, app_assoc in H2. cbn [map] in H2.
    assert (exists m, history digest root_of show verify shapes cf (l ++ map EvCall cs) = Up m) as [m Hm].
    { clear -Hl. induction cs as [|c cs [m Hm]] using rev_ind; [exists n; cbn [map]; rewrite app_nil_r; exact Hl|].
      rewrite map_app, app_assoc. cbn [map]. eapply call_up, Hm. }
    destruct (IH m Hm) as [IH1|(cs1 & c1 & cs2 & m1 & -> & A & B & C)].
    + destruct (happens_kept _ _ _ _ _ _ _ _ _ _ _ _ Hm H2 IH1) as [K|K]; [left; exact K|].
      right. exists cs, c, [], m. auto.
    + right. exists cs1, c1, (cs2 ++ [c]), m1. rewrite <- app_assoc. auto.
Qed.
Print Assumptions C49_kept_while_running.

(** A call that reports success to the user puts the transaction in the pool. *)
Theorem C49_accepted_is_pooled :
  forall digest root_of show verify shapes cf (l : list event) (n : node) net (t : signed_tx) sent rep (n2 : node) tr,
  history digest root_of show verify shapes cf l = Up n ->
  run_call digest root_of show verify shapes cf (CallInsert net t sent) n = (Ok rep, n2, tr) ->
  mp_pooled (nd_pool n2) (st_tx_hash t) = Some t.
Proof.
  intros digest root_of show verify shapes cf l n net t sent rep n2 tr Hl E. apply node_inv in Hl as Hp.
  cbn [run_call] in E.
  pose proof (insert_outcome digest verify _ (cf_gap cf) _ (nd_pool n) net t (env_of digest (nd_disk n)) sent Hp) as G.
  destruct (mp_insert _ _ _ _ _ _ _ _) as [r0 p]. injection E as E <- <-. destruct G as (Hp' & _ & G).
  cbn [nd_pool set_pool]. destruct G as [(_ & _ & En & _)|(_ & N & _)].
  - apply (pooled_entry _ _ _ Hp'). exists false. rewrite En. split; [apply elem_of_app; right; left|reflexivity].
  - destruct r0 as [x|x|]; try discriminate. exfalso. exact (N x eq_refl).
Qed.
Print Assumptions C49_accepted_is_pooled.

(** But only while the node runs: the pool is in memory alone.  A node that
    starts has an empty pool and gives out nothing, whatever it had accepted. *)
Theorem C49_restart_loses_all_refuted :
  forall digest root_of show verify shapes cf (l : list event) (d : durable) o1 o2 (n : node) (h : hash),
  history digest root_of show verify shapes cf l = Down d ->
  history digest root_of show verify shapes cf (l ++ [EvBoot o1 o2]) = Up n ->
  mp_pooled (nd_pool n) h = None /\ mp_lookup (nd_pool n) h = None /\ mp_out (nd_pool n) = [].
Proof.
  intros digest root_of show verify shapes cf l d o1 o2 n h Hl H. unfold history in H. rewrite fold_left_app in H.
  change (fold_left _ l _) with (history digest root_of show verify shapes cf l) in H. rewrite Hl in H. cbn [fold_left happens] in H.
  destruct (handle_init _ _ _ _ _ _) as [[d'|x|] tr]; [|discriminate..].
  destruct (start digest cf d') as [n0|x|] eqn:E; [|discriminate..]. injection H as <-.
  apply start_out in E as (e & _ & ->). cbn [nd_pool]. repeat split; reflexivity.
Qed.
Print Assumptions C49_restart_loses_all_refuted.
