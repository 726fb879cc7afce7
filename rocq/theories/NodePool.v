(** * The pool of a running node is a pool reached by calls of its API, so that
    what is proved of those (PropMempool) holds of it. *)
From Verif Require Import Base BaseFacts Hex Types FixedCodec StateAdapter Executor Mempool MempoolSpec MempoolFacts MempoolProps MempoolMore
  Merkle Bincode ConsMsg Proto Wire Storage StorageSpec Consensus ConsSpec ConsFacts ConsInv.
Local Open Scope N_scope.

Section NodePool.
  Context (digest : bytes -> hash) (root_of : gmap bytes bytes -> hash) (show : exec_err -> rstring)
          (verify : bytes -> bytes -> bytes -> bool) (shapes : nat -> shape) (cf : config).
  Notation run_call := (run_call digest root_of show verify shapes cf).
  Notation history := (Consensus.history digest root_of show verify shapes cf).
  Notation run_pool := (mp_run digest verify (cf_gap cf)).

  Definition steps_to (p p' : mempool) : Prop := exists ops, p' = (run_pool p ops).2.
  Lemma steps_refl (p : mempool) : steps_to p p.
  Proof. exists []. reflexivity. Qed.
  Lemma steps_one (p : mempool) (o : mp_op) : steps_to p (mp_step digest verify (cf_gap cf) p o).2.
  Proof. exists [o]. cbn [mp_run]. destruct (mp_step _ _ _ _ _). reflexivity. Qed.
  Lemma steps_trans (a b c : mempool) : steps_to a b -> steps_to b c -> steps_to a c.
  Proof.
    intros [o1 ->] [o2 ->]. exists (o1 ++ o2). rewrite run_app. destruct (run_pool a o1) as [r1 p1].
    cbn [snd]. destruct (run_pool p1 o2). reflexivity.
  Qed.

  Lemma sync_pool hs pl (n : node) r (n' : node) t : sync_txs hs pl n = (r, n', t) -> steps_to (nd_pool n) (nd_pool n').
  Proof.
    unfold sync_txs. pose proof (steps_one (nd_pool n) (OpSync hs (fun _ => pl))) as S. cbn [mp_step] in S.
    destruct (mp_sync_propose_txs _ _ _) as [r0 p]. intros [= <- <- <-]. exact S.
  Qed.
  Lemma check_pool hs pl (n : node) r (n' : node) t : check_txs hs pl n = (r, n', t) -> steps_to (nd_pool n) (nd_pool n').
  Proof.
    unfold check_txs. pose proof (steps_one (nd_pool n) (OpEnsure hs (fun _ => pl))) as S. cbn [mp_step] in S.
    destruct (mp_ensure_order_txs _ _ _) as [r0 p]. intros [= <- <- <-]. exact S.
  Qed.

  Lemma call_pool c (n : node) r (n' : node) t : run_call c n = (r, n', t) -> steps_to (nd_pool n) (nd_pool n').
  Proof.
    destruct c as [net tx sent|id now|h p pl1 pl2|id c|os sent|msg first|os re rt].
    - cbn [Consensus.run_call].
      pose proof (steps_one (nd_pool n) (OpInsert net tx (env_of digest (nd_disk n)) sent)) as S. cbn [mp_step] in S.
      destruct (mp_insert _ _ _ _ _ _ _ _) as [r0 p]. intros [= <- <- <-]. exact S.
    - cbn [Consensus.run_call]. unfold get_epoch, abind, aget, get_txs_from_mempool, aupd, aret, alift.
      pose proof (steps_one (nd_pool n) (OpPackage (cs_limit (nd_status n)) (env_of digest (nd_disk n)))) as S. cbn [mp_step] in S.
      destruct (mp_package _ _ _) as [r0 p]. cbn [snd] in S.
      destruct r0 as [[o q]|e|]; cbn [map_err]; [destruct (decide _)|..]; intros [= <- <- <-]; exact S.
    - cbn [Consensus.run_call]. unfold check_epoch, abind, aget.
      destruct (decide (h ∈ nd_exempt n)); unfold aret.
      + destruct (get_full_txs _ n) as [[r1 n1] t1] eqn:E. apply get_full_light in E as [-> ->].
        destruct r1; intros [= <- <- <-]; apply steps_refl.
      + destruct (sync_txs _ _ n) as [[r1 n1] t1] eqn:E1. apply sync_pool in E1.
        destruct r1 as [[]|e|]; [|intros [= <- <- <-]; exact E1..].
        destruct (check_txs _ _ n1) as [[r2 n2] t2] eqn:E2. apply check_pool in E2.
        destruct r2 as [[]|e|]; [|intros [= <- <- <-]; eauto using steps_trans..].
        destruct (get_full_txs _ n2) as [[r3 n3] t3] eqn:E3. apply get_full_light in E3 as [-> ->].
        destruct r3; intros [= <- <- <-]; eauto using steps_trans.
    - intros E. apply call_commit in E as (r1 & E).
      inversion E; subst; try apply steps_refl. cbn [nd_pool set_busy set_pool].
      apply (steps_one (nd_pool n) (OpFlush (ep_ordered_tx_hashes (pl_epoch (cm_pill c))))).
    - intros E. apply call_rest in E as (r1 & E). inversion E; subst; apply steps_refl.
    - intros E. apply call_sync in E as (r1 & E & _). inversion E; subst; apply steps_refl.
    - intros E. apply call_sync_epoch in E as (r1 & E). inversion E; subst; apply steps_refl.
  Qed.

  Theorem pool_history l (n : node) : history l = Up n ->
    exists ops, nd_pool n = pool_after digest verify (cf_pool_size cf) (cf_gap cf) (cf_gap cf) ops.
  Proof.
    intros H.
    assert (holds (fun _ => True) (fun n => steps_to (mp_new (cf_pool_size cf) (cf_gap cf)) (nd_pool n)) (history l)) as G.
    { refine (machine_inv digest root_of show verify shapes cf (fun _ => True)
        (fun m => steps_to (mp_new (cf_pool_size cf) (cf_gap cf)) (nd_pool m)) (fun _ _ => True) _ _ _ _ _ _ l _).
      - intros; exact I.
      - intros; exact I.
      - exact I.
      - intros m c r m' t _ St _ E. split; [apply Forall_forall; intros; exact I|]. eapply steps_trans; [exact St|]. eapply call_pool, E.
      - intros. apply Forall_forall. intros; exact I.
      - intros d m _ E. apply start_out in E as (e & _ & ->). apply steps_refl.
      - assert (forall m, along digest root_of show verify shapes cf (fun _ _ => True) m l) as A; [|apply A].
        clear H. induction l as [|ev l IH]; intros m; cbn [along]; [exact I|split; [exact I|apply IH]]. }
    rewrite H in G. destruct G as [_ [ops E]]. exists ops. exact E.
  Qed.
End NodePool.
