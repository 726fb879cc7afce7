(** * C91, C92: replicas. *)
From Verif Require Import Base Hex Types FixedCodec StateAdapter Executor ExecSpec Mempool MempoolSpec MempoolFacts MempoolProps MempoolMore PropMempool Merkle ConsMsg Proto Wire Storage Consensus ConsSpec
  ConsFacts ConsInv ConsChain LedgerSpec ReplicaSpec ReplicaFacts.
Local Open Scope N_scope.

(** ** C91: nodes given the same blocks agree *)
(** Two nodes of a chain, with their own addresses, pools, clients, peers and
    hash-map iteration orders, that were handed the same blocks, agree. *)
Theorem C91_same_blocks_same_chain :
  forall digest root_of show verify shapes cf cf' a b c d l l' n n',
  LATEST_EPOCH_KEY digest <> LATEST_PROOF_KEY digest ->
  same_rules cf cf' ->
  Forall plain_event l -> Forall plain_event l' ->
  runs_ok digest root_of show verify shapes cf (EvBoot a b :: l) ->
  runs_ok digest root_of show verify shapes cf' (EvBoot c d :: l') ->
  history digest root_of show verify shapes cf (EvBoot a b :: l) = Up n ->
  history digest root_of show verify shapes cf' (EvBoot c d :: l') = Up n' ->
  handed digest root_of show verify shapes cf (Down (∅, ∅)) (EvBoot a b :: l)
    = handed digest root_of show verify shapes cf' (Down (∅, ∅)) (EvBoot c d :: l') ->
  agree digest n n'.
Proof.
  intros digest root_of show verify shapes cf cf' a b c d l l' n n' Hk Hr Hl Hl' [Ho Hc] [Ho' Hc'] Hn Hn' Hh.
  cbn [along] in Ho, Ho'. destruct Ho as [[Oa Ob] Ho], Ho' as [[Oc Od] Ho'].
  cbn [execs_seen event_execs] in Hc, Hc'. apply Forall_app in Hc as [Hc0 Hc]. apply Forall_app in Hc' as [Hc0' Hc'].
  cbn [handed handed_at app] in Hh. unfold history in Hn, Hn'. cbn [fold_left] in Hn, Hn'.
  destruct (happens digest root_of show verify shapes cf (Down (∅, ∅)) (EvBoot a b)) as [d0|n0] eqn:E.
  { destruct (down_stays digest root_of show verify shapes cf l Hl d0) as [d1 X]. congruence. }
  destruct (happens digest root_of show verify shapes cf' (Down (∅, ∅)) (EvBoot c d)) as [d0|n0'] eqn:E'.
  { destruct (down_stays digest root_of show verify shapes cf' l' Hl' d0) as [d1 X]. congruence. }
  destruct (boot_same digest root_of show verify shapes cf cf' a b c d n0 n0' Hr Oa Ob Oc Od Hc0 E E') as [Es Ed].
  set (g := (core (nd_status n0), (nd_disk n0).1, (nd_disk n0).2)).
  assert (rel digest n0 g) as R by (repeat split).
  assert (rel digest n0' g) as R' by (unfold g; rewrite Es, Ed; repeat split).
  destruct (plain_run digest root_of show verify shapes cf l n0 g R Hl Ho Hc) as (m & M1 & M2).
  destruct (plain_run digest root_of show verify shapes cf' l' n0' g R' Hl' Ho' Hc') as (m' & M1' & M2').
  assert (m = n) as -> by congruence. assert (m' = n') as -> by congruence.
  rewrite <- Hh, <- (proj1 Hr) in M2'. exact (rel_agree digest n n' _ Hk M2 M2').
Qed.
Print Assumptions C91_same_blocks_same_chain.

(** ** C92: the hash of a transaction does not say who sent it *)
(** Whoever signs the hash of somebody else's transaction obtains a transaction
    with the same hash that passes every admission check; if it reaches a pool
    first, the original is refused there for as long as it stays, and the hash
    stands for the newcomer's transaction. *)
Theorem C92_hash_identifies_sender_refuted :
  forall digest verify (gap : u64) e t pk sig,
  (let? _ := check_signature verify t in let? _ := check_transaction digest gap e t in check_storage_exist e (st_tx_hash t)) = Ok tt ->
  verify (sbytes (st_tx_hash t)) sig pk = true ->
  let t' := MkSigned (st_raw t) (st_tx_hash t) pk sig in
  (let? _ := check_signature verify t' in let? _ := check_transaction digest gap e t' in check_storage_exist e (st_tx_hash t')) = Ok tt /\
  forall n gap' ops net b p',
    mp_insert digest verify gap (pool_after digest verify n gap gap' ops) net t' e b = (Ok tt, p') ->
    mp_pooled p' (st_tx_hash t) = Some t' /\
    forall net2 e2 b2, let '(r, p'') := mp_insert digest verify gap p' net2 t e2 b2 in
      (forall x, r <> Ok x) /\ mp_pooled p'' (st_tx_hash t) = Some t'.
Proof.
  intros digest verify gap e t pk sig Ht Hv t'. split.
  { apply (tx_ok_iff digest verify gap e t) in Ht as (_ & H). apply (tx_ok_iff digest verify gap e t'). split; [exact Hv|exact H]. }
  intros n gap' ops net b p' Hi. pose proof (pool_inv digest verify n gap gap' ops) as Hp.
  pose proof (insert_outcome digest verify n gap gap' _ net t' e b Hp) as H. rewrite Hi in H.
  destruct H as (Hp' & _ & [(Ha & Hr & E & _)|(_ & Hr & _)]); [|destruct (Hr tt eq_refl)].
  assert (mp_pooled p' (st_tx_hash t) = Some t') as Hpo.
  { apply (pooled_entry n gap' p' Hp'). exists false. rewrite E. split; [apply elem_of_app; right; left|reflexivity]. }
  split; [exact Hpo|]. intros net2 e2 b2.
  pose proof (insert_outcome digest verify n gap gap' p' net2 t e2 b2 Hp') as H.
  destruct (mp_insert digest verify gap p' net2 t e2 b2) as [r p'']. destruct H as (Hp'' & _ & [(Ha2 & _)|(_ & Hr2 & E2 & _)]).
  - exfalso. destruct Ha2 as (_ & Hc & _).
    assert (mp_contains p' (st_tx_hash t) = true) as X by (apply contains_pooled; eauto). congruence.
  - split; [exact Hr2|]. apply (pooled_entry n gap' p'' Hp''). rewrite E2. apply (pooled_entry n gap' p' Hp'), Hpo.
Qed.
Print Assumptions C92_hash_identifies_sender_refuted.
