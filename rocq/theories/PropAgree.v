(** * C113: the answer about a balance depends on the state root alone. *)
From Verif Require Import Base BaseFacts Hex Types Rlp RlpFacts FixedCodec FixedCodecFacts CodecProps StateAdapter StateAdapterFacts
  Executor ExecutorFacts ExecSpec ExecProps ExecBlock ExecMore ExecOrder ExecChain Mempool MempoolSpec MempoolMore Merkle Bincode ConsMsg Proto Wire Storage StorageSpec StorageFacts
  StorageProps Consensus ConsSpec ConsFacts ConsInv ConsChain Api ApiSpec ApiFacts LedgerSpec LedgerFacts LedgerRun ImmutFacts PropConsensus PropImmut PropApi EndFacts PropEnd BalanceFacts PropBalance.
Local Open Scope N_scope.

(** Databases that hold the same trie under every hash both know. *)
Definition consistent (d d' : gmap hash (gmap bytes bytes)) : Prop :=
  forall (r : hash) (T T' : gmap bytes bytes), d !! r = Some T -> d' !! r = Some T' -> T = T'.

Lemma trie_from_same (r : hash) (d d' : gmap hash (gmap bytes bytes)) (T T' : gmap bytes bytes) : consistent d d' -> trie_from r d = Ok T -> trie_from r d' = Ok T' -> T = T'.
Proof. intros Hc H H'. apply trie_from_ok in H, H'. exact (Hc _ _ _ H H'). Qed.
Lemma contract_same {K V} `{Countable K} (s : StateAdapter.schema K V) (top : gmap bytes bytes) (addr : bytes) (d d' : gmap hash (gmap bytes bytes)) a a' :
  consistent d d' -> gen_contract_state s top addr d = Ok a -> gen_contract_state s top addr d' = Ok a' -> a = a'.
Proof.
  intros Hc. unfold gen_contract_state. destruct (top !! addr) as [v|]; [|intros E E'; congruence].
  destruct (map_err ETypes (hash_from_bytes v)) as [r|x|]; cbn [rbind]; [|discriminate..].
  destruct (trie_from r d) as [T|x|] eqn:E; cbn [rbind]; [|discriminate..].
  destruct (trie_from r d') as [T'|x|] eqn:E'; cbn [rbind]; [|discriminate..].
  rewrite (trie_from_same _ _ _ _ _ Hc E E'). congruence.
Qed.
Lemma open_consistent (digest : bytes -> hash) (ch ch' root : hash) (d d' : gmap hash (gmap bytes bytes)) (e e' p p' : u64) (cb cb' : address) (x x' : executor) : consistent d d' ->
  Executor.from_root digest ch root d e p cb = Ok x -> Executor.from_root digest ch' root d' e' p' cb' = Ok x' ->
  x_acc x = x_acc x' /\ x_bank x = x_bank x'.
Proof.
  intros Hc H H'. unfold Executor.from_root in H, H'.
  apply rbind_ok in H as (top & H1 & H). apply rbind_ok in H as (acc & H2 & H). apply rbind_ok in H as (bank & H3 & [= <-]).
  apply rbind_ok in H' as (top' & H1' & H'). apply rbind_ok in H' as (acc' & H2' & H'). apply rbind_ok in H' as (bank' & H3' & [= <-]).
  assert (top = top') as <-.
  { destruct (decide _); [congruence|]. exact (trie_from_same _ _ _ _ _ Hc H1 H1'). }
  cbn [x_acc x_bank]. split; [exact (contract_same _ _ _ _ _ _ _ Hc H2 H2')|exact (contract_same _ _ _ _ _ _ _ Hc H3 H3')].
Qed.

Section Agree.
  Context (digest : bytes -> hash) (root_of : gmap bytes bytes -> hash) (show show' : exec_err -> rstring)
          (verify : bytes -> bytes -> bytes -> bool) (shapes shapes' : nat -> shape) (cf cf' : config).
  Notation history := (Consensus.history digest root_of show verify shapes cf).
  Notation history' := (Consensus.history digest root_of show' verify shapes' cf').
  Notation states_ok := (states_ok digest root_of show verify shapes cf).
  Notation states_ok' := (LedgerSpec.states_ok digest root_of show' verify shapes' cf').
  Notation written l := (concat (map tries_of (execs_seen digest root_of show verify shapes cf (Down (∅, ∅)) l))).
  Notation written' l := (concat (map tries_of (execs_seen digest root_of show' verify shapes' cf' (Down (∅, ∅)) l))).
  Context (code code' : bytes) (qs qs' : list (address * list (hash * N))).
  Hypothesis Hempty : root_of ∅ = hash_from_empty digest.
  Hypothesis Hgen : parsed_genesis (cf_genesis cf) code qs.
  Hypothesis Hgen' : parsed_genesis (cf_genesis cf') code' qs'.

  Lemma histories_consistent l l' : states_ok l -> states_ok' l' -> clash_free root_of (written l ++ written' l') ->
    consistent (disk (history l)).2 (disk (history' l')).2.
  Proof using Hempty Hgen Hgen'.
    intros H H' Hc r T T' E E'.
    pose proof (db_history digest root_of show verify shapes cf code qs Hempty Hgen _ l (so_roots _ _ _ _ _ _ _ H) (step_in_along digest root_of show verify shapes cf l H)) as D.
    pose proof (db_history digest root_of show' verify shapes' cf' code' qs' Hempty Hgen' _ l' (so_roots _ _ _ _ _ _ _ H')
      (step_in_along digest root_of show' verify shapes' cf' l' H')) as D'.
    destruct (D r T E) as (R & M & _). destruct (D' r T' E') as (R' & M' & _).
    apply Hc; [apply elem_of_app; left; exact M|apply elem_of_app; right; exact M'|congruence].
  Qed.

  (** Two nodes with whatever configurations, genesis, histories, blocks, map
      orders, crashes and synchronisation -- or one node at two times, or two
      epochs of one node.  If the headers of two epochs they hold name the same
      state and both have it, it is the same state, and getBalance answers the
      same at both, for every address and asset. *)
  Theorem C113_same_root_same_answer : forall l l' qid qid' n n' e e' m b m' b',
    states_ok l -> states_ok' l' -> clash_free root_of (written l ++ written' l') ->
    asks qid n -> stored digest (disk (history l)) n = Ok e -> ledger_at digest (disk (history l)) (eh_state_root (ep_header e)) m b ->
    asks qid' n' -> stored digest (disk (history' l')) n' = Ok e' -> ledger_at digest (disk (history' l')) (eh_state_root (ep_header e')) m' b' ->
    eh_state_root (ep_header e) = eh_state_root (ep_header e') ->
    m = m' /\ b = b' /\
    forall at_ as_, plain at_ -> plain as_ ->
      query_balance digest (disk (history l)) at_ as_ qid = query_balance digest (disk (history' l')) at_ as_ qid'.
  Proof using Hempty Hgen Hgen'.
    intros l l' qid qid' n n' e e' m b m' b' H H' Hc Hq He (ch & i & p & cb & x & Hx & <- & <-) Hq' He' (ch' & i' & p' & cb' & x' & Hx' & <- & <-) Er.
    pose proof (histories_consistent l l' H H' Hc) as C. rewrite <- Er in Hx'.
    destruct (open_consistent _ _ _ _ _ _ _ _ _ _ _ _ _ _ C Hx Hx') as [E1 E2].
    unfold committed, committed_assets. rewrite E1, E2. split; [reflexivity|]. split; [reflexivity|]. intros at_ as_ P1 P2.
    unfold query_balance. rewrite (proj2 (asks_iff qid n (asks_plain _ _ Hq)) Hq), (proj2 (asks_iff qid' n' (asks_plain _ _ Hq')) Hq'). cbn [rbind].
    destruct (map_err ATypes (address_from_hex (as_hex at_))) as [a|y|]; cbn [rbind]; [|reflexivity..].
    destruct (map_err ATypes (hash_from_hex (as_hex as_))) as [asset|y|]; cbn [rbind]; [|reflexivity..].
    unfold adapter_get_balance, adapter_get_epoch. unfold stored in He, He'. rewrite He, He'. cbn [map_err rbind].
    destruct (from_root_accounts _ _ _ _ _ _ _ _ Hx) as (_ & _ & Hall).
    destruct (Hall (eh_chain_id (ep_header e)) (eh_epoch_id (ep_header e)) (wrap64 0) (AUser (eh_proposer (ep_header e)))) as (y & Hy & Ey).
    destruct (from_root_accounts _ _ _ _ _ _ _ _ Hx') as (_ & _ & Hall').
    destruct (Hall' (eh_chain_id (ep_header e')) (eh_epoch_id (ep_header e')) (wrap64 0) (AUser (eh_proposer (ep_header e')))) as (y' & Hy' & Ey').
    rewrite Hy, <- Er, Hy'. cbn [rbind]. unfold exec_get_balance. rewrite Ey, Ey', E1. reflexivity.
  Qed.

End Agree.
Print Assumptions C113_same_root_same_answer.
