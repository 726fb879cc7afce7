(** * C90: no money appears or disappears during a node's life. *)
From Verif Require Import Base Hex Types FixedCodec StateAdapter Executor ExecSpec Mempool Merkle ConsMsg Proto Wire Storage Consensus ConsSpec Api
  ConsInv ConsChain LedgerSpec LedgerFacts LedgerRun.
Local Open Scope N_scope.

(** After any history of a node -- whatever the engine commits, whatever peers
    send, with crashes anywhere -- a state root that opens on its disk opens
    either the whole ledger (for each asset the balances add up to what the
    genesis allocated, and the system token is registered) or an empty one. *)
Theorem C90_no_inflation :
  forall digest root_of show verify shapes cf code qs l chain r e p cb y,
  root_of ∅ = hash_from_empty digest ->
  parsed_genesis (cf_genesis cf) code qs ->
  states_ok digest root_of show verify shapes cf l ->
  Executor.from_root digest chain r (disk (history digest root_of show verify shapes cf l)).2 e p cb = Ok y ->
  full_ledger digest cf code qs y \/ no_ledger y.
Proof.
  intros digest root_of show verify shapes cf code qs l chain r e p cb y He Hg Hok Hy.
  destruct (no_inflation digest root_of show verify shapes cf code qs He Hg l chain r e p cb y Hok Hy) as [(W & T & S1)|H]; [left|right; exact H].
  split; assumption.
Qed.
Print Assumptions C90_no_inflation.

(** No balance reported by the API, at any epoch, is above what the genesis
    allocated of that asset in total. *)
Theorem C90_reported_balance_bounded :
  forall digest root_of show verify shapes cf code qs l a id at_epoch b,
  root_of ∅ = hash_from_empty digest ->
  parsed_genesis (cf_genesis cf) code qs ->
  states_ok digest root_of show verify shapes cf l ->
  adapter_get_balance digest (disk (history digest root_of show verify shapes cf l)) a id at_epoch = Ok b ->
  b <= allocated_total id qs.
Proof.
  intros digest root_of show verify shapes cf code qs l a id at_epoch b He Hg Hok.
  unfold adapter_get_balance. destruct (adapter_get_epoch _ _ _) as [ep|x|]; cbn [rbind]; [|discriminate..].
  destruct (Executor.from_root _ _ _ _ _ _ _) as [y|x|] eqn:Hy; cbn [rbind map_err]; [|discriminate..].
  pose proof (no_inflation digest root_of show verify shapes cf code qs He Hg l _ _ _ _ _ y Hok Hy) as H.
  pose proof (open_fresh _ _ _ _ _ _ _ _ Hy) as Hf.
  unfold exec_get_balance. rewrite (fresh_get y a Hf).
  destruct (committed y !! a) as [acc|] eqn:Ea; cbn [ok_or rbind map_err]; [|discriminate]. intros [= <-].
  destruct H as [(_ & T & _)|[H _]]; [|rewrite H, lookup_empty in Ea; discriminate].
  rewrite <- T. pose proof (bal_total (committed y) a id) as Hb. unfold bal in Hb. rewrite Ea in Hb. exact Hb.
Qed.
Print Assumptions C90_reported_balance_bounded.

(** As long as the node does not synchronise and the headers handed to it
    carry its own state root, nothing disappears either: the state of its
    latest epoch, and the one its next block will be executed on, open as the
    whole ledger.  Crashes and restarts are allowed. *)
Theorem C90_supply_kept :
  forall digest root_of show verify shapes cf code qs l,
  root_of ∅ = hash_from_empty digest ->
  parsed_genesis (cf_genesis cf) code qs ->
  states_ok digest root_of show verify shapes cf l ->
  epochs_ok digest root_of show verify shapes cf l ->
  along digest root_of show verify shapes cf never_syncs (Down (∅, ∅)) l ->
  along digest root_of show verify shapes cf roots_agree (Down (∅, ∅)) l ->
  let m := history digest root_of show verify shapes cf l in
  let opens r := forall chain e p cb, exists y,
    Executor.from_root digest chain r (disk m).2 e p cb = Ok y /\ full_ledger digest cf code qs y in
  (forall ep, get_latest_epoch rocks_col digest (disk m).1 = Ok ep -> opens (eh_state_root (ep_header ep))) /\
  (forall n, m = Up n -> opens (cs_state_root (nd_status n))).
Proof.
  intros digest root_of show verify shapes cf code qs l He Hg Hok Hep Hns Hra m opens.
  pose proof (step_in_along digest root_of show verify shapes cf l Hok) as Hs. destruct Hok as [_ _ Hc].
  pose proof (good_history digest root_of show verify shapes cf code qs He Hg _ l Hc Hep Hs Hns Hra) as H. fold m in H.
  pose proof (db_history digest root_of show verify shapes cf code qs He Hg _ l Hc Hs) as Hd. fold m in Hd.
  assert (forall r, good_root digest root_of cf code qs (disk m).2 r -> opens r) as Ho.
  { intros r Hr ch e p cb. destruct (good_root_open digest root_of cf code qs He _ _ r ch e p cb Hc Hd Hr) as (y & Hy & W & T & S1).
    exists y. split; [exact Hy|]. split; assumption. }
  split.
  - intros ep Hle. apply Ho.
    assert (latest_good digest root_of cf code qs (disk m).2 (disk m).1) as Hl by (destruct m; apply H).
    assert ((disk m).1 !! (1, wenc_hash (LATEST_EPOCH_KEY digest)) = Some (wenc_epoch ep) /\ fits (wenc_epoch ep)) as [Hk _].
    { apply (read_latest_inv digest); [|exact Hle]. intros b Hb. destruct (Hl b Hb) as (e' & -> & Hf & _). eauto. }
    destruct (Hl _ Hk) as (e' & E & Hf & Hr').
    assert (get_latest_epoch rocks_col digest (disk m).1 = Ok e') as Hle' by (apply read_latest; [rewrite Hk, E; reflexivity|exact Hf]).
    assert (e' = ep) as -> by congruence. exact Hr'.
  - intros n E. apply Ho. rewrite E in H |- *. apply H.
Qed.
Print Assumptions C90_supply_kept.
