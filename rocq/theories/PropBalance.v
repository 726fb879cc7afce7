(** * C112: what the API answers about balances, epoch by epoch. *)
From Verif Require Import Base BaseFacts Hex Types Rlp RlpFacts FixedCodec FixedCodecFacts CodecProps StateAdapter StateAdapterFacts
  Executor ExecutorFacts ExecSpec ExecProps ExecBlock ExecMore ExecOrder ExecChain Mempool MempoolSpec MempoolMore Merkle Bincode ConsMsg Proto Wire Storage StorageSpec StorageFacts
  StorageProps Consensus ConsSpec ConsFacts ConsInv ConsChain Api ApiSpec ApiFacts LedgerSpec LedgerFacts LedgerRun ImmutFacts PropConsensus PropImmut PropApi EndFacts PropEnd PropProgress BalanceFacts.
Local Open Scope N_scope.

(** The query getBalance(address, asset, epoch) answers [v]. *)
Definition answers (digest : bytes -> hash) (d : durable) (at_ as_ : text) (qid : option text) (v : N) : Prop :=
  exists t, query_balance digest d at_ as_ qid = Ok t /\ spells_amount t v.
(** The texts write the address, the asset and the number. *)
Definition names (at_ as_ : text) (a : address) (asset : hash) : Prop :=
  plain at_ /\ spells at_ (address_bytes a) /\ plain as_ /\ spells as_ (sbytes asset).
Definition numbers (s : text) (i : u64) : Prop := plain s /\ spells_number s i.

Section Props.
  Context (digest : bytes -> hash) (root_of : gmap bytes bytes -> hash) (show : exec_err -> rstring)
          (verify : bytes -> bytes -> bytes -> bool) (shapes : nat -> shape) (cf : config).
  Notation run_call := (run_call digest root_of show verify shapes cf).
  Notation history := (Consensus.history digest root_of show verify shapes cf).
  Notation always C := (along digest root_of show verify shapes cf C (Down (∅, ∅))).
  Notation epochs_ok := (epochs_ok digest root_of show verify shapes cf).
  Notation states_ok := (states_ok digest root_of show verify shapes cf).
  Notation latest d := (get_latest_epoch rocks_col digest (fst d)).
  Notation at_id d i := (get_epoch_by_epoch_id rocks_col (fst d) i).
  Notation finished os := (EvCall (CallCommitRest os (Ok tt))).
  Context (code : bytes) (qs : list (address * list (hash * N))).
  Hypothesis Hempty : root_of ∅ = hash_from_empty digest.
  Hypothesis Hgen : parsed_genesis (cf_genesis cf) code qs.

  (** ** An answer stays *)
  Theorem C112_answers_stay : forall (l l' : list event) (e x : epoch) (i : u64) (m : accounts) (b : assets) at_ as_ s,
    epochs_ok (l ++ l') -> states_ok (l ++ l') -> always one_more (l ++ l') ->
    latest (disk (history l)) = Ok e -> (i : N) <= eh_epoch_id (ep_header e) -> at_id (disk (history l)) i = Ok x ->
    ledger_at digest (disk (history l)) (eh_state_root (ep_header x)) m b -> numbers s i ->
    query_balance digest (disk (history (l ++ l'))) at_ as_ (Some s) = query_balance digest (disk (history l)) at_ as_ (Some s).
  Proof using Hempty Hgen.
    intros l l' e x i m b at_ as_ s Hok Hst Hom Hl Hi Hx Hb Hs.
    destruct (C96_epochs_stay digest root_of show verify shapes cf l l' e Hok Hom Hl) as [S _]. destruct (S i Hi) as [Hx' _].
    pose proof (db_grows digest root_of show verify shapes cf code qs Hempty Hgen l l' Hst) as Hg.
    unfold query_balance. rewrite (proj2 (asks_iff (Some s) (Some i) (proj1 Hs)) Hs). cbn [rbind].
    destruct (map_err ATypes (address_from_hex (as_hex at_))) as [a|y|]; cbn [rbind]; [|reflexivity..].
    destruct (map_err ATypes (hash_from_hex (as_hex as_))) as [asset|y|]; cbn [rbind]; [|reflexivity..].
    unfold adapter_get_balance, adapter_get_epoch. rewrite Hx', Hx. cbn [map_err rbind].
    destruct (ledger_open digest _ _ _ _ (eh_chain_id (ep_header x)) (eh_epoch_id (ep_header x)) (wrap64 0) (AUser (eh_proposer (ep_header x))) Hb)
      as (y & Hy & _ & _).
    destruct (open_grows _ _ _ _ _ _ _ _ _ Hg Hy) as (y' & Hy' & E1 & _). rewrite Hy.
    rewrite Hy'. cbn [rbind]. unfold exec_get_balance. rewrite E1. reflexivity.
  Qed.

  (** ** The epoch after shows the state *)
  (** A node works on the state [m]; at some later time it finishes the commit
      of an epoch whose header names that state.  From then on, whatever
      happens, the balances answered at that epoch's number are those of [m];
      and just after it, also those answered without a number. *)
  Theorem C112_next_epoch_shows : forall l l2 l3 (n1 n2 n3 : node) id p pf txs os r t (m : accounts) (b : assets) at_ as_ a asset,
    let h := (l ++ l2) ++ [finished os] in
    epochs_ok (h ++ l3) -> states_ok (h ++ l3) -> always replies_match (h ++ l3) -> always one_more (h ++ l3) ->
    history l = Up n1 -> ledger_at digest (nd_disk n1) (cs_state_root (nd_status n1)) m b ->
    history (l ++ l2) = Up n2 -> nd_busy n2 = Committing id p pf txs ->
    eh_state_root (ep_header (pl_epoch p)) = cs_state_root (nd_status n1) ->
    run_call (CallCommitRest os (Ok tt)) n2 = (Ok r, n3, t) -> db_fits (nd_disk n3).1 ->
    names at_ as_ a asset ->
    answers digest (nd_disk n3) at_ as_ None (bal m a asset) /\
    forall s, numbers s (eh_epoch_id (ep_header (pl_epoch p))) -> answers digest (disk (history (h ++ l3))) at_ as_ (Some s) (bal m a asset).
  Proof using Hempty Hgen.
    intros l l2 l3 n1 n2 n3 id p pf txs os r t m b at_ as_ a asset h Hok Hst Hrm Hom H1 Hb H2 Eb Er E Hf (P1 & S1 & P2 & S2).
    assert (history h = Up n3) as H3.
    { unfold h. unfold Consensus.history in *. rewrite fold_left_app, H2. cbn [fold_left Consensus.happens]. rewrite E. reflexivity. }
    assert (epochs_ok (l ++ l2)) as Hok2 by (unfold h in Hok; rewrite <- !app_assoc in Hok; rewrite app_assoc in Hok; exact (epochs_ok_prefix _ _ _ _ _ _ _ _ Hok)).
    assert (always replies_match (l ++ l2)) as Hrm2 by (unfold h in Hrm; rewrite <- app_assoc in Hrm; apply along_app in Hrm as [Hrm _]; exact Hrm).
    destruct (C60_commit_finishes digest root_of show verify shapes cf (l ++ l2) n2 id p pf txs os r n3 t Hok2 Hrm2 H2 Eb E Hf) as (_ & Hl & Hat & _).
    assert (ledger_at digest (nd_disk n3) (eh_state_root (ep_header (pl_epoch p))) m b) as Hb3.
    { rewrite Er. refine (ledger_grows digest (nd_disk n1) (nd_disk n3) _ m b _ Hb).
      pose proof (db_grows digest root_of show verify shapes cf code qs Hempty Hgen l (l2 ++ [finished os])) as G.
      rewrite app_assoc in G. fold h in G. rewrite H1, H3 in G. cbn [disk] in G. apply G.
      exact (states_ok_prefix _ _ _ _ _ _ _ _ Hst). }
    assert (forall d qid n, asks qid n -> stored digest d n = Ok (pl_epoch p) -> ledger_at digest d (eh_state_root (ep_header (pl_epoch p))) m b ->
      answers digest d at_ as_ qid (bal m a asset)) as Hans.
    { intros d qid n Ha Hd (ch & e0 & p0 & cb & x & Hx & Hm & _).
      apply (C81_balance_at_header_root digest d qid n (pl_epoch p) m at_ as_ a asset); auto. exists ch, e0, p0, cb, x. auto. }
    split; [exact (Hans _ None None I Hl Hb3)|]. intros s Hs.
    destruct (C96_epochs_stay digest root_of show verify shapes cf h l3 (pl_epoch p) Hok Hom ltac:(rewrite H3; exact Hl)) as [S _].
    destruct (S (eh_epoch_id (ep_header (pl_epoch p))) ltac:(lia)) as [Hx' _]. rewrite H3 in Hx'. cbn [disk] in Hx'.
    refine (Hans _ (Some s) (Some (eh_epoch_id (ep_header (pl_epoch p)))) Hs _ _); [unfold stored; rewrite Hx'; exact Hat|].
    refine (ledger_grows digest (nd_disk n3) _ _ m b _ Hb3).
    pose proof (db_grows digest root_of show verify shapes cf code qs Hempty Hgen h l3 Hst) as G. rewrite H3 in G. exact G.
  Qed.

  (** ** Two epochs and the block between them *)
  (** The node finishes the commit of [p], whose header names the state it
      worked on; later it finishes the commit of [p'], whose header names the
      state after [p].  From then on, the balances answered at the number of
      [p'] are those answered at the number of [p] plus what the block [p] 
      moved, by the receipts of its transactions. *)
  Theorem C112_block_shown : forall l l2 l3 (n n1 n2 n3 : node) id p pf txs id' p' pf' txs' os os' r r' t t',
    let h1 := l ++ [finished os] in
    let h := (h1 ++ l2) ++ [finished os'] in
    epochs_ok (h ++ l3) -> states_ok (h ++ l3) -> always replies_match (h ++ l3) -> always one_more (h ++ l3) ->
    history l = Up n -> nd_busy n = Committing id p pf txs ->
    eh_state_root (ep_header (pl_epoch p)) = cs_state_root (nd_status n) ->
    run_call (CallCommitRest os (Ok tt)) n = (Ok r, n1, t) -> db_fits (nd_disk n1).1 -> NoDup (map st_tx_hash txs) -> Forall tx_plain txs ->
    history (h1 ++ l2) = Up n2 -> nd_busy n2 = Committing id' p' pf' txs' ->
    eh_state_root (ep_header (pl_epoch p')) = cs_state_root (nd_status n1) ->
    run_call (CallCommitRest os' (Ok tt)) n2 = (Ok r', n3, t') -> db_fits (nd_disk n3).1 ->
    exists rs, length rs = length txs /\
      (forall i x y, txs !! i = Some x -> rs !! i = Some y -> get_receipt rocks_col (nd_disk n1).1 (st_tx_hash x) = Ok y) /\
      forall at_ as_ a asset s s', names at_ as_ a asset ->
        numbers s (eh_epoch_id (ep_header (pl_epoch p))) -> numbers s' (eh_epoch_id (ep_header (pl_epoch p'))) ->
        exists v v', answers digest (disk (history (h ++ l3))) at_ as_ (Some s) v /\
          answers digest (disk (history (h ++ l3))) at_ as_ (Some s') v' /\ answers digest (nd_disk n3) at_ as_ None v' /\
          v' + sum_succeeded (fun x => amount_sent digest x a asset) txs rs = v + sum_succeeded (fun x => amount_received x a asset) txs rs.
  Proof using Hempty Hgen.
    intros l l2 l3 n n1 n2 n3 id p pf txs id' p' pf' txs' os os' r r' t t' h1 h Hok Hst Hrm Hom Hl Eb Er E Hf Hnd Hpl H2 Eb' Er' E' Hf'.
    assert (h ++ l3 = h1 ++ (l2 ++ [finished os'] ++ l3)) as Eh by (unfold h; rewrite <- !app_assoc; reflexivity).
    assert (history h1 = Up n1) as H1.
    { unfold h1. unfold Consensus.history in *. rewrite fold_left_app, Hl. cbn [fold_left Consensus.happens]. rewrite E. reflexivity. }
    assert (states_ok h1) as Hst1 by (rewrite Eh in Hst; exact (states_ok_prefix _ _ _ _ _ _ _ _ Hst)).
    destruct (C29_block_carried_out digest root_of show verify shapes cf code qs l n id p pf txs os r n1 t Hempty Hgen Hst1 Hl Eb E Hf Hnd Hpl)
      as (m & b & m' & b' & rs & L & L' & Hlen & Hr & Hbal & _).
    exists rs. split; [exact Hlen|]. split; [intros i x y Hx Hy; apply (Hr i x y Hx Hy)|].
    intros at_ as_ a asset s s' Hn Hs Hs'.
    destruct (C112_next_epoch_shows h1 l2 l3 n1 n2 n3 id' p' pf' txs' os' r' t' m' b' at_ as_ a asset Hok Hst Hrm Hom H1 L' H2 Eb' Er' E' Hf' Hn)
      as [A3 A2].
    rewrite Eh in Hok, Hst, Hrm, Hom. unfold h1 in Hok, Hst, Hrm, Hom.
    destruct (C112_next_epoch_shows l [] (l2 ++ [finished os'] ++ l3) n n n1 id p pf txs os r t m b at_ as_ a asset) as [_ A1];
      try assumption; try (rewrite app_nil_r; assumption).
    exists (bal m a asset), (bal m' a asset). specialize (A1 s Hs). rewrite app_nil_r in A1. rewrite Eh.
    split; [exact A1|]. split; [rewrite <- Eh; exact (A2 s' Hs')|]. split; [exact A3|]. exact (Hbal a asset).
  Qed.

  (** ** A transfer *)
  (** C29's transfer, asked for over the API and committed by the node in its
      next epoch, and any later commit of an epoch whose header names the state
      after it: from then on the balances answered at the two epochs' numbers,
      and, just after the second, those answered without a number, differ by the
      amount asked for. *)
  Theorem C112_transfer_shown :
    forall l (n : node) i a en (t : signed_tx) hh e now (from to : user_address) cr (m : accounts) (b : assets) os,
    history l = Up n -> nd_busy n = Idle -> mp_len (nd_pool n) = 0%nat -> latest (nd_disk n) = Ok e ->
    plain_raw i -> plain_transfer a -> plain_enc en ->
    send_transfer (fun t => fst (mp_insert digest verify (cf_gap cf) (nd_pool n) false t (env_of digest (nd_disk n)) (Ok tt))) i a en = (Some t, Ok hh) ->
    rt_action (st_raw t) = Transfer to cr -> is_sender digest t (AUser from) ->
    ledger_at digest (nd_disk n) (cs_state_root (nd_status n)) m b ->
    is_Some (b !! cr_asset_id cr) -> 0 < cr_amount cr -> cr_amount cr <= bal m (AUser from) (cr_asset_id cr) ->
    210 <= fee_cycle (rt_fee (st_raw t)) -> fee_cycle (rt_fee (st_raw t)) <= cs_limit (nd_status n) -> small (cs_limit (nd_status n)) ->
    eh_epoch_id (ep_header e) < rt_timeout (st_raw t) ->
    let id := cs_epoch_id (nd_status n) in
    exists n1 n2 p ph,
      run_call (CallInsert false t (Ok tt)) n = (Ok RepUnit, n1, []) /\
      run_call (CallPropose id now) n1 = (Ok (RepPill p ph), n2, []) /\
      forall c l2 l3 (n4 n5 n6 : node) id' p' pf' txs' os' r' t',
      cm_pill c = p -> length (cm_epoch_hash c) = 32%nat ->
      let h1 := l ++ [EvCall (CallInsert false t (Ok tt)); EvCall (CallPropose id now); EvCall (CallCommit id c); finished os] in
      let h := (h1 ++ l2) ++ [finished os'] in
      epochs_ok (h ++ l3) -> states_ok (h ++ l3) -> always replies_match (h ++ l3) -> always one_more (h ++ l3) ->
      history h1 = Up n4 -> db_fits (nd_disk n4).1 ->
      history (h1 ++ l2) = Up n5 -> nd_busy n5 = Committing id' p' pf' txs' ->
      eh_state_root (ep_header (pl_epoch p')) = cs_state_root (nd_status n4) ->
      run_call (CallCommitRest os' (Ok tt)) n5 = (Ok r', n6, t') -> db_fits (nd_disk n6).1 ->
      forall at_ as_ who asset s s', names at_ as_ who asset -> numbers s id -> numbers s' (eh_epoch_id (ep_header (pl_epoch p'))) ->
      exists v v',
        answers digest (disk (history (h ++ l3))) at_ as_ (Some s) v /\
        answers digest (disk (history (h ++ l3))) at_ as_ (Some s') v' /\ answers digest (nd_disk n6) at_ as_ None v' /\
        v' + (if decide (who = AUser from /\ asset = cr_asset_id cr) then cr_amount cr else 0)
        = v + (if decide (who = AUser to /\ asset = cr_asset_id cr) then cr_amount cr else 0).
  Proof using Hempty Hgen.
    intros l n i a en t hh e now from to cr m b os Hh Hb Hpool Hle Pi Pa Pe Hsend Hact Hsnd Hlg Has Hpos Hbal Hfee Hlim Hsm Hto id.
    pose proof Hsend as Hsend0. apply (C80_send_transfer _ i a en Pi Pa Pe) in Hsend as [_ Hrep].
    assert (exists n1, run_call (CallInsert false t (Ok tt)) n = (Ok RepUnit, n1, []) /\ nd_status n1 = nd_status n /\ nd_disk n1 = nd_disk n /\ nd_busy n1 = nd_busy n)
      as (n1 & En1 & Hs1 & Hd1 & Hb1).
    { cbn [Consensus.run_call]. destruct (mp_insert digest verify (cf_gap cf) (nd_pool n) false t (env_of digest (nd_disk n)) (Ok tt)) as [r0 p0].
      cbn [fst] in Hrep. destruct r0 as [u|x|]; cbn [reply_of] in Hrep; [|discriminate Hrep..]. eexists. split; [reflexivity|]. auto. }
    pose proof (history_call digest root_of show verify shapes cf l _ n n1 _ _ Hh En1) as Hh1.
    destruct (C95_own_proposal_accepted digest root_of show verify shapes cf (l ++ [EvCall (CallInsert false t (Ok tt))]) n1 e now Hh1 ltac:(rewrite Hd1; exact Hle))
      as (p & ph & n2 & txs & En2 & (Hpid & _ & Hproot & _) & Hs2 & Hd2 & Hb2 & _ & _ & _ & _ & Hcm).
    rewrite Hs1 in En2, Hpid, Hproot. fold id in En2, Hpid.
    exists n1, n2, p, ph. split; [exact En1|]. split; [exact En2|].
    intros c l2 l3 n4 n5 n6 id' p' pf' txs' os' r' t' Hc Hlen h1 h Hok Hst Hrm Hom H4 Hf4 H5 Eb' Er' E' Hf' at_ as_ who asset s s' Hn Hs Hs'.
    destruct (Hcm ltac:(congruence) id c Hc Hlen) as (pf & n3 & t3 & En3 & Eb3 & Hs3 & _).
    pose proof (history_call digest root_of show verify shapes cf _ _ _ n2 _ _ Hh1 En2) as Hh2.
    pose proof (history_call digest root_of show verify shapes cf _ _ _ n3 _ _ Hh2 En3) as Hh3.
    set (l1 := l ++ [EvCall (CallInsert false t (Ok tt)); EvCall (CallPropose id now); EvCall (CallCommit id c)]).
    assert (h1 = l1 ++ [finished os]) as Eh1 by (unfold h1, l1; rewrite <- app_assoc; reflexivity).
    assert (history l1 = Up n3) as Hl1 by (rewrite <- !app_assoc in Hh3; exact Hh3).
    assert (h ++ l3 = h1 ++ (l2 ++ [finished os'] ++ l3)) as Eh by (unfold h; rewrite <- !app_assoc; reflexivity).
    assert (epochs_ok h1) as Hok1 by (rewrite Eh in Hok; exact (epochs_ok_prefix _ _ _ _ _ _ _ _ Hok)).
    assert (states_ok h1) as Hst1 by (rewrite Eh in Hst; exact (states_ok_prefix _ _ _ _ _ _ _ _ Hst)).
    assert (always replies_match l) as Hrml.
    { rewrite Eh in Hrm. unfold h1 in Hrm. rewrite <- app_assoc in Hrm. apply along_app in Hrm as [Hrm _]. exact Hrm. }
    destruct (C29_transfer_carried_out digest root_of show verify shapes cf code qs l n i a en t hh e now from to cr m b os Hempty Hgen Hrml Hh Hb Hpool Hle
      Pi Pa Pe Hsend0 Hact Hsnd Hlg Has Hpos Hbal Hfee Hlim Hsm Hto) as (n1' & n2' & q & qh & En1' & En2' & _ & Hrest).
    fold id in En2', Hrest. rewrite En1 in En1'. injection En1' as <-. rewrite En2 in En2'. injection En2' as <- <- <-.
    destruct (Hrest c Hc Hlen Hst1 Hok1) as (n3' & t3' & n4' & t4 & En3' & En4 & Hh4 & Hfin).
    rewrite En3 in En3'. injection En3' as <- <-. fold h1 in Hh4. rewrite H4 in Hh4. injection Hh4 as <-.
    destruct (Hfin Hf4) as (_ & _ & _ & m' & b' & rc & L' & _ & _ & _ & Hmv).
    assert (ledger_at digest (nd_disk n3) (cs_state_root (nd_status n3)) m b) as L3.
    { rewrite Hs3, Hs1. refine (ledger_grows digest (nd_disk n) (nd_disk n3) _ m b _ Hlg).
      pose proof (db_grows digest root_of show verify shapes cf code qs Hempty Hgen l
        [EvCall (CallInsert false t (Ok tt)); EvCall (CallPropose id now); EvCall (CallCommit id c)]) as G.
      fold l1 in G. rewrite Hh, Hl1 in G. cbn [disk] in G. apply G. rewrite Eh1 in Hst1. exact (states_ok_prefix _ _ _ _ _ _ _ _ Hst1). }
    destruct (C112_next_epoch_shows h1 l2 l3 n4 n5 n6 id' p' pf' txs' os' r' t' m' b' at_ as_ who asset Hok Hst Hrm Hom H4 L' H5 Eb' Er' E' Hf' Hn)
      as [A3 A2].
    rewrite Eh, Eh1 in Hok, Hst, Hrm, Hom.
    destruct (C112_next_epoch_shows l1 [] (l2 ++ [finished os'] ++ l3) n3 n3 n4 id p pf txs os RepUnit t4 m b at_ as_ who asset) as [_ A1];
      try assumption; try (rewrite app_nil_r; assumption); [congruence|].
    rewrite Hpid in A1. exists (bal m who asset), (bal m' who asset). specialize (A1 s Hs). rewrite app_nil_r, <- Eh1, <- Eh in A1.
    split; [exact A1|]. split; [exact (A2 s' Hs')|]. split; [exact A3|]. exact (Hmv who asset).
  Qed.
End Props.
Print Assumptions C112_answers_stay.
Print Assumptions C112_next_epoch_shows.
Print Assumptions C112_block_shown.
Print Assumptions C112_transfer_shown.
