(** * C110, continued: transactions, and any other message, over the wire. *)
From Verif Require Import Base BaseFacts Types FixedCodec FixedCodecFacts StateAdapter Executor Mempool MempoolSpec MempoolFacts MempoolProps MempoolMore
  Merkle Bincode ConsMsg PropConsMsg Proto ProtoFacts Wire WireFacts Storage StorageSpec Consensus ConsSpec ConsFacts ConsInv NodePool
  Gossip PropGossip Endpoint NetSpec EndpointFacts RpcMap RpcMapFacts NetMsg NetFacts PropNet PropWiring TwoNodes TwoNodesFacts PropTwoNodes.
From Coq Require Import Permutation.
From stdpp Require Import gmap.
Local Open Scope N_scope.

Section Props.
  Context (compress decompress : bytes -> nres bytes).
  Context (digest : bytes -> hash) (root_of : gmap bytes bytes -> hash) (show : exec_err -> rstring)
          (verify : bytes -> bytes -> bytes -> bool) (shapes : nat -> shape) (cf : config).
  Notation run_call := (run_call digest root_of show verify shapes cf).
  Notation history := (Consensus.history digest root_of show verify shapes cf).
  Notation arrives := (arrives compress decompress digest root_of show verify shapes cf).
  Notation on_message := (on_message compress decompress).
  Notation does := (does digest root_of show verify shapes cf).
  Notation pool_ok := (fun n => exists ops, nd_pool n = pool_after digest verify (cf_pool_size cf) (cf_gap cf) (cf_gap cf) ops).

  (** The transactions a message brings. *)
  Definition brings (raw : bytes) (l : list signed_tx) : Prop :=
    exists des msg, decompress raw = Ok des /\ nm_decode des = Ok msg /\ dec_txs (nm_content msg) = Ok l.
  Lemma reaction_txs d nn sid raw l : (on_message d nn sid raw).1 = RInserts l -> brings raw l.
  Proof.
    unfold TwoNodes.on_message, receive, route.
    destruct (decompress raw) as [des| |] eqn:E1; cbn [rbind]; try discriminate.
    destruct (nm_decode des) as [msg| |] eqn:E2; cbn [rbind]; try discriminate.
    destruct (parse_endpoint (nm_url msg)) as [e| |] eqn:E3; cbn [rbind]; try discriminate.
    destruct (root e) as [r| |]; cbn [rbind]; try discriminate.
    destruct (nn_reactors nn !! r) as [ra|]; cbn [ok_or rbind]; try discriminate.
    unfold react. rewrite E3. cbn [rbind].
    destruct (mdec (ra_ty ra) (nm_content msg)) as [v| |] eqn:Ev; cbn [rbind]; try discriminate.
    assert (forall h s rid, match v with
         | VTxs l => RInserts l
         | VBlob b => if Nat.eqb h H_RichEpochID then RAnnounced s b else REngine h b
         | VRequest rq =>
             match rpc_serve d rq with
             | Ok a =>
                 match rpc_response compress menc (Some s) rid RPC_RESP_SYNC_PULL TY_ConsRpcResponse (VResponse a) with
                 | Ok (s', raw') => RReply s' raw'
                 | _ => RNothing
                 end
             | _ => RNothing
             end
         | _ => RNothing
         end = RInserts l -> brings raw l) as Hv.
    { intros h s rid H. exists des, msg. split; [exact E1|]. split; [exact E2|].
      destruct v as [l'|l'|b|rq|rs]; try discriminate H.
      - injection H as <-. revert Ev. clear. generalize (nm_content msg) as b. intros b. destruct (ra_ty ra) as [|[|[|[|[|[|[|[|[|]]]]]]]]];
          cbn [mdec]; try discriminate; [destruct (dec_txs b)|destruct (dec_txs b)|destruct (dec_hashes b)|destruct (dec_blob b)..|destruct (dec_request b)|destruct (dec_response b)];
          cbn [read]; intros [= <-]; reflexivity.
      - destruct (Nat.eqb h _); discriminate H.
      - destruct (rpc_serve d rq); try discriminate H. destruct (rpc_response _ _ _ _ _ _ _) as [[? ?]| |]; discriminate H. }
    destruct (scheme_of e) as [sch| |]; cbn [rbind]; try discriminate.
    destruct sch.
    - destruct (ra_handler ra) as [h|]; cbn [fst]; [|discriminate]. exact (Hv h sid None).
    - destruct (rpc_id e) as [rid| |]; cbn [fst]; try discriminate. destruct (ra_handler ra) as [h|]; cbn [fst]; [|discriminate]. exact (Hv h sid (Some rid)).
    - destruct (rpc_id e) as [rid| |]; cbn [fst]; try discriminate. destruct (rm_take _ _ _ _) as [[s| |] m']; cbn [fst]; discriminate.
  Qed.

  (** ** Inserts one after the other *)
  Lemma does_inserts l n :
    does n (map (fun t => CallInsert true t (Ok tt)) l) =
    (set_pool n (mp_run digest verify (cf_gap cf) (nd_pool n) (gossip_ops (map (fun t => (t, env_of digest (nd_disk n))) l))).2, []).
  Proof.
    revert n. induction l as [|t l IH]; intros n; [destruct n; reflexivity|].
    cbn [map TwoNodes.does Consensus.run_call]. rewrite (run_cons digest verify (cf_gap cf) (nd_pool n) t (env_of digest (nd_disk n))).
    destruct (mp_insert _ _ _ _ _ _ _ _) as [r p] eqn:E. rewrite IH. cbn [set_pool nd_disk nd_pool snd]. destruct n; reflexivity.
  Qed.
  Lemma inserts_received n raw l l' : dec_txs raw = Ok l -> Permutation l' l ->
    received digest verify (cf_gap cf) (fun e => e = env_of digest (nd_disk n)) (nd_pool n) raw
      (nd_pool (does n (map (fun t => CallInsert true t (Ok tt)) l')).1).
  Proof.
    intros Hd Hp. rewrite does_inserts. cbn [fst set_pool nd_pool].
    apply (rc_batch _ _ _ _ _ _ l (map (fun t => (t, env_of digest (nd_disk n))) l')); [exact Hd| |].
    - rewrite map_map. cbn [fst]. rewrite map_id. exact Hp.
    - intros t e H. apply elem_of_list_fmap in H as (x & [= -> ->] & _). reflexivity.
  Qed.

  (** ** Any message, from anyone *)
  (** Whatever bytes arrive, at a node in any state it can reach: nothing is
      written to the disk, the consensus status stays, the engine is told
      nothing, nothing is broadcast again, and a pooled transaction stays.  What
      is new in the pool came with the message and passed the node's own checks.
      The node may start to synchronise, if it was idle. *)
  Theorem C110_any_bytes : forall lh n nn sid raw nn' n' t, history lh = Up n -> arrives nn n sid raw nn' n' t ->
    t = [] /\ nd_disk n' = nd_disk n /\ nd_status n' = nd_status n /\ nd_exempt n' = nd_exempt n /\ nd_out n' = nd_out n /\
    mp_out (nd_pool n') = mp_out (nd_pool n) /\
    (nd_busy n' = nd_busy n \/ nd_busy n = Idle /\ exists id rich ch sr, nd_busy n' = Syncing id rich ch sr) /\
    (forall h x, mp_pooled (nd_pool n) h = Some x -> mp_pooled (nd_pool n') h = Some x) /\
    (forall h x, mp_pooled (nd_pool n') h = Some x -> mp_pooled (nd_pool n) h = None ->
       st_tx_hash x = h /\ (exists l, brings raw l /\ x ∈ l) /\
       verify (sbytes h) (st_signature x) (st_pubkey x) = true /\ digest (enc_raw (st_raw x)) = h /\
       en_stored (env_of digest (nd_disk n)) h = Ok false /\
       exists epoch : u64, en_latest (env_of digest (nd_disk n)) = Ok (rt_chain_id (st_raw x), epoch) /\
         epoch <= rt_timeout (st_raw x) /\ rt_timeout (st_raw x) <= (epoch + cf_gap cf) mod two64).
  Proof.
    intros lh n nn sid raw nn' n' t Hh (cs & Hcs & -> & Hd).
    destruct (pool_history digest root_of show verify shapes cf lh n Hh) as [ops Ep].
    assert (cs = [] -> t = [] /\ n' = n) as Hnil.
    { intros ->. cbn [TwoNodes.does] in Hd. injection Hd as <- <-. auto. }
    assert (t = [] /\ n' = n -> t = [] /\ nd_disk n' = nd_disk n /\ nd_status n' = nd_status n /\ nd_exempt n' = nd_exempt n /\ nd_out n' = nd_out n /\
      mp_out (nd_pool n') = mp_out (nd_pool n) /\
      (nd_busy n' = nd_busy n \/ nd_busy n = Idle /\ exists id rich ch sr, nd_busy n' = Syncing id rich ch sr) /\
      (forall h x, mp_pooled (nd_pool n) h = Some x -> mp_pooled (nd_pool n') h = Some x) /\
      (forall h x, mp_pooled (nd_pool n') h = Some x -> mp_pooled (nd_pool n) h = None ->
         st_tx_hash x = h /\ (exists l, brings raw l /\ x ∈ l) /\
         verify (sbytes h) (st_signature x) (st_pubkey x) = true /\ digest (enc_raw (st_raw x)) = h /\
         en_stored (env_of digest (nd_disk n)) h = Ok false /\
         exists epoch : u64, en_latest (env_of digest (nd_disk n)) = Ok (rt_chain_id (st_raw x), epoch) /\
           epoch <= rt_timeout (st_raw x) /\ rt_timeout (st_raw x) <= (epoch + cf_gap cf) mod two64)) as Hsame.
    { intros [-> ->]. split; [reflexivity|]. split; [reflexivity|]. split; [reflexivity|]. split; [reflexivity|]. split; [reflexivity|].
      split; [reflexivity|]. split; [left; reflexivity|]. split; [auto|]. intros h x H1 H2. congruence. }
    destruct (on_message (nd_disk n) nn sid raw).1 as [l|h b|s b|s r|cno v|] eqn:Er; cbn [takes] in Hcs; try (apply Hsame, Hnil, Hcs).
    - destruct Hcs as (l' & Hp & ->). apply reaction_txs in Er as Hb. destruct Hb as (des & msg & B1 & B2 & B3).
      pose proof (inserts_received n (nm_content msg) l l' B3 Hp) as Hr. rewrite does_inserts in Hd. injection Hd as <- <-.
      rewrite does_inserts in Hr. cbn [fst set_pool nd_pool nd_disk nd_status nd_exempt nd_out nd_busy] in *.
      rewrite Ep in Hr at 1.
      pose proof (C28_any_message digest verify (cf_gap cf) (cf_pool_size cf) (cf_gap cf) ops _ (nm_content msg) _ Hr) as (A & B & C).
      rewrite <- Ep in A, B, C.
      split; [reflexivity|]. split; [reflexivity|]. split; [reflexivity|]. split; [reflexivity|]. split; [reflexivity|].
      split; [exact A|]. split; [left; reflexivity|]. split; [exact B|]. intros h x H1 H2.
      destruct (C h x H1 H2) as (C1 & (l0 & C2 & C2') & _ & e & -> & C3 & C4 & C5 & C6). split; [exact C1|].
      split; [|split; [exact C3|]; split; [exact C4|]; split; [exact C5|exact C6]].
      exists l0. split; [exists des, msg; auto|exact C2'].
    - destruct Hcs as (first & ->). cbn [TwoNodes.does] in Hd. destruct (run_call _ n) as [[r n1] t1] eqn:E.
      apply call_sync in E as (r1 & Hs & ->). injection Hd as <- <-.
      inversion Hs; subst; [apply Hsame; auto|..].
      + cbn [set_busy nd_pool nd_disk nd_status nd_exempt nd_out nd_busy].
        split; [reflexivity|]. split; [reflexivity|]. split; [reflexivity|]. split; [reflexivity|]. split; [reflexivity|]. split; [reflexivity|].
        split; [right; eauto 10|]. split; [auto|]. intros h x Q1 Q2. congruence.
      + cbn [set_busy nd_pool nd_disk nd_status nd_exempt nd_out nd_busy].
        split; [reflexivity|]. split; [reflexivity|]. split; [reflexivity|]. split; [reflexivity|]. split; [reflexivity|]. split; [reflexivity|].
        split; [right; eauto 10|]. split; [auto|]. intros h x Q1 Q2. congruence.
  Qed.

  (** ** A batch of transactions that another node gossips *)
  Hypothesis snappy : compression_ok compress decompress.

  Lemma txs_on_message l raw d nn sid : package_message compress menc END_GOSSIP_NEW_TXS TY_NewTxs (VTxs l) = Ok raw ->
    Forall tx_plain l -> small_message (enc_txs l) -> started nn -> on_message d nn sid raw = (RInserts l, nn).
  Proof.
    intros Hp Hpl Hs Hn. unfold TwoNodes.on_message.
    rewrite (C82_gossip_reaches_its_handler compress decompress mdec menc (lossless compress decompress snappy) END_GOSSIP_NEW_TXS TY_NewTxs
      H_NewTxs (VTxs l) (enc_txs l) raw nn sid); [reflexivity|..].
    - vm_compute. left.
    - exact Hp.
    - reflexivity.
    - change (mdec TY_NewTxs (enc_txs l)) with (read VTxs (dec_txs (enc_txs l))).
      pose proof (C66_roundtrip_transactions l [] Hpl (small_fits _ Hs)) as X. rewrite app_nil_r in X. rewrite X. reflexivity.
    - apply small_envelope, Hs.
    - exact Hn.
  Qed.

  (** They are all pooled there (if they are transfers or asset deployments,
      valid there, new and there is room), and nothing else changes. *)
  Theorem C110_transactions_delivered : forall lh n nn l sid raw nn' n' t, history lh = Up n -> started nn ->
    package_message compress menc END_GOSSIP_NEW_TXS TY_NewTxs (VTxs l) = Ok raw -> small_message (enc_txs l) ->
    Forall tx_plain l -> NoDup (map st_tx_hash l) ->
    (forall x, x ∈ l -> mp_contains (nd_pool n) (st_tx_hash x) = false /\ tx_ok digest verify (cf_gap cf) (env_of digest (nd_disk n)) x) ->
    (mp_len (nd_pool n) + length l <= cf_pool_size cf)%nat -> (mp_slots (nd_pool n) + length l <= 4 * cf_pool_size cf)%nat ->
    arrives nn n sid raw nn' n' t ->
    (forall x, x ∈ l -> mp_pooled (nd_pool n') (st_tx_hash x) = Some x) /\
    (forall h, h ∉ map st_tx_hash l -> mp_pooled (nd_pool n') h = mp_pooled (nd_pool n) h) /\
    n' = set_pool n (nd_pool n') /\ nn' = nn /\ t = [].
  Proof.
    intros lh n nn l sid raw nn' n' t Hh Hn Hp Hs Hpl Hnd Hok Hr1 Hr2 (cs & Hcs & -> & Hd).
    rewrite (txs_on_message l raw (nd_disk n) nn sid Hp Hpl Hs Hn) in *. cbn [fst snd takes] in *. destruct Hcs as (l' & Hperm & ->).
    destruct (pool_history digest root_of show verify shapes cf lh n Hh) as [ops Ep].
    assert (dec_txs (enc_txs l ++ []) = Ok l) as Hdec by (apply C66_roundtrip_transactions; [exact Hpl|exact (small_fits _ Hs)]).
    pose proof (inserts_received n (enc_txs l ++ []) l l' Hdec Hperm) as Hr. rewrite does_inserts in Hd. injection Hd as <- <-.
    rewrite does_inserts in Hr. cbn [fst set_pool nd_pool] in *. rewrite Ep in Hr at 1.
    edestruct (C28_batch_delivered digest verify (cf_gap cf) (cf_pool_size cf) (cf_gap cf) ops (fun e => e = env_of digest (nd_disk n)) l [])
      as (A & B & _); [exact Hpl|exact (small_fits _ Hs)|exact Hnd|rewrite <- ?Ep..|exact Hr|].
    - intros x Hx. apply Hok, Hx.
    - intros x e Hx ->. apply Hok, Hx.
    - exact Hr1.
    - exact Hr2.
    - rewrite <- Ep in B. split; [exact A|]. split; [exact B|]. split; [reflexivity|]. split; reflexivity.
  Qed.
End Props.
Print Assumptions C110_any_bytes.
Print Assumptions C110_transactions_delivered.
