(** * C110: a node catching up from another one, and getting its messages,
    over the wire. *)
From Verif Require Import Base BaseFacts Types FixedCodec FixedCodecFacts StateAdapter Executor Mempool Merkle Bincode ConsMsg PropConsMsg
  Proto ProtoFacts Wire WireFacts Storage StorageSpec Consensus ConsSpec ConsFacts ConsInv SyncSpec SyncFacts PropSync
  Endpoint NetSpec EndpointFacts RpcMap RpcMapFacts NetMsg NetFacts PropNet PropWiring TwoNodes TwoNodesFacts.
From stdpp Require Import gmap.
Local Open Scope N_scope.

Section Props.
  Context (compress decompress : bytes -> nres bytes).
  (** The compression does not fail and loses nothing. *)
  Definition compression_ok : Prop := forall b, exists c, compress b = Ok c /\ decompress c = Ok b.
  Context (digest : bytes -> hash) (root_of : gmap bytes bytes -> hash) (show : exec_err -> rstring)
          (verify : bytes -> bytes -> bytes -> bool) (shapes : nat -> shape) (cf : config).
  Notation latest d := (get_latest_epoch rocks_col digest (fst d)).
  Notation announced := (announced digest root_of show verify shapes cf).
  Notation pull := (pull digest root_of show verify shapes cf).
  Notation after_pulls := (after_pulls digest root_of show verify shapes cf).
  Notation pulls_ok := (pulls_ok digest root_of show verify shapes cf).
  Notation pulls_disks := (pulls_disks digest root_of show verify shapes cf).
  Notation nat64 i := (wrap64 (N.of_nat i)).
  Notation wire_ask := (wire_ask compress decompress).
  Notation wire_announced := (wire_announced compress decompress digest root_of show verify shapes cf).
  Notation wire_pull := (wire_pull compress decompress digest root_of show verify shapes cf).
  Notation wire_disks := (wire_disks compress decompress digest root_of show verify shapes cf).
  Notation wire_pulls := (wire_pulls compress decompress digest root_of show verify shapes cf).

  (** A node that registered its handlers as main.rs does. *)
  Definition started (n : net_node) : Prop := register_all ∅ main_registrations = Ok (nn_reactors n).
  (** The session [sid] carries no response but those asked for. *)
  Definition quiet (sid : session) (es : list traffic) : Prop :=
    (forall rid, Forall (no_response decompress sid rid) es) /\ N.of_nat (length es) < two64.
  (** The peer's requests and answers are below 2^63 bytes. *)
  Definition answers_small (peer : durable) (c : list epoch) : Prop :=
    forall e, e ∈ c -> fits (wenc_epoch e) /\ small_message (enc_response (RpEpoch e)) /\
      small_message (enc_request (RqTxs (ep_ordered_tx_hashes e))) /\
      forall l, map_res (get_transaction_by_hash rocks_col peer.1) (ep_ordered_tx_hashes e) = Ok l -> small_message (enc_response (RpTxs l)).
  (** What [broadcast] sends, on [END_GOSSIP_RICH_EPOCH_ID], for a node whose latest epoch is the [L]th. *)
  Definition announcement (L : nat) (raw : bytes) : Prop :=
    package_message compress menc END_GOSSIP_RICH_EPOCH_ID TY_RichEpochID (VBlob (enc_fixed_epoch_id (wrap64 (N.of_nat L + 1)))) = Ok raw.

  Hypothesis snappy : compression_ok.

  Lemma small_prefix a b : small_message (a ++ b) -> fits a.
  Proof. unfold small_message, fits. rewrite blen_app. change (2 ^ 63) with 9223372036854775808. unfold two64. lia. Qed.
  Lemma small_answers peer c : answers_small peer c -> answers_fit peer c.
  Proof.
    intros H e He. destruct (H e He) as (A & B & C & D). split; [exact (small_prefix _ _ B)|]. split; [exact A|].
    split; [exact (small_fits _ C)|]. intros l Hl. exact (small_prefix _ _ (D l Hl)).
  Qed.

  Context (peer : durable) (c : list epoch).
  Hypotheses (Hgp : good_peer digest peer c) (Hsm : answers_small peer c).

  Lemma wire_epoch_ok nB sidB nA sid cno i e es : started nA -> started nB -> quiet sid es -> c !! i = Some e ->
    exists nA', wire_ask peer nB sidB nA sid cno (RqEpoch (nat64 i)) es = (Some (RpEpoch e), nA') /\ nn_reactors nA' = nn_reactors nA.
  Proof.
    intros HA HB [Hq Hl] He. pose proof (elem_of_list_lookup_2 _ _ _ He) as Hin. destruct (Hsm e Hin) as (_ & Hr & _).
    apply (wire_ask_answered compress decompress snappy); auto.
    - cbn [rpc_serve]. destruct (gp_chain _ _ _ Hgp) as [H1 _]. destruct (H1 i e He) as [_ ->]. reflexivity.
    - assert (fits (enc_request (RqEpoch (nat64 i)))) as Hf.
      { cbn [enc_request]. unfold fits. rewrite blen_app. unfold benc_u64, blen. rewrite !le_length. reflexivity. }
      pose proof (C66_roundtrip_request (RqEpoch (nat64 i)) [] Hf) as X. rewrite app_nil_r in X. exact X.
    - apply C66_roundtrip_response. exact (small_prefix _ _ Hr).
    - cbn [enc_request]. unfold small_message. rewrite blen_app. unfold benc_u64, blen. rewrite !le_length. reflexivity.
  Qed.
  Lemma wire_txs_ok nB sidB nA sid cno e es : started nA -> started nB -> quiet sid es -> e ∈ c ->
    exists l nA', wire_ask peer nB sidB nA sid cno (RqTxs (ep_ordered_tx_hashes e)) es = (Some (RpTxs l), nA') /\
      ask peer (RqTxs (ep_ordered_tx_hashes e)) = Ok (RpTxs l) /\ nn_reactors nA' = nn_reactors nA.
  Proof.
    intros HA HB [Hq Hl] Hin. destruct (Hsm e Hin) as (_ & _ & Hr & Ht).
    destruct (ask_txs digest peer c Hgp (small_answers _ _ Hsm) e Hin) as (l & Ha & Ho & Hlp).
    assert (map_res (get_transaction_by_hash rocks_col peer.1) (ep_ordered_tx_hashes e) = Ok l) as Hm.
    { rewrite <- Ho. apply map_res_ok. intros t Hin'. apply Hlp, Hin'. }
    assert (Forall tx_plain l) as Hpl by (apply Forall_forall; intros t Hin'; apply Hlp, Hin').
    destruct (wire_ask_answered compress decompress snappy peer nB sidB nA sid cno (RqTxs (ep_ordered_tx_hashes e)) (RpTxs l) es) as (nA' & E & R); auto.
    - cbn [rpc_serve]. rewrite Hm. reflexivity.
    - pose proof (C66_roundtrip_request _ [] (small_fits _ Hr)) as X. rewrite app_nil_r in X. exact X.
    - apply C66_roundtrip_response; [exact Hpl|]. exact (small_prefix _ _ (Ht l Hm)).
    - eauto.
  Qed.

  (** ** The announcement *)
  Lemma announce_on_message L raw n d sid : announcement L raw -> N.of_nat L + 1 < two64 -> started n ->
    on_message compress decompress d n sid raw = (RAnnounced sid (enc_fixed_epoch_id (wrap64 (N.of_nat L + 1))), n).
  Proof.
    intros Ha Hs Hn. set (m := enc_fixed_epoch_id (wrap64 (N.of_nat L + 1))) in *.
    assert (fits m) as Hf by (unfold m, fits, enc_fixed_epoch_id, benc_u64, blen; rewrite le_length; reflexivity).
    assert (blen (enc_blob m) = 16) as Hlen.
    { unfold m, enc_fixed_epoch_id, enc_blob, benc_bytes, benc_u64. rewrite blen_app. unfold blen. rewrite !le_length. reflexivity. }
    unfold on_message.
    rewrite (C82_gossip_reaches_its_handler compress decompress mdec menc (lossless compress decompress snappy) END_GOSSIP_RICH_EPOCH_ID TY_RichEpochID
      H_RichEpochID (VBlob m) (enc_blob m) raw n sid).
    - reflexivity.
    - vm_compute. do 4 right. left.
    - exact Ha.
    - reflexivity.
    - change (mdec TY_RichEpochID (enc_blob m)) with (read VBlob (dec_blob (enc_blob m))).
      pose proof (C66_roundtrip_blob m [] Hf) as X. rewrite app_nil_r in X. rewrite X. reflexivity.
    - apply small_envelope. unfold small_message. rewrite Hlen. reflexivity.
    - exact Hn.
  Qed.

  Theorem C110_announcement_sent : forall L, exists raw, announcement L raw.
  Proof.
    intros L. unfold announcement, package_message.
    destruct (parse_endpoint END_GOSSIP_RICH_EPOCH_ID) as [e|x|] eqn:E; [|exfalso; vm_compute in E; discriminate E..].
    change (menc TY_RichEpochID ?v) with (Ok (E := net_err) (match v with VBlob b => enc_blob b | _ => [] end)). cbn [rbind].
    destruct (snappy (nm_encode (NetMsg (full_url e) (enc_blob (enc_fixed_epoch_id (wrap64 (N.of_nat L + 1))))))) as (r & Hr & _).
    exists r. exact Hr.
  Qed.

  (** If the handler pulls nothing before it starts, the answer to that pull does not matter. *)
  Lemma first_pull_none n msg f1 f2 : first_pull digest n msg = None ->
    run_call digest root_of show verify shapes cf (CallSync msg f1) n = run_call digest root_of show verify shapes cf (CallSync msg f2) n.
  Proof.
    intros H. cbn [run_call].
    assert (sync_start digest msg f1 n = sync_start digest msg f2 n) as E; [|unfold abind; rewrite E; reflexivity].
    revert H. unfold first_pull, sync_start, abind, aget, alift, aret, aupd. destruct (nd_busy n); try reflexivity.
    destruct (dec_fixed_epoch_id msg) as [inner|x|]; cbn [map_err]; try reflexivity.
    cbn zeta. destruct (_ <=? _); [reflexivity|]. destruct (decide _); [reflexivity|].
    destruct (get_epoch_by_epoch_id _ _ _); cbn [map_err]; [discriminate|reflexivity..].
  Qed.

  Theorem C110_announced : forall nB sidB w sid raw es k L,
    started (w_net w) -> started nB -> quiet sid es ->
    stands_at digest (w_node w) c k -> (k + 2 <= L < length c)%nat -> N.of_nat L + 1 < two64 -> announcement L raw ->
    exists w1, wire_announced peer nB sidB w sid raw es = (w1, []) /\
      announced peer (w_node w) k L = (Ok RepUnit, w_node w1, []) /\ started (w_net w1).
  Proof.
    intros nB sidB w sid raw es k L HA HB Hq Hst HL Hs Hann.
    destruct (C89_starts digest root_of show verify shapes cf peer c (w_node w) k L Hgp (small_answers _ _ Hsm) Hst HL Hs)
      as (n1 & ch & sr & E & _).
    unfold TwoNodes.wire_announced. rewrite (announce_on_message L raw _ _ sid Hann Hs HA).
    destruct (first_pull _ _ _) as [id|] eqn:Ef.
    - assert (id = nat64 (S k)) as ->.
      { destruct Hst as (Hb & e & He & Hl & Ha). revert Ef. unfold first_pull. rewrite Hb, Hl.
        rewrite (chain_idw _ _ _ Hgp _ _ He). destruct (dec_fixed_epoch_id _); [|discriminate..]. cbn zeta. rewrite Ha.
        destruct (_ <=? _); [discriminate|]. destruct (decide _); [discriminate|]. intros [= <-].
        apply u64_eq. f_equal. f_equal. rewrite N.mod_small by lia. lia. }
      destruct (lookup_lt_is_Some_2 c (S k)) as [f Hf]; [lia|].
      destruct (wire_epoch_ok nB sidB (w_net w) sid (w_calls w) (S k) f es HA HB Hq Hf) as (nA' & -> & Hr).
      unfold announced in E. replace (wrap64 (N.of_nat k + 1)) with (nat64 (S k)) in E by (f_equal; lia).
      rewrite (ask_epoch _ _ _ Hgp (small_answers _ _ Hsm) _ _ Hf) in E. cbn [answer_of]. rewrite E.
      eexists. split; [reflexivity|]. cbn [w_node w_net]. split.
      + unfold PropSync.announced. replace (wrap64 (N.of_nat k + 1)) with (nat64 (S k)) by (f_equal; lia).
        rewrite (ask_epoch _ _ _ Hgp (small_answers _ _ Hsm) _ _ Hf). exact E.
      + unfold started. rewrite Hr. exact HA.
    - unfold PropSync.announced in *. rewrite (first_pull_none _ _ _ (ask peer (RqEpoch (wrap64 (N.of_nat k + 1)))) Ef). rewrite E.
      eexists. split; [reflexivity|]. split; [reflexivity|exact HA].
  Qed.

  (** ** A round *)
  Notation run_call := (run_call digest root_of show verify shapes cf).
  Lemma not_syncing os f1 g1 f2 g2 n : (forall id rich ch sr, nd_busy n = Syncing id rich ch sr -> u64v rich < id) ->
    run_call (CallSyncEpoch os f1 g1) n = run_call (CallSyncEpoch os f2 g2) n.
  Proof.
    intros H. assert (sync_step digest root_of show shapes cf os f1 g1 n = sync_step digest root_of show shapes cf os f2 g2 n) as E.
    { unfold sync_step, abind, aget, alift, aupd. destruct (nd_busy n) as [| |id rich ch sr] eqn:Eb; try reflexivity.
      specialize (H _ _ _ _ eq_refl). destruct (N.leb_spec id rich); [lia|reflexivity]. }
    cbn [Consensus.run_call]. unfold abind. rewrite E. reflexivity.
  Qed.

  Lemma wire_pull_same nB sidB sid w os es1 es2 k j L d0 :
    started (w_net w) -> started nB -> quiet sid es1 -> quiet sid es2 -> (L < length c)%nat ->
    J digest peer c k L d0 (w_node w) j ->
    exists w', wire_pull peer nB sidB sid w os es1 es2 = (w', (pull peer (w_node w) os).2) /\
      w_node w' = (pull peer (w_node w) os).1.2 /\ started (w_net w').
  Proof.
    intros HA HB Hq1 Hq2 HL HJ. unfold TwoNodes.wire_pull.
    destruct HJ as (Hjk & _ & _ & [Hb|(ch & sr & ej & Hb & Hej & Hlink)]).
    - rewrite Hb. exists w. unfold SyncSpec.pull.
      assert (run_call (CallSyncEpoch os (next_epoch peer (w_node w)) (next_txs peer (w_node w))) (w_node w) = (Err CNotRunning, w_node w, [])) as E.
      { cbn [Consensus.run_call]. unfold abind at 1, sync_step. unfold abind at 1, aget at 1. rewrite Hb. reflexivity. }
      rewrite E. cbn [fst snd]. split; [reflexivity|]. split; [reflexivity|exact HA].
    - rewrite Hb. assert (N.of_nat L < two64) as HLs.
      { destruct (lookup_lt_is_Some_2 c L HL) as [x Hx]. exact (chain_small _ _ _ Hgp _ _ Hx). }
      destruct (N.leb_spec (N.of_nat j + 1) (u64v (nat64 L))) as [Hle|Hgt].
      + rewrite wrap64_small in Hle by exact HLs. destruct (lookup_lt_is_Some_2 c (S j)) as [e He]; [lia|].
        replace (N.of_nat j + 1) with (N.of_nat (S j)) by lia.
        destruct (wire_epoch_ok nB sidB (w_net w) sid (w_calls w) (S j) e es1 HA HB Hq1 He) as (nA1 & -> & R1).
        assert (started nA1) as HA1 by (unfold started; rewrite R1; exact HA).
        rewrite decide_False.
        2:{ intros [X Y]. destruct Hlink as [-> | ->]; [apply X; reflexivity|]. apply Y. symmetry.
            destruct (gp_chain _ _ _ Hgp) as [_ H2]. exact (H2 _ _ _ Hej He). }
        destruct (wire_txs_ok nB sidB nA1 sid (S (w_calls w)) e es2 HA1 HB Hq2 (elem_of_list_lookup_2 _ _ _ He)) as (l & nA2 & -> & Hl & R2).
        cbn [answer_of].
        assert (next_epoch peer (w_node w) = Ok (RpEpoch e)) as Hre.
        { unfold next_epoch. rewrite Hb. replace (N.of_nat j + 1) with (N.of_nat (S j)) by lia.
          exact (ask_epoch _ _ _ Hgp (small_answers _ _ Hsm) _ _ He). }
        unfold SyncSpec.pull. assert (next_txs peer (w_node w) = Ok (RpTxs l)) as Hrt by (unfold next_txs; rewrite Hre; exact Hl).
        rewrite Hre, Hrt. destruct (run_call _ _) as [[r n'] t]. eexists. split; [reflexivity|]. split; [reflexivity|].
        cbn [w_net]. unfold started. rewrite R2. exact HA1.
      + unfold SyncSpec.pull.
        rewrite (not_syncing os _ _ (next_epoch peer (w_node w)) (next_txs peer (w_node w)) (w_node w)).
        2:{ intros id rich ch' sr' Hb'. rewrite Hb in Hb'. injection Hb' as <- <- <- <-. exact Hgt. }
        destruct (run_call _ _) as [[r n'] t]. eexists. split; [reflexivity|]. split; [reflexivity|]. exact HA.
  Qed.

  (** The traffic that the other sessions, and this one, carry during the rounds. *)
  Definition quiet_rounds (sid : session) (l : list ((nat -> iter_order) * list traffic * list traffic)) : Prop :=
    Forall (fun x => quiet sid x.1.2 /\ quiet sid x.2) l.

  Lemma wire_pulls_same nB sidB sid k L d0 l : (L < length c)%nat -> headers_distinct digest c -> started nB -> quiet_rounds sid l -> forall w j,
    started (w_net w) -> J digest peer c k L d0 (w_node w) j ->
    w_node (wire_pulls peer nB sidB sid w l) = after_pulls peer (w_node w) (map (fun x => x.1.1) l) /\
    wire_disks peer nB sidB sid w l = pulls_disks peer (w_node w) (map (fun x => x.1.1) l) /\
    started (w_net (wire_pulls peer nB sidB sid w l)).
  Proof.
    intros HL Hdis HB. induction 1 as [|x l [Hq1 Hq2] Hl IH]; intros w j HA HJ; [split; [reflexivity|]; split; [reflexivity|exact HA]|].
    destruct (wire_pull_same nB sidB sid w x.1.1 x.1.2 x.2 k j L d0 HA HB Hq1 Hq2 HL HJ) as (w' & E & En & HA').
    cbn [TwoNodes.wire_disks map SyncSpec.pulls_disks]. rewrite E.
    change (wire_pulls peer nB sidB sid w (x :: l)) with (wire_pulls peer nB sidB sid (wire_pull peer nB sidB sid w x.1.1 x.1.2 x.2).1 l).
    rewrite E. cbn [fst].
    change (after_pulls peer (w_node w) (x.1.1 :: map (fun x => x.1.1) l))
      with (after_pulls peer (after_pull digest root_of show verify shapes cf peer (w_node w) x.1.1) (map (fun x => x.1.1) l)).
    unfold SyncSpec.after_pull. rewrite <- En.
    assert (exists j', J digest peer c k L d0 (w_node w') j') as [j' HJ'].
    { destruct (pulls_inv digest root_of show verify shapes cf peer c Hgp (small_answers _ _ Hsm) Hdis k L d0 [x.1.1] HL (w_node w) j HJ)
        as (j' & _ & HJ' & _). exists j'. rewrite En. exact HJ'. }
    destruct (IH w' j' HA' HJ') as (I1 & I2 & I3). split; [exact I1|]. split; [f_equal; exact I2|exact I3].
  Qed.

  (** Whatever happens during the rounds and wherever they stop or crash: the
      node has copied a prefix of what it was missing, the last of which is its
      latest epoch, and nothing else. *)
  Theorem C110_copies : forall nB sidB w sid raw es k L l,
    started (w_net w) -> started nB -> quiet sid es -> quiet_rounds sid l ->
    headers_distinct digest c -> stands_at digest (w_node w) c k ->
    (k + 2 <= L < length c)%nat -> N.of_nat L + 1 < two64 -> announcement L raw ->
    let w1 := (wire_announced peer nB sidB w sid raw es).1 in
    let w2 := wire_pulls peer nB sidB sid w1 l in
    (exists j, (k <= j <= L)%nat /\ has_copied digest peer c k j (nd_disk (w_node w2)) /\
       only_copied c k j (nd_disk (w_node w)) (nd_disk (w_node w2))) /\
    (forall d, d ∈ wire_disks peer nB sidB sid w1 l -> exists j, (k <= j <= L)%nat /\ has_copied digest peer c k j d).
  Proof.
    intros nB sidB w sid raw es k L l HA HB Hq Hql Hdis Hst HL Hs Hann.
    destruct (C110_announced nB sidB w sid raw es k L HA HB Hq Hst HL Hs Hann) as (w1 & E & Ean & HA1). rewrite E. cbn [fst]. cbn zeta.
    destruct (C89_starts digest root_of show verify shapes cf peer c (w_node w) k L Hgp (small_answers _ _ Hsm) Hst HL Hs)
      as (n1 & ch & sr & E1 & Hb & Hd & _ & _ & Hc).
    rewrite Ean in E1. injection E1 as <-.
    pose proof (start_J digest shapes peer c (w_node w) k L (w_node w1) ch sr Hgp Hst ltac:(lia) Hb Hd Hc) as HJ.
    destruct (wire_pulls_same nB sidB sid k L _ l ltac:(lia) Hdis HB Hql w1 k HA1 HJ) as (W1 & W2 & _). rewrite W1, W2.
    exact (C89_copies digest root_of show verify shapes cf peer c (w_node w) k L (w_node w1) _ Hgp (small_answers _ _ Hsm) Hdis Hst HL Hs Ean).
  Qed.

  (** If no round fails in the execution, it copies everything and tells the
      engine to go on after the peer's latest epoch. *)
  Theorem C110_completes : forall nB sidB w sid raw es k L l e,
    started (w_net w) -> started nB -> quiet sid es -> quiet_rounds sid l ->
    headers_distinct digest c -> stands_at digest (w_node w) c k ->
    (k + 2 <= L < length c)%nat -> N.of_nat L + 1 < two64 -> announcement L raw -> c !! L = Some e ->
    let w1 := (wire_announced peer nB sidB w sid raw es).1 in
    length l = (L - k + 1)%nat -> pulls_ok peer (w_node w1) (map (fun x => x.1.1) l) ->
    let n2 := w_node (wire_pulls peer nB sidB sid w1 l) in
    has_copied digest peer c k L (nd_disk n2) /\ only_copied c k L (nd_disk (w_node w)) (nd_disk n2) /\ nd_busy n2 = Idle /\
    cs_epoch_id (nd_status n2) = wrap64 (N.of_nat L + 1) /\ cs_prev_hash (nd_status n2) = digest (enc_epoch e) /\
    nd_out n2 = nd_out (w_node w) ++
      [RichStatus (wrap64 (N.of_nat L + 1)) (cs_interval (nd_status (w_node w))) (authority_list (cs_validators (nd_status (w_node w))))].
  Proof.
    intros nB sidB w sid raw es k L l e HA HB Hq Hql Hdis Hst HL Hs Hann He.
    destruct (C110_announced nB sidB w sid raw es k L HA HB Hq Hst HL Hs Hann) as (w1 & E & Ean & HA1). rewrite E. cbn [fst]. cbn zeta.
    intros Hlen Hok.
    destruct (C89_starts digest root_of show verify shapes cf peer c (w_node w) k L Hgp (small_answers _ _ Hsm) Hst HL Hs)
      as (n1 & ch & sr & E1 & Hb & Hd & _ & _ & Hc).
    rewrite Ean in E1. injection E1 as <-.
    pose proof (start_J digest shapes peer c (w_node w) k L (w_node w1) ch sr Hgp Hst ltac:(lia) Hb Hd Hc) as HJ.
    destruct (wire_pulls_same nB sidB sid k L _ l ltac:(lia) Hdis HB Hql w1 k HA1 HJ) as (W1 & _ & _). rewrite W1.
    exact (C89_completes digest root_of show verify shapes cf peer c (w_node w) k L (w_node w1) _ e Hgp (small_answers _ _ Hsm) Hdis Hst HL Hs He Ean
      ltac:(rewrite map_length; exact Hlen) Hok).
  Qed.

  (** A node one epoch behind, or not behind, asks for nothing and stays as it is. *)
  Theorem C110_one_behind_ignored : forall nB sidB w sid raw es k L,
    started (w_net w) -> stands_at digest (w_node w) c k -> (1 <= L <= k + 1)%nat -> N.of_nat L + 1 < two64 -> announcement L raw ->
    wire_announced peer nB sidB w sid raw es = (w, []).
  Proof.
    intros nB sidB w sid raw es k L HA Hst HL Hs Hann.
    unfold TwoNodes.wire_announced. rewrite (announce_on_message L raw _ _ sid Hann Hs HA).
    assert (first_pull digest (w_node w) (enc_fixed_epoch_id (wrap64 (N.of_nat L + 1))) = None) as Ef.
    { destruct Hst as (Hb & e & He & Hl & Ha). unfold first_pull. rewrite Hb.
      destruct (announce_msg shapes L Hs) as [M1 M2]. rewrite M1. rewrite M2, Hl, (chain_idw _ _ _ Hgp _ _ He). cbn zeta.
      pose proof (chain_small _ _ _ Hgp _ _ He) as Hks.
      destruct (N.leb_spec (wrap64 (nat64 L + two64 - 1)) (nat64 k)) as [_|X]; [reflexivity|exfalso]. revert X.
      rewrite (wrap64_small (N.of_nat L)), (wrap64_small (N.of_nat k)) by lia.
      replace (N.of_nat L + two64 - 1) with (N.of_nat L - 1 + 1 * two64) by lia.
      unfold wrap64. cbn [u64v]. rewrite N.mod_add by (unfold two64; lia). rewrite N.mod_small by lia. lia. }
    rewrite Ef. rewrite (first_pull_none _ _ (Err (CNetwork 1)) (ask peer (RqEpoch (wrap64 (N.of_nat k + 1)))) Ef).
    pose proof (C89_one_behind_ignored digest root_of show verify shapes cf peer c (w_node w) k L Hgp Hst HL Hs) as E.
    unfold PropSync.announced in E. rewrite E. destruct w; reflexivity.
  Qed.
End Props.
Print Assumptions C110_announcement_sent.
Print Assumptions C110_announced.
Print Assumptions C110_copies.
Print Assumptions C110_completes.
Print Assumptions C110_one_behind_ignored.
