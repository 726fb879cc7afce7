(** * C89: a node catching up from an honest peer. *)
From Verif Require Import Base BaseFacts Hex Types Rlp RlpFacts FixedCodec FixedCodecFacts CodecProps StateAdapter Executor Mempool
  Merkle Bincode ConsMsg PropConsMsg Proto ProtoFacts Wire WireFacts Storage StorageSpec StorageFacts StorageProps
  Consensus ConsSpec ConsFacts ConsInv ConsChain ConsMore SyncSpec SyncFacts PropConsensus.
Local Open Scope N_scope.

Section Props.
  Context (digest : bytes -> hash) (root_of : gmap bytes bytes -> hash) (show : exec_err -> rstring)
          (verify : bytes -> bytes -> bytes -> bool) (shapes : nat -> shape) (cf : config).
  Notation run_call := (run_call digest root_of show verify shapes cf).
  Notation history := (Consensus.history digest root_of show verify shapes cf).
  Notation always C := (along digest root_of show verify shapes cf C (Down (∅, ∅))).
  Notation epochs_ok := (epochs_ok digest root_of show verify shapes cf).
  Notation latest d := (get_latest_epoch rocks_col digest (fst d)).
  Notation at_id d i := (get_epoch_by_epoch_id rocks_col (fst d) i).
  Notation pull := (pull digest root_of show verify shapes cf).
  Notation after_pulls := (after_pulls digest root_of show verify shapes cf).
  Notation pulls_ok := (pulls_ok digest root_of show verify shapes cf).
  Notation pulls_disks := (pulls_disks digest root_of show verify shapes cf).
  Notation nat64 i := (wrap64 (N.of_nat i)).

  (** The node [n] is idle and has the [k]th epoch of the peer's chain [c] as
      its latest. *)
  Definition stands_at (n : node) (c : list epoch) (k : nat) : Prop :=
    nd_busy n = Idle /\ exists e, c !! k = Some e /\ latest (nd_disk n) = Ok e /\ at_id (nd_disk n) (nat64 k) = Ok e.
  (** It handles the announcement of a peer whose latest epoch is the [L]th. *)
  Definition announced (peer : durable) (n : node) (k L : nat) : res cn_err reply * node * list durable :=
    run_call (CallSync (enc_fixed_epoch_id (wrap64 (N.of_nat L + 1))) (ask peer (RqEpoch (wrap64 (N.of_nat k + 1))))) n.

  Lemma announce_msg L : N.of_nat L + 1 < two64 ->
    dec_fixed_epoch_id (enc_fixed_epoch_id (wrap64 (N.of_nat L + 1))) = Ok (wrap64 (N.of_nat L + 1)) /\
    wrap64 (wrap64 (N.of_nat L + 1) + two64 - 1) = nat64 L.
  Proof.
    intros H. split.
    - pose proof (C66_roundtrip_epoch_id (wrap64 (N.of_nat L + 1)) []) as X. rewrite app_nil_r in X. exact X.
    - apply u64_eq. rewrite !(wrap64_small (N.of_nat L + 1)), (wrap64_small (N.of_nat L)) by lia.
      replace (N.of_nat L + 1 + two64 - 1) with (N.of_nat L + 1 * two64) by lia.
      unfold wrap64. cbn [u64v]. rewrite N.mod_add by (unfold two64; lia). apply N.mod_small. lia.
  Qed.

  (** A node two or more epochs behind starts synchronising. *)
  Theorem C89_starts : forall peer c n k L,
    good_peer digest peer c -> answers_fit peer c -> stands_at n c k ->
    (k + 2 <= L < length c)%nat -> N.of_nat L + 1 < two64 ->
    exists n1 ch sr, announced peer n k L = (Ok RepUnit, n1, []) /\
      nd_busy n1 = Syncing (N.of_nat k + 1) (nat64 L) ch sr /\
      nd_disk n1 = nd_disk n /\ nd_status n1 = nd_status n /\ nd_out n1 = nd_out n /\
      (k = O \/ exists e, c !! k = Some e /\ ch = digest (enc_epoch e)).
  Proof.
    intros peer c n k L Hgp Hfit (Eb & e & He & Hl & Ha) HL Hs.
    destruct (announce_msg L Hs) as [M1 M2].
    pose proof (chain_idw _ _ _ Hgp _ _ He) as Hid.
    assert (N.of_nat k + 1 < two64) as Hk1 by lia.
    assert (wrap64 (nat64 L + two64 - 1) <=? nat64 k = false) as Hgap.
    { apply N.leb_gt. rewrite (wrap64_small (N.of_nat L)), (wrap64_small (N.of_nat k)) by lia.
      replace (N.of_nat L + two64 - 1) with (N.of_nat L - 1 + 1 * two64) by lia.
      unfold wrap64. cbn [u64v]. rewrite N.mod_add by (unfold two64; lia). rewrite N.mod_small by lia. lia. }
    assert (wrap64 (nat64 k + 1) = N.of_nat k + 1 :> N) as Hsucc.
    { rewrite (wrap64_small (N.of_nat k)) by lia. apply wrap64_small. exact Hk1. }
    unfold announced. cbn [Consensus.run_call]. unfold abind at 1, sync_start. unfold abind at 1, aget at 1. rewrite Eb.
    unfold abind at 1, alift at 1. rewrite M1. cbn [map_err]. cbv zeta. rewrite M2, Hl, Hid, Hgap.
    destruct k as [|k].
    - rewrite decide_True by reflexivity. eexists _, _, _. split; [reflexivity|]. cbn [nd_busy set_busy nd_disk nd_status nd_out].
      split; [|split; [reflexivity|]; split; [reflexivity|]; split; [reflexivity|]; left; reflexivity].
      rewrite Hsucc. reflexivity.
    - rewrite decide_False.
      2:{ intros X. apply (f_equal u64v) in X. rewrite wrap64_small in X by lia. change (u64v (wrap64 0)) with 0 in X. lia. }
      unfold abind at 1, alift at 1. rewrite Ha. cbn [map_err].
      destruct (lookup_lt_is_Some_2 c (S (S k))) as [f Hf]; [lia|].
      replace (wrap64 (N.of_nat (S k) + 1)) with (nat64 (S (S k))) by (f_equal; lia).
      rewrite (ask_epoch _ _ _ Hgp Hfit _ _ Hf).
      unfold abind at 1, alift at 1. cbn [pull_reply_epoch].
      rewrite decide_True by (destruct (gp_chain _ _ _ Hgp) as [_ H2]; symmetry; exact (H2 _ _ _ He Hf)).
      eexists _, _, _. split; [reflexivity|]. cbn [nd_busy set_busy nd_disk nd_status nd_out]. rewrite Hsucc.
      split; [reflexivity|]. split; [reflexivity|]. split; [reflexivity|]. split; [reflexivity|]. right. exists e. split; [exact He|reflexivity].
  Qed.

  (** A node one epoch behind, or not behind, does nothing. *)
  Theorem C89_one_behind_ignored : forall peer c n k L,
    good_peer digest peer c -> stands_at n c k -> (1 <= L <= k + 1)%nat -> N.of_nat L + 1 < two64 ->
    announced peer n k L = (Ok RepUnit, n, []).
  Proof.
    intros peer c n k L Hgp (Eb & e & He & Hl & Ha) HL Hs. destruct (announce_msg L Hs) as [M1 M2].
    pose proof (chain_idw _ _ _ Hgp _ _ He) as Hid. pose proof (chain_small _ _ _ Hgp _ _ He) as Hks.
    assert (wrap64 (nat64 L + two64 - 1) <=? nat64 k = true) as Hgap.
    { apply N.leb_le. rewrite (wrap64_small (N.of_nat L)), (wrap64_small (N.of_nat k)) by lia.
      replace (N.of_nat L + two64 - 1) with (N.of_nat L - 1 + 1 * two64) by lia.
      unfold wrap64. cbn [u64v]. rewrite N.mod_add by (unfold two64; lia). rewrite N.mod_small by lia. lia. }
    unfold announced. cbn [Consensus.run_call]. unfold abind at 1, sync_start. unfold abind at 1, aget at 1. rewrite Eb.
    unfold abind at 1, alift at 1. rewrite M1. cbn [map_err]. cbv zeta. rewrite M2, Hl, Hid, Hgap. reflexivity.
  Qed.

  Lemma start_J peer c n k L n1 ch sr : good_peer digest peer c -> stands_at n c k -> (k + 2 <= L)%nat ->
    nd_busy n1 = Syncing (N.of_nat k + 1) (nat64 L) ch sr -> nd_disk n1 = nd_disk n ->
    (k = O \/ exists e, c !! k = Some e /\ ch = digest (enc_epoch e)) ->
    J digest peer c k L (nd_disk n) n1 k.
  Proof.
    intros Hgp (Eb & e & He & Hl & Ha) HL Hb Hd Hc. split; [lia|]. rewrite Hd. split; [|split].
    - split; [exists e; auto|]. intros i x Hi. lia.
    - split; reflexivity.
    - right. exists ch, sr, e. split; [exact Hb|]. split; [exact He|].
      destruct Hc as [->|(e' & He' & ->)]; [left; reflexivity|]. rewrite He in He'. injection He' as <-. right. reflexivity.
  Qed.

  (** Whatever happens then, and wherever it stops or crashes, the node has
      copied a prefix of what it was missing, the last of which is its latest
      epoch, and nothing else. *)
  Theorem C89_copies : forall peer c n k L n1 oss,
    good_peer digest peer c -> answers_fit peer c -> headers_distinct digest c -> stands_at n c k ->
    (k + 2 <= L < length c)%nat -> N.of_nat L + 1 < two64 ->
    announced peer n k L = (Ok RepUnit, n1, []) ->
    (exists j, (k <= j <= L)%nat /\ has_copied digest peer c k j (nd_disk (after_pulls peer n1 oss)) /\
       only_copied c k j (nd_disk n) (nd_disk (after_pulls peer n1 oss))) /\
    (forall d, d ∈ pulls_disks peer n1 oss -> exists j, (k <= j <= L)%nat /\ has_copied digest peer c k j d).
  Proof.
    intros peer c n k L n1 oss Hgp Hfit Hdis Hst HL Hs Ean.
    destruct (C89_starts peer c n k L Hgp Hfit Hst HL Hs) as (n1' & ch & sr & E & Hb & Hd & _ & _ & Hc).
    rewrite E in Ean. injection Ean as ->.
    pose proof (start_J peer c n k L n1 ch sr Hgp Hst ltac:(lia) Hb Hd Hc) as HJ.
    destruct (pulls_inv digest root_of show verify shapes cf peer c Hgp Hfit Hdis k L (nd_disk n) oss ltac:(lia) n1 k HJ) as (j & Hj & (HjL & H1 & H2 & _) & H3).
    split.
    - exists j. split; [lia|]. split; [apply (raw_reads digest peer c Hfit), H1|apply only_reads, H2].
    - intros d Hin. rewrite Forall_forall in H3. destruct (H3 d Hin) as (i & Hi & Hr). exists i. split; [lia|].
      apply (raw_reads digest peer c Hfit), Hr.
  Qed.

  (** If no pull fails, it copies everything and tells the engine to go on
      after the peer's latest epoch. *)
  Theorem C89_completes : forall peer c n k L n1 oss e,
    good_peer digest peer c -> answers_fit peer c -> headers_distinct digest c -> stands_at n c k ->
    (k + 2 <= L < length c)%nat -> N.of_nat L + 1 < two64 -> c !! L = Some e ->
    announced peer n k L = (Ok RepUnit, n1, []) ->
    length oss = (L - k + 1)%nat -> pulls_ok peer n1 oss ->
    let n2 := after_pulls peer n1 oss in
    has_copied digest peer c k L (nd_disk n2) /\ only_copied c k L (nd_disk n) (nd_disk n2) /\ nd_busy n2 = Idle /\
    cs_epoch_id (nd_status n2) = wrap64 (N.of_nat L + 1) /\ cs_prev_hash (nd_status n2) = digest (enc_epoch e) /\
    nd_out n2 = nd_out n ++
      [RichStatus (wrap64 (N.of_nat L + 1)) (cs_interval (nd_status n)) (authority_list (cs_validators (nd_status n)))].
  Proof.
    intros peer c n k L n1 oss e Hgp Hfit Hdis Hst HL Hs He Ean Hlen Hok.
    destruct (C89_starts peer c n k L Hgp Hfit Hst HL Hs) as (n1' & ch & sr & E & Hb & Hd & Hst1 & Hout & Hc).
    rewrite E in Ean. injection Ean as ->.
    pose proof (start_J peer c n k L n1 ch sr Hgp Hst ltac:(lia) Hb Hd Hc) as HJ.
    destruct (exists_last (l := oss)) as (oss' & os & ->); [intros ->; cbn [length] in Hlen; lia|].
    rewrite app_length in Hlen. cbn [length] in Hlen.
    assert (forall n, pulls_ok peer n (oss' ++ [os]) -> pulls_ok peer n oss' /\ is_ok (pull peer (after_pulls peer n oss') os).1.1 = true) as Hsplit.
    { clear. induction oss' as [|o l IH]; intros n; cbn [app SyncSpec.pulls_ok].
      - intros [H _]. split; [exact I|exact H].
      - intros [H1 H2]. apply IH in H2 as [H2 H3]. split; [split; assumption|exact H3]. }
    destruct (Hsplit n1 Hok) as [Hok1 Hlast].
    destruct (pulls_all digest root_of show verify shapes cf peer c Hgp Hfit Hdis k L (nd_disk n) oss' ltac:(lia) n1 k ch sr HJ Hb ltac:(lia) Hok1)
      as (HJ2 & (ch' & sr' & Hb2) & Ho2 & Hi2 & Hv2 & Hfin).
    destruct Hfin as (e' & He' & Hs1 & Hs2); [lia|]. rewrite He in He'. injection He' as <-.
    unfold SyncSpec.after_pulls. rewrite fold_left_app. cbn [fold_left].
    change (fold_left (SyncSpec.after_pull digest root_of show verify shapes cf peer) oss' n1) with (after_pulls peer n1 oss').
    unfold SyncSpec.after_pull. destruct (pull peer (after_pulls peer n1 oss') os) as [[r n2] t] eqn:E2. cbn [fst snd] in *.
    destruct (pull_step digest root_of show verify shapes cf peer c Hgp Hfit Hdis k L (nd_disk n) _ L os r n2 t ltac:(lia) HJ2 E2)
      as [(Hi & _)|[(_ & _ & _ & Hd3 & Hs3 & Hb3 & (_ & R1 & R2 & _) & Ho3)|[(Hf & _)|(_ & Hlt & _)]]].
    - rewrite Hb2 in Hi. discriminate Hi.
    - split; [apply (raw_reads digest peer c Hfit), R1|]. split; [apply only_reads, R2|]. split; [exact Hb3|].
      rewrite Hs3, Hs1, Hs2. split; [rewrite (chain_id _ _ _ Hgp _ _ He); reflexivity|]. split; [reflexivity|].
      rewrite Ho3, Ho2, Hout, Hi2, Hv2, Hst1. reflexivity.
    - congruence.
    - lia.
  Qed.

  (** Only the execution can make a pull fail. *)
  Theorem C89_fails_only_in_execution : forall peer c n id L ch sr e prev os l x resp x',
    good_peer digest peer c -> answers_fit peer c ->
    nd_busy n = Syncing (N.of_nat id + 1) (nat64 L) ch sr -> (id < L < length c)%nat ->
    c !! id = Some prev -> c !! S id = Some e -> id = O \/ ch = digest (enc_epoch prev) ->
    map_res (get_transaction_by_hash rocks_col peer.1) (ep_ordered_tx_hashes e) = Ok l ->
    Executor.from_root digest (cf_chain_id cf) sr (nd_disk n).2 (eh_epoch_id (ep_header e)) (cs_price (nd_status n))
      (AUser (eh_proposer (ep_header e))) = Ok x ->
    exec digest root_of show os x l = Ok (resp, x') ->
    is_ok (pull peer n os).1.1 = true.
  Proof.
    intros peer c n id L ch sr e prev os l x resp x' Hgp Hfit Hb HL Hp He Hc Hl Hx Hex.
    assert (next_epoch peer n = Ok (RpEpoch e)) as Hre.
    { unfold next_epoch. rewrite Hb. replace (N.of_nat id + 1) with (N.of_nat (S id)) by lia. apply (ask_epoch _ _ _ Hgp Hfit), He. }
    destruct (ask_txs digest peer c Hgp Hfit e (elem_of_list_lookup_2 _ _ _ He)) as (l' & Hrt & Hho & Hlp).
    assert (l' = l) as ->.
    { assert (map_res (get_transaction_by_hash rocks_col peer.1) (map st_tx_hash l') = Ok l') as Hm
        by (apply map_res_ok; intros t Ht; apply Hlp, Ht).
      rewrite Hho, Hl in Hm. injection Hm as ->. reflexivity. }
    unfold SyncSpec.pull. unfold next_txs. rewrite Hre, Hrt. cbn [Consensus.run_call]. unfold abind at 1, sync_step.
    unfold abind at 1, aget at 1. rewrite Hb.
    destruct (lookup_lt_is_Some_2 c L) as [eL HeL]; [lia|]. pose proof (chain_small _ _ _ Hgp _ _ HeL) as HLs.
    rewrite (wrap64_small (N.of_nat L)) by exact HLs. destruct (N.leb_spec (N.of_nat id + 1) (N.of_nat L)) as [_|X]; [|lia].
    unfold atry, sync_body. unfold abind at 1, alift at 1. cbn [pull_reply_epoch]. unfold abind at 1.
    rewrite decide_False.
    2:{ intros [X Y]. destruct Hc as [->|Hc]; [lia|]. apply Y. rewrite Hc. destruct (gp_chain _ _ _ Hgp) as [_ H2]. symmetry. exact (H2 _ _ _ Hp He). }
    unfold aret at 1. unfold abind at 1. unfold save_proof. rewrite awrites_spec.
    unfold abind at 1, alift at 1. cbn [pull_reply_txs]. unfold abind at 1, aget at 1. unfold abind at 1.
    unfold execute. unfold abind at 1, aget at 1. cbn [nd_disk set_disk nd_status snd].
    unfold abind at 1, alift at 1. rewrite Hx. cbn [map_err]. unfold abind at 1, alift at 1. rewrite Hex. cbn [map_err].
    unfold abind at 1, apersist at 1. cbn zeta. unfold aret at 1. unfold abind at 1. rewrite update_status_out. reflexivity.
  Qed.

  (** Every node that went through a well-behaved history is such a peer: of
      a chain that ends with its latest epoch. *)
  Theorem C89_nodes_are_good_peers : forall l e,
    epochs_ok l -> always replies_match l -> always one_more l -> db_fits (disk (history l)).1 ->
    latest (disk (history l)) = Ok e ->
    exists c, good_peer digest (disk (history l)) c /\ last c = Some e.
  Proof.
    intros l e Hok Hrm Hom Hf Hl. destruct (C60_chain digest root_of show verify shapes cf l e Hok Hom Hl) as (c & root & Hc & _ & Hlast).
    exists c. split; [|exact Hlast]. split; [exact Hc|]. intros x h Hx Hh.
    pose proof (sound_history _ _ _ _ _ _ l Hok Hrm) as Hs.
    assert (sound digest (disk (history l)).1) as [Hd _] by (destruct (history l); [exact Hs|apply Hs]).
    apply elem_of_list_lookup in Hx as [i Hi]. destruct Hc as [H1 _]. destruct (H1 i x Hi) as [_ Ha].
    revert Ha. unfold get_epoch_by_epoch_id, get_or_none, Storage.ad_get, ad_key. cbn [EpochSchema sc_cat sc_kenc sc_vdec rocks_col].
    destruct ((disk (history l)).1 !! (1, wenc_epoch_id (MkEpochId (nat64 i)))) as [b|] eqn:Eb; [|intros X; discriminate X].
    destruct (Hd _ b Eb) as (x' & -> & Hfx & _ & Hcm). rewrite (wire_epoch x' Hfx). cbn [map_err rbind ok_or]. intros [= ->].
    destruct (Hcm h Hh) as [(t & Et & Pt & Ht) _]. exists t. split; [|auto].
    unfold get_transaction_by_hash, get_or_none, Storage.ad_get, ad_key. cbn [TransactionSchema sc_cat sc_kenc sc_vdec rocks_col].
    rewrite Et, (wdec_tx_plain t Pt); [reflexivity|]. exact (Hf _ _ Et).
  Qed.
End Props.
Print Assumptions C89_starts.
Print Assumptions C89_one_behind_ignored.
Print Assumptions C89_copies.
Print Assumptions C89_completes.
Print Assumptions C89_fails_only_in_execution.
Print Assumptions C89_nodes_are_good_peers.
