(** * The latest proof; synchronisation; what a commit stores. *)
From Verif Require Import Base BaseFacts Hex Types Rlp RlpFacts FixedCodec FixedCodecFacts CodecProps StateAdapter Executor Mempool
  Merkle Bincode ConsMsg Proto ProtoFacts Wire WireFacts Storage StorageSpec StorageFacts StorageProps Consensus ConsSpec ConsFacts ConsInv ConsChain.
Local Open Scope N_scope.

Section More.
  Context (digest : bytes -> hash) (root_of : gmap bytes bytes -> hash) (show : exec_err -> rstring)
          (verify : bytes -> bytes -> bytes -> bool) (shapes : nat -> shape).
  Context (cf : config).
  Notation run_call := (run_call digest root_of show verify shapes cf).
  Notation happens := (happens digest root_of show verify shapes cf).
  Notation history := (Consensus.history digest root_of show verify shapes cf).
  Notation along := (along digest root_of show verify shapes cf).
  Notation epochs_ok := (epochs_ok digest root_of show verify shapes cf).
  Notation ep_ok := (ep_ok digest).
  Notation seen_ok := (seen_ok digest root_of cf).
  Notation LK := (1, wenc_hash (LATEST_EPOCH_KEY digest)).
  Notation PK := (1, wenc_hash (LATEST_PROOF_KEY digest)).
  Notation EK i := (1, wenc_epoch_id (MkEpochId i)).
  Notation w_index := (w_index digest).
  Notation w_latest := (w_latest digest).
  Notation w_proof := (w_proof digest).
  Notation matches := (matches digest).
  Context (HLP : LATEST_EPOCH_KEY digest <> LATEST_PROOF_KEY digest).

  (** ** The latest proof *)
  Definition proof_for (p : proof) (e : epoch) : Prop :=
    pf_epoch_id p = eh_epoch_id (ep_header e) \/ pf_epoch_id p = wrap64 (eh_epoch_id (ep_header e) + 1).
  Definition proof_ok (m : db) : Prop :=
    (m !! LK = None -> m !! PK = None) /\
    (forall b, m !! LK = Some b -> exists e, b = wenc_epoch e /\ fits (wenc_epoch e) /\
       forall bp, m !! PK = Some bp -> exists p, bp = wenc_proof p /\ proof_for p e).
  Lemma proof_ok_ext a b : b !! LK = a !! LK -> b !! PK = a !! PK -> proof_ok a -> proof_ok b.
  Proof. intros E1 E2 [H1 H2]. unfold proof_ok. rewrite E1, E2. split; assumption. Qed.
  Lemma proof_ok_new m e p : fits (wenc_epoch e) -> m !! LK = Some (wenc_epoch e) -> m !! PK = Some (wenc_proof p) ->
    proof_for p e -> proof_ok m.
  Proof.
    intros Hf E1 E2 Hp. split; [rewrite E1; discriminate|]. intros b. rewrite E1, E2. intros [= <-]. exists e.
    repeat (split; [auto|]). intros bp [= <-]. eauto.
  Qed.

  Definition proof_node (n : node) : Prop :=
    (exists e, (nd_disk n).1 !! LK = Some (wenc_epoch e) /\ fits (wenc_epoch e) /\ matches (nd_status n) e) /\
    match nd_busy n with
    | Idle => True
    | Committing id p pf txs =>
        ep_ok (pl_epoch p) /\ id = cs_epoch_id (nd_status n) /\ eh_epoch_id (ep_header (pl_epoch p)) = id /\
        pf_epoch_id pf = id /\ (nd_disk n).1 !! PK = Some (wenc_proof pf)
    | Syncing _ _ _ _ => False
    end.

  Lemma proof_history l : epochs_ok l -> along one_more (Down (∅, ∅)) l -> along commits_only (Down (∅, ∅)) l ->
    holds (fun d => proof_ok d.1) proof_node (history l).
  Proof.
    intros Hok Hr Hco. apply epochs_ok_seen in Hok as [Hs _].
    refine (machine_inv _ _ _ _ _ _ (fun d => proof_ok d.1) proof_node
              (fun m e => seen_ok m e /\ one_more m e /\ commits_only m e) _ _ _ _ _ _ l _).
    7:{ apply along_and; [assumption|]. apply along_and; assumption. }
    - intros n c k H. exact H.
    - intros d o1 o2 k H. exact H.
    - split; cbn [fst]; [intros _; apply lookup_empty|]. intros b. rewrite lookup_empty. discriminate.
    - intros n c r n' t Hp ((e0 & Hl0 & Hf0 & Hm0) & Hb) (Hse & Hre & Hco') E.
      destruct (light_call c) eqn:L.
      { apply light_call_out in E as [(p & x & -> & Hkp) ->]; [|exact L]. split; [constructor|]. split; [eauto 10|exact Hb]. }
      destruct c as [| | |id cm|os sent|msg first|os re rt]; try discriminate; cbn [commits_only event_call] in Hco'.
      + apply call_commit in E as [r1 E]. unfold ConsInv.seen_ok in Hse. cbn [event_epochs call_epochs] in Hse.
        apply Forall_cons in Hse as [He _]. cbn [one_more event_call] in Hre. clear L. destruct Hre as (Hid & (Hx1 & Hx2) & Hli).
        assert (forall eh, proof_ok (w_proof (nd_disk n).1 (commit_proof cm eh))) as Hw.
        { intros eh. apply (proof_ok_new _ e0 (commit_proof cm eh)); [exact Hf0|rewrite proof_LK; auto|apply proof_PK|].
          right. cbn [commit_proof pf_epoch_id]. rewrite Hco', Hid. apply Hm0. }
        destruct E as [r1 Hr1|eh r1 Hr1 Ei Eh|eh txs Ei Eh Eg].
        * split; [constructor|]. split; [eauto 10|exact Hb].
        * split; [apply Forall_cons; split; [apply Hw|constructor]|].
          split; [exists e0|]; cbn [nd_disk set_disk nd_busy]; [|rewrite Ei; exact I].
          rewrite with_proof_db. cbn [fst]. rewrite proof_LK by assumption. auto.
        * split; [apply Forall_cons; split; [apply Hw|constructor]|].
          split; [exists e0|]; cbn [nd_disk set_disk set_pool set_busy nd_busy nd_status]; rewrite with_proof_db; cbn [fst].
          { rewrite proof_LK by assumption. auto. }
          split; [exact He|]. split; [exact Hid|]. split; [congruence|]. split; [exact Hco'|apply proof_PK].
      + apply call_rest in E as [r1 E]. destruct E as [|id p pf txs r1 Eb Hr1|id p pf txs resp tr' lo Eb Hx El].
        * split; [constructor|]. split; [eauto 10|exact Hb].
        * split; [constructor|]. split; [eauto 10|exact I].
        * rewrite Eb in Hb. destruct Hb as (He & Hid & Hhd & Hpf & HPK). split.
          { apply Forall_cons; split; [exact Hp|]. apply (applied_forall digest proof_ok).
            - intros a b E. apply proof_ok_ext; apply E.
            - exact Hp.
            - intros a Ha. split; [|split].
              + apply (proof_ok_ext (nd_disk n).1); [rewrite epoch_hashk; apply Ha..|exact Hp].
              + apply (proof_ok_ext (nd_disk n).1); [rewrite index_LK, epoch_hashk by exact He; apply Ha
                  |rewrite index_PK, epoch_hashk by exact He; apply Ha|exact Hp].
              + apply (proof_ok_new _ (pl_epoch p) pf); [apply He|apply latest_LK| |left; congruence].
                rewrite latest_PK, index_PK, epoch_hashk, Ha by assumption. exact HPK. }
          split; [|exact I]. exists (pl_epoch p). cbn [nd_disk nd_status fst]. split; [rewrite applied_db; apply latest_LK|].
          split; [apply He|]. apply matches_new. congruence.
      + destruct Hco'.
      + destruct Hco'.
    - intros d o1 o2 root tr Hp (Hse & _) Hn Eg. unfold ConsInv.seen_ok in Hse. cbn [event_epochs disk] in Hse. rewrite Eg in Hse.
      apply Forall_cons in Hse as [He _]. rewrite genesis_trace. cbn zeta.
      set (e := genesis_epoch digest cf root) in *. apply latest_none in Hn. destruct Hp as [Hp1 Hp2]. specialize (Hp1 Hn).
      assert (forall m, m !! LK = None -> m !! PK = None -> proof_ok m) as V
        by (intros m E1 E2; split; [auto|rewrite E1; discriminate]).
      assert (proof_ok d.1) as S2 by (apply V; assumption).
      assert (proof_ok (w_epoch d.1 e)) as S3 by (apply V; rewrite epoch_hashk; assumption).
      assert (proof_ok (w_index (w_epoch d.1 e) e)) as S4
        by (apply V; [rewrite index_LK, epoch_hashk by exact He|rewrite index_PK, epoch_hashk by exact He]; assumption).
      assert (proof_ok (w_latest (w_index (w_epoch d.1 e) e) e)) as S5.
      { split; [rewrite latest_LK; discriminate|]. intros b. rewrite latest_LK. intros [= <-]. exists e. split; [reflexivity|].
        split; [apply He|]. intros bp. rewrite latest_PK, index_PK, epoch_hashk, Hp1 by assumption. discriminate. }
      assert (proof_ok (w_proof (w_latest (w_index (w_epoch d.1 e) e) e) (genesis_proof digest))) as S6.
      { apply (proof_ok_new _ e (genesis_proof digest)); [apply He|rewrite proof_LK by assumption; apply latest_LK|apply proof_PK|].
        left. reflexivity. }
      repeat (apply Forall_cons; split; [assumption|]). apply Forall_nil. exact I.
    - intros d n Hp Hn. apply start_out in Hn as (e & He & ->).
      assert (latest_ok digest d.1) as Hlo by (intros b Hb; destruct Hp as [_ Hp]; destruct (Hp b Hb) as (x & -> & Hf & _); eauto).
      destruct (read_latest_inv _ _ _ Hlo He) as [Hl Hf]. split; [|exact I]. exists e. split; [exact Hl|]. split; [exact Hf|].
      split; reflexivity.
  Qed.

  (** ** Synchronisation: what the next epoch has to link to *)
  Definition sync_node (n : node) : Prop :=
    match nd_busy n with
    | Syncing next rich ch sr => next = 1 \/
        exists e l, ch = epoch_hash digest e /\ get_latest_epoch rocks_col digest (nd_disk n).1 = Ok l /\
          (e = l \/ get_epoch_by_epoch_id rocks_col (nd_disk n).1 (eh_epoch_id (ep_header l)) = Ok e)
    | Committing _ p _ _ => ep_ok (pl_epoch p)
    | _ => True
    end.
  Definition sync_up (n : node) : Prop :=
    sync_node n /\ exists l, (nd_disk n).1 !! LK = Some (wenc_epoch l) /\ fits (wenc_epoch l).

  Lemma sync_history l : epochs_ok l -> holds (fun d => latest_ok digest d.1) sync_up (history l).
  Proof.
    intros Hok. apply epochs_ok_seen in Hok as [Hs _].
    refine (machine_inv _ _ _ _ _ _ (fun d => latest_ok digest d.1) sync_up seen_ok _ _ _ _ _ _ l Hs).
    - intros n c k H. exact H.
    - intros d o1 o2 k H. exact H.
    - intros b. cbn [fst]. rewrite lookup_empty. discriminate.
    - intros n c r n' t Hp (Hb & e0 & Hl0 & Hf0) Hse E.
      assert (forall p, latest_ok digest (w_proof (nd_disk n).1 p)) as Hw
        by (intros p; apply (latest_ok_eq digest (nd_disk n).1); [apply proof_LK; assumption|exact Hp]).
      destruct (light_call c) eqn:L.
      { apply light_call_out in E as [(p & x & -> & Hkp) ->]; [|exact L]. split; [constructor|]. split; [exact Hb|eauto]. }
      destruct c as [| | |id cm|os sent|msg first|os re rt]; try discriminate.
      + apply call_commit in E as [r1 E]. unfold ConsInv.seen_ok in Hse. cbn [event_epochs call_epochs] in Hse.
        apply Forall_cons in Hse as [He _]. clear L.
        destruct E as [r1 Hr1|eh r1 Hr1 Ei Eh|eh txs Ei Eh Eg].
        * split; [constructor|]. split; [exact Hb|eauto].
        * split; [apply Forall_cons; split; [apply Hw|constructor]|].
          split; [unfold sync_node; cbn [nd_busy set_disk]; rewrite Ei; exact I|].
          exists e0. cbn [nd_disk set_disk]. rewrite with_proof_db. cbn [fst]. rewrite proof_LK by assumption. auto.
        * split; [apply Forall_cons; split; [apply Hw|constructor]|].
          split; [exact He|]. exists e0. cbn [nd_disk set_disk set_pool set_busy]. rewrite with_proof_db. cbn [fst].
          rewrite proof_LK by assumption. auto.
      + apply call_rest in E as [r1 E]. destruct E as [|id p pf txs r1 Eb Hr1|id p pf txs resp tr' lo Eb Hx El].
        * split; [constructor|]. split; [exact Hb|eauto].
        * split; [constructor|]. split; [exact I|eauto].
        * unfold sync_node in Hb. rewrite Eb in Hb.
          split; [apply Forall_cons; split; [exact Hp|apply applied_latest_ok; assumption]|].
          split; [exact I|]. exists (pl_epoch p). cbn [nd_disk fst]. rewrite applied_db. split; [apply latest_LK|apply Hb].
      + apply call_sync in E as [r1 [E ->]]. split; [constructor|]. pose proof (read_latest _ _ _ Hl0 Hf0) as Hrl.
        destruct E as [r1|rich e Eb Hg Hz|rich id e f Eb Hnz Hid Hg Hfi Hpre].
        * split; [exact Hb|eauto].
        * split; [left; reflexivity|eauto].
        * split; [|eauto]. right. exists e, e0. rewrite Hrl in Hid. subst id. split; [reflexivity|]. split; [exact Hrl|]. right. exact Hg.
      + apply call_sync_epoch in E as [r1 E].
        destruct E as [Hns|id rich ch sr Eb Hlt|id rich ch sr r1 Eb Hr1 Hre'|id rich ch sr r1 e Eb Hr1 -> Hl'|id rich ch sr e txs resp tr' Eb Hle -> -> Hl' Hx d1].
        * split; [constructor|]. split; [exact Hb|eauto].
        * split; [constructor|]. split; [exact I|eauto].
        * split; [constructor|]. split; [exact I|eauto].
        * split; [apply Forall_cons; split; [apply Hw|constructor]|].
          split; [exact I|]. exists e0. cbn [nd_disk set_disk set_busy]. rewrite with_proof_db. cbn [fst]. rewrite proof_LK by assumption. auto.
        * unfold ConsInv.seen_ok in Hse. cbn [event_epochs call_epochs] in Hse. apply Forall_cons in Hse as [He _].
          split; [apply Forall_cons; split; [apply Hw|]; apply Forall_cons; split; [apply Hw|apply applied_latest_ok; [assumption..|apply Hw]]|].
          assert (apply_writes d1.1 (applied_writes digest e resp txs) !! LK = Some (wenc_epoch e)) as HL by (rewrite applied_db; apply latest_LK).
          split.
          { right. exists e, e. split; [reflexivity|]. cbn [nd_disk fst]. split; [apply read_latest; [exact HL|apply He]|auto]. }
          exists e. cbn [nd_disk fst]. split; [exact HL|apply He].
    - intros d o1 o2 root tr Hp Hse Hn Eg. unfold ConsInv.seen_ok in Hse. cbn [event_epochs disk] in Hse. rewrite Eg in Hse.
      apply Forall_cons in Hse as [He _]. rewrite genesis_trace. cbn zeta.
      set (e := genesis_epoch digest cf root) in *.
      assert (latest_ok digest (w_epoch d.1 e)) as S3 by (apply (latest_ok_eq digest d.1); [apply epoch_hashk|exact Hp]).
      assert (latest_ok digest (w_index (w_epoch d.1 e) e)) as S4 by (apply (latest_ok_eq digest (w_epoch d.1 e)); [apply index_LK, He|exact S3]).
      assert (latest_ok digest (w_latest (w_index (w_epoch d.1 e) e) e)) as S5 by (apply (latest_ok_new digest _ e); [apply He|apply latest_LK]).
      assert (latest_ok digest (w_proof (w_latest (w_index (w_epoch d.1 e) e) e) (genesis_proof digest))) as S6
        by (eapply latest_ok_eq; [apply proof_LK; assumption|exact S5]).
      repeat (apply Forall_cons; split; [assumption|]). apply Forall_nil. exact I.
    - intros d n Hp Hn. apply start_out in Hn as (e & He & ->). destruct (read_latest_inv _ _ _ Hp He) as [Hl Hf].
      split; [exact I|eauto].
  Qed.

  (** ** From the raw invariants to reads *)
  Lemma complete_reads m e : db_fits m -> complete_raw m e -> complete m e.
  Proof.
    intros Hf Hc h Hh. destruct (Hc h Hh) as [(t & Et & Pt & Ht) (r & Er & Pr & Hr)]. split.
    - exists t. split; [|exact Ht]. unfold get_transaction_by_hash, get_or_none, ad_get, ad_key.
      cbn [TransactionSchema sc_cat sc_kenc sc_vdec rocks_col]. rewrite Et, (wdec_tx_plain t Pt); [reflexivity|]. exact (Hf _ _ Et).
    - exists r. split; [|exact Hr]. unfold get_receipt, get_or_none, ad_get, ad_key.
      cbn [ReceiptSchema sc_cat sc_kenc sc_vdec rocks_col]. rewrite Er, (wdec_receipt_plain r Pr); [reflexivity|]. exact (Hf _ _ Er).
  Qed.
  Lemma sound_reads m : db_fits m -> sound digest m ->
    (forall i e, get_epoch_by_epoch_id rocks_col m i = Ok e -> eh_epoch_id (ep_header e) = i /\ complete m e) /\
    (forall e, get_latest_epoch rocks_col digest m = Ok e -> complete m e).
  Proof.
    intros Hf [S1 S2]. split.
    - intros i e. unfold get_epoch_by_epoch_id, get_or_none, ad_get, ad_key. cbn [EpochSchema sc_cat sc_kenc sc_vdec rocks_col].
      destruct (m !! EK i) as [b|] eqn:E; [|intros X; discriminate X]. destruct (S1 i b E) as (e' & -> & Hfe & Hi & Hc).
      rewrite (wire_epoch e' Hfe). cbn [map_err rbind ok_or]. intros [= <-]. split; [exact Hi|]. apply complete_reads; assumption.
    - intros e. unfold get_latest_epoch, get_or_none, ad_get, ad_key. cbn [LatestEpochSchema sc_cat sc_kenc sc_vdec rocks_col].
      destruct (m !! LK) as [b|] eqn:E; [|intros X; discriminate X]. destruct (S2 b eq_refl) as (e' & -> & Hfe & Hc).
      rewrite (wire_epoch e' Hfe). cbn [map_err rbind ok_or]. intros [= <-]. apply complete_reads; assumption.
  Qed.
  Lemma chain_reads m c : raw_chain digest cf m c -> stored_chain digest m c.
  Proof.
    intros (R1 & R2 & _). split; [|exact R2]. intros i e He. destruct (R1 i e He) as (A & B & C). split; [exact A|].
    assert (eh_epoch_id (ep_header e) = wrap64 (N.of_nat i)) as <-; [|apply read_at; assumption].
    apply u64_eq. rewrite wrap64_small; [exact A|]. rewrite <- A. apply u64_lt.
  Qed.
  Lemma read_latest_raw m e : latest_ok digest m -> get_latest_epoch rocks_col digest m = Ok e -> m !! LK = Some (wenc_epoch e) /\ fits (wenc_epoch e).
  Proof. apply read_latest_inv. Qed.
End More.
