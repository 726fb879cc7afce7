(** * Status, chain and proof along a node's histories. *)
From Verif Require Import Base BaseFacts Hex Types Rlp RlpFacts FixedCodec FixedCodecFacts CodecProps StateAdapter Executor Mempool
  Merkle Bincode ConsMsg Proto ProtoFacts Wire WireFacts Storage StorageSpec StorageFacts StorageProps Consensus ConsSpec ConsFacts ConsInv.
Local Open Scope N_scope.

Lemma wrap64_small n : n < two64 -> (wrap64 n : N) = n.
Proof. intros H. unfold wrap64. cbn [u64v]. apply N.mod_small, H. Qed.
Lemma succ_id (a b : u64) : b = wrap64 (a + 1) -> b <> wrap64 0 -> (b : N) = (a : N) + 1.
Proof.
  intros -> Hn. pose proof (u64_lt a) as L. destruct (decide ((a : N) + 1 < two64)) as [Hs|Hs]; [apply wrap64_small, Hs|].
  exfalso. apply Hn. replace ((a : N) + 1) with two64 by (unfold two64 in *; lia). apply u64_eq. reflexivity.
Qed.

Section Chain.
  Context (digest : bytes -> hash) (root_of : gmap bytes bytes -> hash) (show : exec_err -> rstring)
          (verify : bytes -> bytes -> bytes -> bool) (shapes : nat -> shape).
  Context (cf : config).
  Notation run_call := (run_call digest root_of show verify shapes cf).
  Notation happens := (happens digest root_of show verify shapes cf).
  Notation history := (Consensus.history digest root_of show verify shapes cf).
  Notation along := (along digest root_of show verify shapes cf).
  Notation epochs_ok := (epochs_ok digest root_of show verify shapes cf).
  Notation ep_ok := (ep_ok digest).
  Notation seen_ok := (seen_ok digest root_of cf).
  Notation LK := (1, wenc_hash (LATEST_EPOCH_KEY digest)).
  Notation PK := (1, wenc_hash (LATEST_PROOF_KEY digest)).
  Notation EK i := (1, wenc_epoch_id (MkEpochId i)).
  Notation w_index := (w_index digest).
  Notation w_latest := (w_latest digest).
  Notation w_proof := (w_proof digest).
  Context (HLP : LATEST_EPOCH_KEY digest <> LATEST_PROOF_KEY digest).

  (** ** Reading back *)
  Lemma read_latest m e : m !! LK = Some (wenc_epoch e) -> fits (wenc_epoch e) -> get_latest_epoch rocks_col digest m = Ok e.
  Proof.
    intros H Hf. unfold get_latest_epoch, get_or_none, ad_get, ad_key. cbn [LatestEpochSchema sc_cat sc_kenc sc_vdec rocks_col].
    rewrite H, (wire_epoch e Hf). reflexivity.
  Qed.
  Lemma read_at m i e : m !! EK i = Some (wenc_epoch e) -> fits (wenc_epoch e) -> get_epoch_by_epoch_id rocks_col m i = Ok e.
  Proof.
    intros H Hf. unfold get_epoch_by_epoch_id, get_or_none, ad_get, ad_key. cbn [EpochSchema sc_cat sc_kenc sc_vdec rocks_col].
    rewrite H, (wire_epoch e Hf). reflexivity.
  Qed.
  Lemma read_proof m p : m !! PK = Some (wenc_proof p) -> fits (wenc_proof p) -> get_latest_proof rocks_col digest m = Ok p.
  Proof.
    intros H Hf. unfold get_latest_proof, get_or_none, ad_get, ad_key. cbn [LatestProofSchema sc_cat sc_kenc sc_vdec rocks_col].
    rewrite H, (wire_proof p Hf). reflexivity.
  Qed.
  Lemma read_latest_inv m e : (forall b, m !! LK = Some b -> exists e, b = wenc_epoch e /\ fits (wenc_epoch e)) ->
    get_latest_epoch rocks_col digest m = Ok e -> m !! LK = Some (wenc_epoch e) /\ fits (wenc_epoch e).
  Proof.
    intros P. unfold get_latest_epoch, get_or_none, ad_get, ad_key. cbn [LatestEpochSchema sc_cat sc_kenc sc_vdec rocks_col].
    destruct (m !! LK) as [b|] eqn:E; [|intros X; discriminate X].
    destruct (P b eq_refl) as (e' & -> & Hf). rewrite (wire_epoch e' Hf). cbn [map_err rbind ok_or]. intros [= <-]. auto.
  Qed.
  Lemma latest_none m : get_latest_epoch rocks_col digest m = Err GetNone -> m !! LK = None.
  Proof.
    unfold get_latest_epoch, get_or_none, ad_get, ad_key. cbn [LatestEpochSchema sc_cat sc_kenc sc_vdec rocks_col].
    destruct (m !! LK) as [b|]; [|reflexivity]. destruct (wdec_epoch b); intros X; discriminate X.
  Qed.

  (** ** Lookups after the writes of an epoch *)
  Lemma proof_LK m p : w_proof m p !! LK = m !! LK.
  Proof. unfold ConsInv.w_proof. apply lookup_insert_ne. intros [= H]. apply wenc_hash_inj in H. congruence. Qed.
  Lemma proof_PK m p : w_proof m p !! PK = Some (wenc_proof p).
  Proof. apply lookup_insert. Qed.
  Lemma proof_EK m p i : w_proof m p !! EK i = m !! EK i.
  Proof. unfold ConsInv.w_proof. apply lookup_insert_ne. intros [= H]. exact (epoch_id_hash_disjoint _ _ (eq_sym H)). Qed.
  Lemma epoch_hashk m e h : w_epoch m e !! (1, wenc_hash h) = m !! (1, wenc_hash h).
  Proof. unfold w_epoch. apply lookup_insert_ne. intros [= H]. exact (epoch_id_hash_disjoint _ _ H). Qed.
  Lemma epoch_EK m e : w_epoch m e !! EK (eh_epoch_id (ep_header e)) = Some (wenc_epoch e).
  Proof. apply lookup_insert. Qed.
  Lemma epoch_EK_ne m e i : i <> eh_epoch_id (ep_header e) -> w_epoch m e !! EK i = m !! EK i.
  Proof. intros Hn. unfold w_epoch. apply lookup_insert_ne. intros [= H]. apply wenc_epoch_id_inj in H. congruence. Qed.
  Lemma index_LK m e : ep_ok e -> w_index m e !! LK = m !! LK.
  Proof. intros (_ & H1 & _). unfold ConsInv.w_index. apply lookup_insert_ne. intros [= H]. apply wenc_hash_inj in H. congruence. Qed.
  Lemma index_PK m e : ep_ok e -> w_index m e !! PK = m !! PK.
  Proof. intros (_ & _ & H1). unfold ConsInv.w_index. apply lookup_insert_ne. intros [= H]. apply wenc_hash_inj in H. congruence. Qed.
  Lemma index_EK m e i : w_index m e !! EK i = m !! EK i.
  Proof. unfold ConsInv.w_index. apply lookup_insert_ne. intros [= H]. exact (epoch_id_hash_disjoint _ _ (eq_sym H)). Qed.
  Lemma latest_LK m e : w_latest m e !! LK = Some (wenc_epoch e).
  Proof. apply lookup_insert. Qed.
  Lemma latest_PK m e : w_latest m e !! PK = m !! PK.
  Proof. unfold ConsInv.w_latest. apply lookup_insert_ne. intros [= H]. apply wenc_hash_inj in H. congruence. Qed.
  Lemma latest_EK m e i : w_latest m e !! EK i = m !! EK i.
  Proof. unfold ConsInv.w_latest. apply lookup_insert_ne. intros [= H]. exact (epoch_id_hash_disjoint _ _ (eq_sym H)). Qed.
  Lemma base_col1 m rs txs k : w_txs (w_receipts m rs) txs !! (1, k) = m !! (1, k).
  Proof. rewrite w_txs_other by discriminate. apply w_receipts_other. discriminate. Qed.

  (** An invariant of the epoch column only: where it has to be checked. *)
  Lemma applied_forall (P : db -> Prop) m (tr : trie_db) e resp txs :
    (forall a b, (forall k, b !! (1, k) = a !! (1, k)) -> P a -> P b) ->
    P m -> (forall a, (forall k, a !! (1, k) = m !! (1, k)) ->
              P (w_epoch a e) /\ P (w_index (w_epoch a e) e) /\ P (w_latest (w_index (w_epoch a e) e) e)) ->
    Forall (fun d : durable => P d.1) (persist_all (m, tr) (applied_writes digest e resp txs)).
  Proof.
    intros Hext Hm H. rewrite applied_trace. cbn zeta.
    destruct (H (w_txs (w_receipts m (er_receipts resp)) txs)) as (H3 & H4 & H5); [intros k; apply base_col1|].
    repeat (apply Forall_cons; split; [cbn [fst]; try assumption|]); [| |apply Forall_nil; exact I].
    - apply (Hext m); [|exact Hm]. intros k. apply w_receipts_other. discriminate.
    - apply (Hext m); [|exact Hm]. intros k. apply base_col1.
  Qed.

  (** ** The node's status and the latest epoch *)
  Definition latest_ok (m : db) : Prop := forall b, m !! LK = Some b -> exists e, b = wenc_epoch e /\ fits (wenc_epoch e).
  Lemma latest_ok_ext a b : (forall k, b !! (1, k) = a !! (1, k)) -> latest_ok a -> latest_ok b.
  Proof. intros E H v. rewrite E. apply H. Qed.
  Lemma latest_ok_eq a b : b !! LK = a !! LK -> latest_ok a -> latest_ok b.
  Proof. intros E H v. rewrite E. apply H. Qed.
  Lemma latest_ok_new m e : fits (wenc_epoch e) -> m !! LK = Some (wenc_epoch e) -> latest_ok m.
  Proof. intros Hf E v. rewrite E. intros [= <-]. eauto. Qed.
  Lemma applied_latest_ok m tr e resp txs : ep_ok e -> latest_ok m ->
    Forall (fun d : durable => latest_ok d.1) (persist_all (m, tr) (applied_writes digest e resp txs)).
  Proof.
    intros He Hm. apply applied_forall; [exact latest_ok_ext|exact Hm|]. intros a Ha. split; [|split].
    - apply (latest_ok_eq m); [|exact Hm]. rewrite epoch_hashk. apply Ha.
    - apply (latest_ok_eq m); [|exact Hm]. rewrite index_LK, epoch_hashk by exact He. apply Ha.
    - apply (latest_ok_new _ e); [apply He|apply latest_LK].
  Qed.

  Definition matches (s : status) (e : epoch) : Prop :=
    cs_epoch_id s = wrap64 (eh_epoch_id (ep_header e) + 1) /\ cs_prev_hash s = epoch_hash digest e.
  Definition configured (s : status) : Prop :=
    cs_price s = cf_price cf /\ cs_limit s = cf_limit cf /\ cs_interval s = cf_interval cf /\
    cs_validators s = map (fun a => MkValidator a x01 x01) (cf_validators cf).
  Definition status_ok (n : node) : Prop :=
    configured (nd_status n) /\
    (exists e, (nd_disk n).1 !! LK = Some (wenc_epoch e) /\ fits (wenc_epoch e) /\ matches (nd_status n) e) /\
    match nd_busy n with
    | Committing id p pf txs => ep_ok (pl_epoch p) /\ id = eh_epoch_id (ep_header (pl_epoch p))
    | _ => True
    end.

  Lemma matches_new s id e pf resp : id = eh_epoch_id (ep_header e) -> matches (new_status digest shapes s id e pf resp) e.
  Proof. intros ->. split; reflexivity. Qed.

  Lemma status_history l : epochs_ok l -> along ids_agree (Down (∅, ∅)) l ->
    holds (fun d => latest_ok d.1) status_ok (history l).
  Proof.
    intros Hok Hr. apply epochs_ok_seen in Hok as [Hs _].
    refine (machine_inv _ _ _ _ _ _ (fun d => latest_ok d.1) status_ok (fun m e => seen_ok m e /\ ids_agree m e) _ _ _ _ _ _ l _).
    7:{ apply along_and; assumption. }
    - intros n c k H. exact H.
    - intros d o1 o2 k H. exact H.
    - intros b. cbn [fst]. rewrite lookup_empty. discriminate.
    - intros n c r n' t Hp (Hcf & (e0 & Hl0 & Hf0 & Hm0) & Hb) [Hse Hre] E.
      destruct (light_call c) eqn:L.
      { apply light_call_out in E as [(p & x & -> & Hkp) ->]; [|exact L]. split; [constructor|].
        split; [exact Hcf|]. split; [eauto|exact Hb]. }
      destruct c as [| | |id cm|os sent|msg first|os re rt]; try discriminate.
      + apply call_commit in E as [r1 E]. unfold ConsInv.seen_ok in Hse. cbn [event_epochs call_epochs] in Hse.
        apply Forall_cons in Hse as [He _]. cbn [ids_agree event_call] in Hre. clear L.
        assert (forall p, latest_ok (w_proof (nd_disk n).1 p)) as Hw
          by (intros p; apply (latest_ok_eq (nd_disk n).1); [apply proof_LK|exact Hp]).
        destruct E as [r1 Hr1|eh r1 Hr1 Ei Eh|eh txs Ei Eh Eg].
        * split; [constructor|]. split; [exact Hcf|]. split; [eauto|exact Hb].
        * split; [apply Forall_cons; split; [apply Hw|constructor]|].
          split; [exact Hcf|]. split; [exists e0|exact Hb]. split; [|auto].
          cbn [nd_disk set_disk]. rewrite with_proof_db. cbn [fst]. rewrite proof_LK. exact Hl0.
        * split; [apply Forall_cons; split; [apply Hw|constructor]|].
          split; [exact Hcf|]. split; [exists e0|split; [exact He|exact Hre]]. split; [|auto].
          cbn [nd_disk set_disk set_pool set_busy]. rewrite with_proof_db. cbn [fst]. rewrite proof_LK. exact Hl0.
      + apply call_rest in E as [r1 E]. destruct E as [|id p pf txs r1 Eb Hr1|id p pf txs resp tr' lo Eb Hx El].
        * split; [constructor|]. split; [exact Hcf|]. split; [eauto|exact Hb].
        * split; [constructor|]. split; [exact Hcf|]. split; [eauto|exact I].
        * rewrite Eb in Hb. destruct Hb as [He Hid]. split.
          { apply Forall_cons; split; [exact Hp|]. apply applied_latest_ok; assumption. }
          split; [exact Hcf|]. split; [|exact I]. exists (pl_epoch p). cbn [nd_disk nd_status fst]. rewrite applied_db.
          split; [apply latest_LK|]. split; [apply He|]. apply matches_new, Hid.
      + apply call_sync in E as [r1 [E ->]]. split; [constructor|].
        destruct E; (split; [exact Hcf|]); (split; [eauto|]); try exact Hb; exact I.
      + apply call_sync_epoch in E as [r1 E].
        destruct E as [Hns|id rich ch sr Eb Hlt|id rich ch sr r1 Eb Hr1 Hre'|id rich ch sr r1 e Eb Hr1 -> Hl'|id rich ch sr e txs resp tr' Eb Hle -> -> Hl' Hx d1].
        * split; [constructor|]. split; [exact Hcf|]. split; [eauto|exact Hb].
        * split; [constructor|]. split; [exact Hcf|]. split; [eauto|exact I].
        * split; [constructor|]. split; [exact Hcf|]. split; [eauto|exact I].
        * split; [apply Forall_cons; split; [|constructor]|].
          { apply (latest_ok_eq (nd_disk n).1); [apply proof_LK|exact Hp]. }
          split; [exact Hcf|]. split; [exists e0|exact I]. split; [|auto].
          cbn [nd_disk set_disk set_busy]. rewrite with_proof_db. cbn [fst]. rewrite proof_LK. exact Hl0.
        * unfold ConsInv.seen_ok in Hse. cbn [event_epochs call_epochs] in Hse. apply Forall_cons in Hse as [He _].
          assert (latest_ok (w_proof (nd_disk n).1 (eh_proof (ep_header e)))) as Hw
            by (apply (latest_ok_eq (nd_disk n).1); [apply proof_LK|exact Hp]).
          split; [apply Forall_cons; split; [exact Hw|]; apply Forall_cons; split; [exact Hw|]; apply applied_latest_ok; assumption|].
          split; [exact Hcf|]. split; [|exact I]. exists e. cbn [nd_disk nd_status fst]. rewrite applied_db.
          split; [apply latest_LK|]. split; [apply He|]. apply matches_new; reflexivity.
    - intros d o1 o2 root tr Hp [Hse _] Hn Eg. unfold ConsInv.seen_ok in Hse. cbn [event_epochs disk] in Hse. rewrite Eg in Hse.
      apply Forall_cons in Hse as [He _]. rewrite genesis_trace. cbn zeta.
      set (e := genesis_epoch digest cf root) in *.
      assert (latest_ok (w_epoch d.1 e)) as S3 by (apply (latest_ok_eq d.1); [apply epoch_hashk|exact Hp]).
      assert (latest_ok (w_index (w_epoch d.1 e) e)) as S4 by (apply (latest_ok_eq (w_epoch d.1 e)); [apply index_LK, He|exact S3]).
      assert (latest_ok (w_latest (w_index (w_epoch d.1 e) e) e)) as S5 by (apply (latest_ok_new _ e); [apply He|apply latest_LK]).
      assert (latest_ok (w_proof (w_latest (w_index (w_epoch d.1 e) e) e) (genesis_proof digest))) as S6
        by (eapply latest_ok_eq; [apply proof_LK|exact S5]).
      repeat (apply Forall_cons; split; [assumption|]). apply Forall_nil. exact I.
    - intros d n Hp Hn. apply start_out in Hn as (e & He & ->). destruct (read_latest_inv _ _ Hp He) as [Hl Hf].
      split; [repeat split|]. split; [|exact I]. exists e. split; [exact Hl|]. split; [exact Hf|]. split; reflexivity.
  Qed.

  (** ** The chain *)
  Definition raw_chain (m : db) (c : list epoch) : Prop :=
    (forall i e, c !! i = Some e -> eh_epoch_id (ep_header e) = N.of_nat i :> N /\
       m !! EK (eh_epoch_id (ep_header e)) = Some (wenc_epoch e) /\ fits (wenc_epoch e)) /\
    (forall i a b, c !! i = Some a -> c !! S i = Some b -> eh_pre_hash (ep_header b) = epoch_hash digest a) /\
    (exists root, c !! O = Some (genesis_epoch digest cf root)).
  Definition chain_to (m : db) (e : epoch) : Prop := exists c, raw_chain m c /\ last c = Some e.
  Definition chain_ok (m : db) : Prop := forall b, m !! LK = Some b ->
    exists e, b = wenc_epoch e /\ fits (wenc_epoch e) /\ chain_to m e.

  Lemma chain_to_ext a b e : (forall i, b !! EK i = a !! EK i) -> chain_to a e -> chain_to b e.
  Proof.
    intros E (c & (R1 & R2 & R3) & Hl). exists c. split; [|exact Hl]. split; [|split; assumption].
    intros i x Hx. rewrite E. exact (R1 i x Hx).
  Qed.
  Lemma chain_ok_ext a b : b !! LK = a !! LK -> (forall i, b !! EK i = a !! EK i) -> chain_ok a -> chain_ok b.
  Proof.
    intros E1 E2 H v. rewrite E1. intros Hv. destruct (H v Hv) as (e & -> & Hf & Hc). exists e.
    split; [reflexivity|]. split; [exact Hf|]. apply (chain_to_ext a); assumption.
  Qed.
  Lemma chain_ok_new m e : fits (wenc_epoch e) -> m !! LK = Some (wenc_epoch e) -> chain_to m e -> chain_ok m.
  Proof. intros Hf E Hc v. rewrite E. intros [= <-]. eauto. Qed.

  (** Writing one epoch more does not touch the chain so far... *)
  Lemma chain_above m e0 e : chain_to m e0 -> eh_epoch_id (ep_header e) = wrap64 (eh_epoch_id (ep_header e0) + 1) ->
    eh_epoch_id (ep_header e) <> wrap64 0 -> chain_to (w_epoch m e) e0.
  Proof.
    intros (c & (R1 & R2 & R3) & Hl) Hid Hnz. exists c. split; [|exact Hl]. split; [|split; assumption].
    intros i x Hx. destruct (R1 i x Hx) as (A & B & C). split; [exact A|]. split; [|exact C].
    rewrite epoch_EK_ne; [exact B|]. intros Heq.
    assert (e0 = default e0 (c !! (length c - 1)%nat) /\ c !! (length c - 1)%nat = Some e0) as [_ Hlast].
    { rewrite last_lookup in Hl. replace (Init.Nat.pred (length c)) with (length c - 1)%nat in Hl by lia. rewrite Hl. auto. }
    destruct (R1 _ _ Hlast) as (A0 & _). apply lookup_lt_Some in Hx.
    rewrite Heq in A. rewrite (succ_id _ _ Hid Hnz) in A. lia.
  Qed.
  (** ... and extends it. *)
  Lemma chain_snoc m e0 e : chain_to m e0 -> eh_epoch_id (ep_header e) = wrap64 (eh_epoch_id (ep_header e0) + 1) ->
    eh_epoch_id (ep_header e) <> wrap64 0 -> eh_pre_hash (ep_header e) = epoch_hash digest e0 -> fits (wenc_epoch e) ->
    m !! EK (eh_epoch_id (ep_header e)) = Some (wenc_epoch e) -> chain_to m e.
  Proof.
    intros (c & (R1 & R2 & R3) & Hl) Hid Hnz Hp Hf Hw. exists (c ++ [e]). split; [|apply last_snoc].
    assert (c !! (length c - 1)%nat = Some e0 /\ (0 < length c)%nat) as [Hlast Hpos].
    { rewrite last_lookup in Hl. replace (Init.Nat.pred (length c)) with (length c - 1)%nat in Hl by lia.
      split; [exact Hl|]. destruct c; [discriminate Hl|cbn [length]; lia]. }
    destruct (R1 _ _ Hlast) as (A0 & _).
    assert ((eh_epoch_id (ep_header e) : N) = N.of_nat (length c)) as Hlen.
    { rewrite (succ_id _ _ Hid Hnz). lia. }
    split; [|split].
    - intros i x Hx. apply lookup_app_Some in Hx as [Hx|[Hge Hx]]; [exact (R1 i x Hx)|].
      apply list_lookup_singleton_Some in Hx as [Hi <-]. split; [|auto]. replace i with (length c) by lia. exact Hlen.
    - intros i a b Ha Hb. apply lookup_app_Some in Hb as [Hb|[Hge Hb]].
      + rewrite lookup_app_l in Ha by (apply lookup_lt_Some in Hb; lia). exact (R2 i a b Ha Hb).
      + apply list_lookup_singleton_Some in Hb as [Hi <-]. rewrite lookup_app_l in Ha by lia.
        replace i with (length c - 1)%nat in Ha by lia. rewrite Hlast in Ha. injection Ha as <-. exact Hp.
    - destruct R3 as [root Hroot]. exists root. rewrite lookup_app_l by exact Hpos. exact Hroot.
  Qed.

  Lemma applied_chain_ok m tr e0 e resp txs : ep_ok e -> m !! LK = Some (wenc_epoch e0) -> fits (wenc_epoch e0) -> chain_to m e0 ->
    eh_epoch_id (ep_header e) = wrap64 (eh_epoch_id (ep_header e0) + 1) -> eh_epoch_id (ep_header e) <> wrap64 0 ->
    eh_pre_hash (ep_header e) = epoch_hash digest e0 ->
    Forall (fun d : durable => chain_ok d.1) (persist_all (m, tr) (applied_writes digest e resp txs)) /\
    chain_to (apply_writes m (applied_writes digest e resp txs)) e.
  Proof.
    intros He H0 Hf0 Hc Hid Hnz Hp.
    assert (forall a, (forall k, a !! (1, k) = m !! (1, k)) -> chain_to (w_latest (w_index (w_epoch a e) e) e) e) as X.
    { intros a Ha. apply (chain_snoc _ e0); try assumption; [|apply He|].
      - apply (chain_to_ext (w_epoch a e)); [intros i; rewrite latest_EK, index_EK; reflexivity|].
        apply chain_above; [|assumption..]. apply (chain_to_ext m); [intros i; apply Ha|exact Hc].
      - rewrite latest_EK, index_EK. apply epoch_EK. }
    split.
    - apply applied_forall.
      + intros a b E. apply chain_ok_ext; [apply E|intros i; apply E].
      + apply (chain_ok_new _ e0); assumption.
      + intros a Ha.
        assert (chain_ok (w_epoch a e)) as S3.
        { apply (chain_ok_new _ e0); [exact Hf0|rewrite epoch_hashk, Ha; exact H0|].
          apply chain_above; [|assumption..]. apply (chain_to_ext m); [intros i; apply Ha|exact Hc]. }
        split; [exact S3|]. split.
        * apply (chain_ok_ext (w_epoch a e)); [apply index_LK, He|intros i; apply index_EK|exact S3].
        * apply (chain_ok_new _ e); [apply He|apply latest_LK|]. apply X, Ha.
    - rewrite applied_db. apply X. intros k. apply base_col1.
  Qed.

  Definition chain_node (n : node) : Prop :=
    (exists e, (nd_disk n).1 !! LK = Some (wenc_epoch e) /\ fits (wenc_epoch e) /\ matches (nd_status n) e /\
               chain_to (nd_disk n).1 e) /\
    match nd_busy n with
    | Idle => True
    | Committing id p pf txs =>
        ep_ok (pl_epoch p) /\ id = cs_epoch_id (nd_status n) /\ extends n (pl_epoch p) /\ links n (pl_epoch p)
    | Syncing next rich ch sr =>
        (next < two64 -> next = cs_epoch_id (nd_status n)) /\ (next <> 1 -> ch = cs_prev_hash (nd_status n))
    end.

  Lemma chain_history l : epochs_ok l -> along one_more (Down (∅, ∅)) l ->
    holds (fun d => chain_ok d.1) chain_node (history l).
  Proof.
    intros Hok Hr. apply epochs_ok_seen in Hok as [Hs _].
    refine (machine_inv _ _ _ _ _ _ (fun d => chain_ok d.1) chain_node (fun m e => seen_ok m e /\ one_more m e) _ _ _ _ _ _ l _).
    7:{ apply along_and; assumption. }
    - intros n c k H. exact H.
    - intros d o1 o2 k H. exact H.
    - intros b. cbn [fst]. rewrite lookup_empty. discriminate.
    - intros n c r n' t Hp ((e0 & Hl0 & Hf0 & Hm0 & Hc0) & Hb) [Hse Hre] E.
      assert (forall p, w_proof (nd_disk n).1 p !! LK = Some (wenc_epoch e0)) as HwL by (intros p; rewrite proof_LK; exact Hl0).
      assert (forall p, chain_to (w_proof (nd_disk n).1 p) e0) as HwC
        by (intros p; apply (chain_to_ext (nd_disk n).1); [intros i; apply proof_EK|exact Hc0]).
      assert (forall p, chain_ok (w_proof (nd_disk n).1 p)) as Hw
        by (intros p; apply (chain_ok_new _ e0); auto).
      destruct (light_call c) eqn:L.
      { apply light_call_out in E as [(p & x & -> & Hkp) ->]; [|exact L]. split; [constructor|]. split; [eauto 10|exact Hb]. }
      destruct c as [| | |id cm|os sent|msg first|os re rt]; try discriminate.
      + apply call_commit in E as [r1 E]. unfold ConsInv.seen_ok in Hse. cbn [event_epochs call_epochs] in Hse.
        apply Forall_cons in Hse as [He _]. cbn [one_more event_call] in Hre. clear L.
        destruct E as [r1 Hr1|eh r1 Hr1 Ei Eh|eh txs Ei Eh Eg].
        * split; [constructor|]. split; [eauto 10|exact Hb].
        * split; [apply Forall_cons; split; [apply Hw|constructor]|].
          split; [exists e0|exact Hb]. cbn [nd_disk set_disk]. rewrite with_proof_db. cbn [fst]. auto.
        * split; [apply Forall_cons; split; [apply Hw|constructor]|].
          split; [exists e0|]; cbn [nd_disk set_disk set_pool set_busy nd_busy]; [rewrite with_proof_db; cbn [fst]; auto|].
          split; [exact He|exact Hre].
      + apply call_rest in E as [r1 E]. destruct E as [|id p pf txs r1 Eb Hr1|id p pf txs resp tr' lo Eb Hx El].
        * split; [constructor|]. split; [eauto 10|exact Hb].
        * split; [constructor|]. split; [eauto 10|exact I].
        * rewrite Eb in Hb. destruct Hb as (He & Hid & (Hx1 & Hx2) & Hli). destruct Hm0 as [M1 M2].
          destruct (applied_chain_ok (nd_disk n).1 tr' e0 (pl_epoch p) resp txs He Hl0 Hf0 Hc0) as [F1 F2].
          { congruence. } { congruence. } { unfold links in Hli. congruence. }
          split; [apply Forall_cons; split; [exact Hp|exact F1]|]. split; [|exact I].
          exists (pl_epoch p). cbn [nd_disk nd_status fst]. split; [rewrite applied_db; apply latest_LK|]. split; [apply He|].
          split; [apply matches_new; congruence|exact F2].
      + apply call_sync in E as [r1 [E ->]]. split; [constructor|].
        pose proof (read_latest _ _ Hl0 Hf0) as Hrl. destruct Hm0 as [M1 M2].
        destruct E as [r1|rich e Eb Hg Hz|rich id e f Eb Hnz Hid Hg Hfi Hpre].
        * split; [exists e0|exact Hb]. unfold matches. auto.
        * split; [exists e0; unfold matches; auto 10|]. cbn [nd_busy set_busy nd_status].
          rewrite Hrl in Hg. injection Hg as <-. rewrite M1, Hz. split; [|intros X]; [reflexivity|exfalso; apply X; reflexivity].
        * split; [exists e0; unfold matches; auto 10|]. cbn [nd_busy set_busy nd_status].
          rewrite Hrl in Hid. subst id.
          assert (get_epoch_by_epoch_id rocks_col (nd_disk n).1 (eh_epoch_id (ep_header e0)) = Ok e0) as Hat.
          { destruct Hc0 as (c & (R1 & _) & Hlc). rewrite last_lookup in Hlc. apply R1 in Hlc as (_ & B & C).
            apply read_at; assumption. }
          rewrite Hat in Hg. injection Hg as <-. rewrite M1, M2. auto.
      + apply call_sync_epoch in E as [r1 E].
        destruct E as [Hns|id rich ch sr Eb Hlt|id rich ch sr r1 Eb Hr1 Hre'|id rich ch sr r1 e Eb Hr1 -> Hl'|id rich ch sr e txs resp tr' Eb Hle -> -> Hl' Hx d1].
        * split; [constructor|]. split; [eauto 10|exact Hb].
        * split; [constructor|]. split; [eauto 10|exact I].
        * split; [constructor|]. split; [eauto 10|exact I].
        * split; [apply Forall_cons; split; [apply Hw|constructor]|].
          split; [exists e0|exact I]. cbn [nd_disk set_disk set_busy]. rewrite with_proof_db. cbn [fst]. auto.
        * unfold ConsInv.seen_ok in Hse. cbn [event_epochs call_epochs] in Hse. apply Forall_cons in Hse as [He _].
          cbn [one_more event_call] in Hre. destruct Hre as [(Hx1 & Hx2) Hli]. rewrite Eb in Hb. destruct Hb as [Hb1 Hb2].
          destruct Hm0 as [M1 M2]. pose proof (u64_lt rich) as Hrich.
          assert (id = (cs_epoch_id (nd_status n) : N)) as Hid by (apply Hb1; lia).
          assert (eh_pre_hash (ep_header e) = epoch_hash digest e0) as Hpre.
          { destruct (N.eq_dec id 1) as [H1|H1].
            - unfold links in Hli. rewrite Hli, M2; [reflexivity|]. apply u64_eq. rewrite <- Hid. exact H1.
            - destruct Hl' as [H1'|Hl']; [contradiction|]. rewrite <- Hl', (Hb2 H1), M2. reflexivity. }
          set (m1 := w_proof (nd_disk n).1 (eh_proof (ep_header e))) in *.
          destruct (applied_chain_ok m1 tr' e0 e resp txs He (HwL _) Hf0 (HwC _)) as [F1 F2]; [congruence|congruence|exact Hpre|].
          split; [apply Forall_cons; split; [apply Hw|]; apply Forall_cons; split; [apply Hw|exact F1]|].
          split.
          { exists e. cbn [nd_disk nd_status fst]. split; [rewrite applied_db; apply latest_LK|]. split; [apply He|].
            split; [apply matches_new; reflexivity|exact F2]. }
          cbn [nd_busy nd_status new_status cs_epoch_id cs_prev_hash]. split; [|reflexivity].
          intros Hs'. rewrite Hx1, <- Hid. symmetry. apply wrap64_small, Hs'.
    - intros d o1 o2 root tr Hp [Hse _] Hn Eg. unfold ConsInv.seen_ok in Hse. cbn [event_epochs disk] in Hse. rewrite Eg in Hse.
      apply Forall_cons in Hse as [He _]. rewrite genesis_trace. cbn zeta.
      set (e := genesis_epoch digest cf root) in *. apply latest_none in Hn.
      assert (forall m, m !! LK = None -> chain_ok m) as V by (intros m E b; rewrite E; discriminate).
      assert (chain_ok (w_epoch d.1 e)) as S3 by (apply V; rewrite epoch_hashk; exact Hn).
      assert (chain_ok (w_index (w_epoch d.1 e) e)) as S4 by (apply V; rewrite index_LK, epoch_hashk by exact He; exact Hn).
      assert (chain_ok (w_latest (w_index (w_epoch d.1 e) e) e)) as S5.
      { apply (chain_ok_new _ e); [apply He|apply latest_LK|]. exists [e]. split; [|reflexivity]. split; [|split].
        - intros i x Hx. apply list_lookup_singleton_Some in Hx as [-> <-]. split; [reflexivity|]. split; [|apply He].
          rewrite latest_EK, index_EK. apply epoch_EK.
        - intros i a b Ha Hb. apply list_lookup_singleton_Some in Hb as [Hb _]. discriminate Hb.
        - exists root. reflexivity. }
      assert (chain_ok (w_proof (w_latest (w_index (w_epoch d.1 e) e) e) (genesis_proof digest))) as S6
        by (eapply chain_ok_ext; [apply proof_LK|intros i; apply proof_EK|exact S5]).
      repeat (apply Forall_cons; split; [assumption|]). apply Forall_nil. exact I.
    - intros d n Hp Hn. apply start_out in Hn as (e & He & ->).
      assert (latest_ok d.1) as Hlo by (intros b Hb; destruct (Hp b Hb) as (x & -> & Hf & _); eauto).
      destruct (read_latest_inv _ _ Hlo He) as [Hl Hf]. split; [|exact I]. exists e. split; [exact Hl|]. split; [exact Hf|].
      split; [split; reflexivity|]. destruct (Hp _ Hl) as (e' & Heq & Hf' & Hc).
      assert (e' = e) as -> by (pose proof (wire_epoch e Hf) as W; rewrite Heq, (wire_epoch e' Hf') in W; congruence). exact Hc.
  Qed.
End Chain.
