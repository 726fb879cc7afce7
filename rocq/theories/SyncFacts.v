(** * Lemmas for C89. *)
From Verif Require Import Base BaseFacts Hex Types Rlp RlpFacts FixedCodec FixedCodecFacts CodecProps StateAdapter Executor Mempool
  Merkle Bincode ConsMsg PropConsMsg Proto ProtoFacts Wire WireFacts Storage StorageSpec StorageFacts StorageProps
  Consensus ConsSpec ConsFacts ConsInv ConsChain ConsMore SyncSpec.
From Coq Require Strings.String.
Import String.StringSyntax.
Delimit Scope string_scope with string.
Local Open Scope N_scope.

Lemma map_res_all {E A B} (f : A -> res E B) (P : A -> B -> Prop) l :
  (forall a, a ∈ l -> exists b, f a = Ok b /\ P a b) -> exists k, map_res f l = Ok k /\ Forall2 P l k.
Proof.
  induction l as [|a l IH]; intros H; [exists []; split; [reflexivity|constructor]|].
  destruct (H a) as (b & Hb & Pb); [apply elem_of_cons; left; reflexivity|].
  destruct IH as (k & Hk & Pk); [intros x Hx; apply H; apply elem_of_cons; right; exact Hx|].
  exists (b :: k). cbn [map_res]. rewrite Hb. cbn [rbind]. rewrite Hk. split; [reflexivity|constructor; assumption].
Qed.

Section Facts.
  Context (digest : bytes -> hash) (root_of : gmap bytes bytes -> hash) (show : exec_err -> rstring)
          (verify : bytes -> bytes -> bytes -> bool) (shapes : nat -> shape) (cf : config).
  Notation run_call := (run_call digest root_of show verify shapes cf).
  Notation LK := (1, wenc_hash (LATEST_EPOCH_KEY digest)).
  Notation PK := (1, wenc_hash (LATEST_PROOF_KEY digest)).
  Notation EK i := (1, wenc_epoch_id (MkEpochId i)).
  Notation w_index := (w_index digest).
  Notation w_latest := (w_latest digest).
  Notation w_proof := (w_proof digest).
  Notation tx_at m h := (get_transaction_by_hash rocks_col m h).

  Context (peer : durable) (c : list epoch).
  Context (Hgp : good_peer digest peer c) (Hfit : answers_fit peer c) (Hdis : headers_distinct digest c).

  Lemma dis_keys : LATEST_EPOCH_KEY digest <> LATEST_PROOF_KEY digest.
  Proof.
    unfold LATEST_EPOCH_KEY, LATEST_PROOF_KEY. intros H. apply Hdis in H; [discriminate| |].
    - apply elem_of_cons; left; reflexivity.
    - apply elem_of_cons; right. apply elem_of_cons; left; reflexivity.
  Qed.
  Lemma dis_ep e : e ∈ c -> ep_ok digest e.
  Proof.
    intros He. destruct (Hfit e He) as (_ & Hf & _). split; [exact Hf|].
    destruct (header_nonfixed (ep_header e) _ eq_refl) as [N1 N2].
    assert (wenc_header (ep_header e) ∈ ascii "latest_hash"%string :: ascii "latest_proof"%string ::
              map (fun e => wenc_header (ep_header e)) c) as Hi.
    { do 2 (apply elem_of_cons; right). apply elem_of_list_fmap_1_alt with e; [exact He|reflexivity]. }
    unfold epoch_index_key, LATEST_EPOCH_KEY, LATEST_PROOF_KEY.
    split; intros H; apply Hdis in H; try exact Hi; try congruence.
    - apply elem_of_cons; left; reflexivity.
    - apply elem_of_cons; right. apply elem_of_cons; left; reflexivity.
  Qed.

  Lemma ask_epoch i e : c !! i = Some e -> ask peer (RqEpoch (wrap64 (N.of_nat i))) = Ok (RpEpoch e).
  Proof.
    intros He. unfold ask.
    assert (fits (enc_request (RqEpoch (wrap64 (N.of_nat i))))) as Hf.
    { cbn [enc_request]. unfold fits. rewrite blen_app. unfold benc_u64, blen. rewrite !le_length. reflexivity. }
    pose proof (C66_roundtrip_request (RqEpoch (wrap64 (N.of_nat i))) [] Hf) as Hr. rewrite app_nil_r in Hr. rewrite Hr.
    unfold rpc_serve. destruct (gp_chain _ _ _ Hgp) as [H1 _]. destruct (H1 i e He) as [_ ->]. cbn [rbind].
    destruct C66_roundtrip_response as [Hp _]. rewrite Hp; [reflexivity|].
    apply (Hfit e). apply elem_of_list_lookup_2 with i, He.
  Qed.
  Lemma ask_txs e : e ∈ c -> exists l, ask peer (RqTxs (ep_ordered_tx_hashes e)) = Ok (RpTxs l) /\
    map st_tx_hash l = ep_ordered_tx_hashes e /\
    forall t, t ∈ l -> tx_at peer.1 (st_tx_hash t) = Ok t /\ tx_plain t /\ fits (wenc_signed t).
  Proof.
    intros He. destruct (Hfit e He) as (_ & _ & Hq & Ha).
    destruct (map_res_all (get_transaction_by_hash rocks_col peer.1)
      (fun h t => tx_at peer.1 h = Ok t /\ st_tx_hash t = h /\ tx_plain t) (ep_ordered_tx_hashes e)) as (l & Hl & Hp).
    { intros h Hh. destruct (gp_txs _ _ _ Hgp e h He Hh) as (t & Et & Ht & Pt). exists t. auto. }
    specialize (Ha l Hl). exists l.
    assert (Forall tx_plain l) as Hpl.
    { clear -Hp. induction Hp as [|h t hs l (A & B & C) _ IH]; constructor; assumption. }
    split; [|split].
    - unfold ask. pose proof (C66_roundtrip_request _ [] Hq) as Hr. rewrite app_nil_r in Hr. rewrite Hr.
      unfold rpc_serve. rewrite Hl. cbn [rbind]. destruct C66_roundtrip_response as [_ Hx]. rewrite Hx by assumption. reflexivity.
    - clear -Hp. induction Hp as [|h t hs l (A & B & C) _ IH]; [reflexivity|]. cbn [map]. congruence.
    - intros t Ht. split; [|split; [rewrite Forall_forall in Hpl; apply Hpl, Ht|exact (multi_fits_elem _ _ _ Ht Ha)]].
      clear -Hp Ht. induction Hp as [|h u hs l (A & B & C) _ IH]; [inversion Ht|].
      apply elem_of_cons in Ht as [->|Ht]; [rewrite B; exact A|exact (IH Ht)].
  Qed.

  (** ** The invariant *)
  Context (k L : nat) (d0 : durable).

  Definition tx_copied (m : db) (e : epoch) : Prop := forall h, h ∈ ep_ordered_tx_hashes e ->
    exists t, tx_at peer.1 h = Ok t /\ tx_plain t /\ fits (wenc_signed t) /\ m !! (2, wenc_hash h) = Some (wenc_signed t).
  Definition raw_copied (j : nat) (m : db) : Prop :=
    (exists e, c !! j = Some e /\ get_latest_epoch rocks_col digest m = Ok e) /\
    (forall i e, (k < i <= j)%nat -> c !! i = Some e ->
       m !! EK (wrap64 (N.of_nat i)) = Some (wenc_epoch e) /\ tx_copied m e).
  Definition raw_only (j : nat) (m : db) : Prop :=
    (forall i : u64, (i <= N.of_nat k \/ N.of_nat j < i) -> m !! EK i = d0.1 !! EK i) /\
    (forall h, (forall i e, (k < i <= j)%nat -> c !! i = Some e -> h ∉ ep_ordered_tx_hashes e) ->
       m !! (2, wenc_hash h) = d0.1 !! (2, wenc_hash h)).

  Lemma raw_reads (j : nat) (d : durable) : raw_copied j d.1 -> has_copied digest peer c k j d.
  Proof.
    intros [H1 H2]. split; [exact H1|]. intros i e Hi He. destruct (H2 i e Hi He) as [A B].
    pose proof (elem_of_list_lookup_2 _ _ _ He) as Hin. split; [apply read_at; [exact A|apply (Hfit e Hin)]|].
    intros h Hh. destruct (B h Hh) as (t & Et & Pt & Ft & Lt). rewrite Et.
    unfold get_transaction_by_hash, get_or_none, Storage.ad_get, ad_key. cbn [TransactionSchema sc_cat sc_kenc sc_vdec rocks_col].
    rewrite Lt, (wdec_tx_plain t Pt Ft). reflexivity.
  Qed.
  Lemma only_reads (j : nat) (d : durable) : raw_only j d.1 -> only_copied c k j d0 d.
  Proof.
    intros [H1 H2]. split.
    - intros i Hi. specialize (H1 i Hi). unfold get_epoch_by_epoch_id, get_or_none, Storage.ad_get, ad_key.
      cbn [EpochSchema sc_cat sc_kenc sc_vdec rocks_col]. rewrite H1. reflexivity.
    - intros h Hh. specialize (H2 h Hh). unfold get_transaction_by_hash, get_or_none, Storage.ad_get, ad_key.
      cbn [TransactionSchema sc_cat sc_kenc sc_vdec rocks_col]. rewrite H2. reflexivity.
  Qed.

  (** [raw_copied] looks at these places only. *)
  Lemma latest_same m m' : m' !! LK = m !! LK -> get_latest_epoch rocks_col digest m' = get_latest_epoch rocks_col digest m.
  Proof.
    intros H. unfold get_latest_epoch, get_or_none, Storage.ad_get, ad_key. cbn [LatestEpochSchema sc_cat sc_kenc sc_vdec rocks_col].
    rewrite H. reflexivity.
  Qed.
  Lemma raw_copied_ext j m m' : m' !! LK = m !! LK ->
    (forall i e, (k < i <= j)%nat -> c !! i = Some e -> m' !! EK (wrap64 (N.of_nat i)) = m !! EK (wrap64 (N.of_nat i))) ->
    (forall e, e ∈ c -> tx_copied m e -> tx_copied m' e) -> raw_copied j m -> raw_copied j m'.
  Proof.
    intros HL HE HT [H1 H2]. split; [rewrite (latest_same _ _ HL); exact H1|]. intros i e Hi He.
    destruct (H2 i e Hi He) as [A B]. rewrite (HE i e Hi He). split; [exact A|]. apply HT; [|exact B]. exact (elem_of_list_lookup_2 _ _ _ He).
  Qed.
  Lemma tx_copied_col2 m m' e : (forall x, m' !! (2, x) = m !! (2, x)) -> tx_copied m e -> tx_copied m' e.
  Proof. intros H Hc h Hh. destruct (Hc h Hh) as (t & A & B & C & D). exists t. rewrite H. auto. Qed.
  Lemma tx_copied_txs m l e : (forall t, t ∈ l -> tx_at peer.1 (st_tx_hash t) = Ok t /\ tx_plain t /\ fits (wenc_signed t)) ->
    tx_copied m e -> tx_copied (w_txs m l) e.
  Proof.
    intros Hl Hc h Hh. destruct (batch_lookup m TransactionSchema st_tx_hash l h wenc_hash_inj) as [(v & Hv & <- & E)|[Hn E]].
    - destruct (Hl v Hv) as (A & B & C). exists v. auto.
    - destruct (Hc h Hh) as (t & A & B & C & D). exists t. splits. etransitivity; [exact E|exact D].
  Qed.
  Lemma tx_copied_new m l e : (forall t, t ∈ l -> tx_at peer.1 (st_tx_hash t) = Ok t /\ tx_plain t /\ fits (wenc_signed t)) ->
    map st_tx_hash l = ep_ordered_tx_hashes e -> tx_copied (w_txs m l) e.
  Proof.
    intros Hl Ho h Hh. destruct (batch_lookup m TransactionSchema st_tx_hash l h wenc_hash_inj) as [(v & Hv & <- & E)|[Hn E]].
    - destruct (Hl v Hv) as (A & B & C). exists v. auto.
    - rewrite Ho in Hn. contradiction.
  Qed.

  Lemma chain_id i e : c !! i = Some e -> eh_epoch_id (ep_header e) = N.of_nat i :> N.
  Proof. intros He. destruct (gp_chain _ _ _ Hgp) as [H1 _]. apply (H1 i e He). Qed.
  Lemma chain_idw i e : c !! i = Some e -> eh_epoch_id (ep_header e) = wrap64 (N.of_nat i).
  Proof.
    intros He. apply u64_eq. rewrite wrap64_small; [apply chain_id, He|]. rewrite <- (chain_id _ _ He). apply u64_lt.
  Qed.
  Lemma chain_small i e : c !! i = Some e -> N.of_nat i < two64.
  Proof. intros He. rewrite <- (chain_id _ _ He). apply u64_lt. Qed.

  (** Writing the next epoch. *)
  Lemma proof_copied j m p : raw_copied j m -> raw_copied j (w_proof m p).
  Proof.
    apply raw_copied_ext; [apply proof_LK, dis_keys|intros; apply proof_EK|]. intros e _. apply tx_copied_col2.
    intros x. unfold ConsInv.w_proof. apply lookup_insert_ne. discriminate.
  Qed.
  Lemma proof_only j m p : raw_only j m -> raw_only j (w_proof m p).
  Proof.
    intros [H1 H2]. split.
    - intros i Hi. rewrite proof_EK. apply H1, Hi.
    - intros h Hh. unfold ConsInv.w_proof. rewrite lookup_insert_ne by discriminate. apply H2, Hh.
  Qed.

  Lemma applied_copied j m tr e rs l : raw_copied j m -> c !! S j = Some e -> (k <= j)%nat ->
    (forall t, t ∈ l -> tx_at peer.1 (st_tx_hash t) = Ok t /\ tx_plain t /\ fits (wenc_signed t)) ->
    map st_tx_hash l = ep_ordered_tx_hashes e ->
    Forall (fun d : durable => raw_copied j d.1 \/ raw_copied (S j) d.1) (persist_all (m, tr) (applied_writes digest e rs l)) /\
    raw_copied (S j) (apply_writes m (applied_writes digest e rs l)).
  Proof.
    intros Hm He Hkj Hl Ho. rewrite applied_db. rewrite applied_trace. cbn zeta.
    pose proof (elem_of_list_lookup_2 _ _ _ He) as Hin. pose proof (dis_ep e Hin) as Hok.
    set (m1 := w_receipts m (er_receipts rs)). set (m2 := w_txs m1 l).
    assert (raw_copied j m1) as R1.
    { revert Hm. apply raw_copied_ext; [apply w_receipts_other; discriminate|intros; apply w_receipts_other; discriminate|].
      intros x _. apply tx_copied_col2. intros y. apply w_receipts_other. discriminate. }
    assert (raw_copied j m2) as R2.
    { revert R1. apply raw_copied_ext; [apply w_txs_other; discriminate|intros; apply w_txs_other; discriminate|].
      intros x _. apply tx_copied_txs, Hl. }
    assert (tx_copied m2 e) as T2 by (apply tx_copied_new; assumption).
    assert (forall m x v y, tx_copied m x -> tx_copied (<[(1, y) := v]> m) x) as Tcol.
    { intros mm x v y. apply tx_copied_col2. intros z. apply lookup_insert_ne. discriminate. }
    assert (raw_copied j (w_epoch m2 e)) as R3.
    { revert R2. apply raw_copied_ext; [apply epoch_hashk| |].
      - intros i x Hi Hx. apply epoch_EK_ne. rewrite (chain_idw _ _ He). intros Heq. apply (f_equal u64v) in Heq.
        rewrite !wrap64_small in Heq by (eapply chain_small; eassumption). lia.
      - intros x _. apply Tcol. }
    assert (raw_copied j (w_index (w_epoch m2 e) e)) as R4.
    { revert R3. apply raw_copied_ext; [apply index_LK, Hok|intros; apply index_EK|]. intros x _. apply Tcol. }
    assert (raw_copied (S j) (w_latest (w_index (w_epoch m2 e) e) e)) as R5.
    { destruct R4 as [_ R4]. split; [exists e; split; [exact He|apply read_latest; [apply latest_LK|apply Hok]]|].
      intros i x Hi Hx. rewrite latest_EK. destruct (decide (i = S j)) as [->|Hne].
      - rewrite He in Hx. injection Hx as <-. split.
        + rewrite index_EK, <- (chain_idw _ _ He). apply epoch_EK.
        + apply Tcol, Tcol, Tcol, T2.
      - destruct (R4 i x) as [A B]; [lia|exact Hx|]. split; [exact A|]. apply Tcol, B. }
    split; [|exact R5]. repeat (apply Forall_cons; split; [cbn [fst]; auto|]). apply Forall_nil. exact I.
  Qed.
  Lemma applied_only j m e rs l : raw_only j m -> c !! S j = Some e -> (k <= j)%nat ->
    map st_tx_hash l = ep_ordered_tx_hashes e ->
    raw_only (S j) (apply_writes m (applied_writes digest e rs l)).
  Proof.
    intros [H1 H2] He Hkj Ho. rewrite applied_db. split.
    - intros i Hi. rewrite latest_EK, index_EK, epoch_EK_ne.
      + rewrite base_col1. apply H1. lia.
      + intros Heq. rewrite Heq, (chain_id _ _ He) in Hi. lia.
    - intros h Hh. unfold ConsInv.w_latest, ConsInv.w_index, w_epoch. rewrite !lookup_insert_ne by discriminate.
      destruct (batch_lookup (w_receipts m (er_receipts rs)) TransactionSchema st_tx_hash l h wenc_hash_inj) as [(v & Hv & <- & E)|[Hn E]].
      + exfalso. apply (Hh (S j) e); [lia|exact He|]. rewrite <- Ho. apply elem_of_list_fmap_1, Hv.
      + etransitivity; [exact E|]. cbn [TransactionSchema sc_cat sc_kenc rocks_col].
        rewrite w_receipts_other by discriminate. apply H2. intros i x Hi Hx. apply (Hh i x); [lia|exact Hx].
  Qed.

  (** ** One pull *)
  Definition on_way (n : node) (j : nat) : Prop :=
    nd_busy n = Idle \/
    exists ch sr e, nd_busy n = Syncing (N.of_nat j + 1) (wrap64 (N.of_nat L)) ch sr /\ c !! j = Some e /\
      (j = O \/ ch = digest (enc_epoch e)).
  Definition J (n : node) (j : nat) : Prop :=
    (k <= j <= L)%nat /\ raw_copied j (nd_disk n).1 /\ raw_only j (nd_disk n).1 /\ on_way n j.

  Notation pull := (pull digest root_of show verify shapes cf peer).
  Notation after_pull := (after_pull digest root_of show verify shapes cf peer).

  Lemma call_sync_epoch_r os re rt n r n' t : run_call (CallSyncEpoch os re rt) n = (r, n', t) ->
    exists r1, sync_step_spec digest root_of show shapes cf os re rt n r1 n' t /\ is_ok r = is_ok r1.
  Proof.
    cbn [Consensus.run_call]. unfold abind at 1. destruct (sync_step _ _ _ _ _ _ _ _ _) as [[r1 n1] t1] eqn:E. apply sync_step_out in E.
    intros H. assert (n' = n1 /\ t = t1 /\ is_ok r = is_ok r1) as (-> & -> & ->)
      by (destruct r1; injection H as <- <- <-; rewrite ?app_nil_r; auto). eauto.
  Qed.

  Lemma pull_step n j os r n' t : (L < length c)%nat -> J n j -> pull n os = (r, n', t) ->
    (* nothing was going on *)
    (nd_busy n = Idle /\ n' = n /\ t = []) \/
    (* the end *)
    (j = L /\ is_ok r = true /\ t = [] /\ nd_disk n' = nd_disk n /\ nd_status n' = nd_status n /\ nd_busy n' = Idle /\ J n' j /\
     nd_out n' = nd_out n ++ [RichStatus (wrap64 (N.of_nat L + 1)) (cs_interval (nd_status n)) (authority_list (cs_validators (nd_status n)))]) \/
    (* the execution failed *)
    (is_ok r = false /\ nd_busy n' = Idle /\ J n' j /\ Forall (fun d : durable => raw_copied j d.1) t /\ nd_out n' = nd_out n /\
     nd_status n' = nd_status n) \/
    (* one epoch more *)
    (is_ok r = true /\ (j < L)%nat /\ J n' (S j) /\ nd_out n' = nd_out n /\
     Forall (fun d : durable => raw_copied j d.1 \/ raw_copied (S j) d.1) t /\
     exists e ch sr, c !! S j = Some e /\ nd_busy n' = Syncing (N.of_nat (S j) + 1) (wrap64 (N.of_nat L)) ch sr /\
       cs_epoch_id (nd_status n') = wrap64 (eh_epoch_id (ep_header e) + 1) /\ cs_prev_hash (nd_status n') = digest (enc_epoch e) /\
       cs_interval (nd_status n') = cs_interval (nd_status n) /\ cs_validators (nd_status n') = cs_validators (nd_status n)).
  Proof.
    intros HL (Hjk & Hrc & Hro & Hw) E. unfold SyncSpec.pull in E.
    destruct Hw as [Eb|(ch & sr & ej & Eb & Hej & Hlink)].
    { left. split; [exact Eb|]. apply call_sync_epoch_r in E as (r1 & E & _).
      inversion E; subst; try (rewrite Eb in *; discriminate). auto. }
    right. apply call_sync_epoch_r in E as (r1 & E & ->).
    assert (forall n2, nd_disk n2 = nd_disk n -> nd_busy n2 = Idle -> J n2 j) as Jsame.
    { intros n2 Hd Hb. split; [exact Hjk|]. rewrite Hd. split; [exact Hrc|]. split; [exact Hro|]. left. exact Hb. }
    assert (N.of_nat L < two64) as HLs.
    { destruct (lookup_lt_is_Some_2 c L HL) as [x Hx]. exact (chain_small _ _ Hx). }
    assert ((j < L)%nat -> exists e, c !! S j = Some e /\ next_epoch peer n = Ok (RpEpoch e) /\
              (N.of_nat j + 1 = 1 \/ ch = eh_pre_hash (ep_header e))) as Hnext.
    { intros Hlt. destruct (lookup_lt_is_Some_2 c (S j)) as [e He]; [lia|]. exists e. split; [exact He|]. split.
      - unfold next_epoch. rewrite Eb. replace (N.of_nat j + 1) with (N.of_nat (S j)) by lia. apply ask_epoch, He.
      - destruct Hlink as [-> | ->]; [left; lia|]. right. destruct (gp_chain _ _ _ Hgp) as [_ H2]. symmetry. exact (H2 j ej e Hej He). }
    destruct (decide (j = L)) as [->|Hne].
    - inversion E as [Hns|id' rich' ch' sr' Eb' Hlt|id' rich' ch' sr' r1' Eb' Hr1 Hre'|id' rich' ch' sr' r1' e' Eb' Hr1 Hre' Hl'
        |id' rich' ch' sr' e' txs' resp tr' Eb' Hle' Hre' Hrt' Hl' Hx]; subst.
      + exfalso. exact (Hns _ _ _ _ Eb).
      + rewrite Eb in Eb'. injection Eb' as <- <- <- <-. left.
        split; [reflexivity|]. split; [reflexivity|]. split; [reflexivity|]. split; [reflexivity|]. split; [reflexivity|].
        split; [reflexivity|]. split; [apply Jsame; reflexivity|]. cbn [nd_out add_out set_busy nd_status].
        rewrite (wrap64_small (N.of_nat L)) by exact HLs. reflexivity.
      + right. left. split; [exact Hr1|]. split; [reflexivity|]. split; [apply Jsame; reflexivity|]. split; [constructor|]. split; reflexivity.
      + right. left. split; [exact Hr1|]. split; [reflexivity|]. split.
        * split; [exact Hjk|]. cbn [nd_disk set_busy set_disk]. rewrite with_proof_db. cbn [fst].
          split; [apply proof_copied, Hrc|]. split; [apply proof_only, Hro|]. left. reflexivity.
        * split; [|split; reflexivity]. constructor; [|constructor]. rewrite with_proof_db. apply proof_copied, Hrc.
      + exfalso. rewrite Eb in Eb'. injection Eb' as <- <- <- <-. rewrite wrap64_small in Hle' by exact HLs. lia.
    - destruct Hnext as (e & He & Hre & Hlk); [lia|].
      pose proof (elem_of_list_lookup_2 _ _ _ He) as Hin. destruct (ask_txs e Hin) as (l & Hrt & Hho & Hlp).
      right. inversion E as [Hns|id' rich' ch' sr' Eb' Hlt|id' rich' ch' sr' r1' Eb' Hr1 Hre'|id' rich' ch' sr' r1' e' Eb' Hr1 Hre' Hl'
        |id' rich' ch' sr' e' txs' resp tr' Eb' Hle' Hre' Hrt' Hl' Hx]; subst.
      + exfalso. exact (Hns _ _ _ _ Eb).
      + exfalso. rewrite Eb in Eb'. injection Eb' as <- <- <- <-. rewrite wrap64_small in Hlt by exact HLs. lia.
      + left. split; [exact Hr1|]. split; [reflexivity|]. split; [apply Jsame; reflexivity|]. split; [constructor|]. split; reflexivity.
      + left. split; [exact Hr1|]. split; [reflexivity|]. split.
        * split; [exact Hjk|]. cbn [nd_disk set_busy set_disk]. rewrite with_proof_db. cbn [fst].
          split; [apply proof_copied, Hrc|]. split; [apply proof_only, Hro|]. left. reflexivity.
        * split; [|split; reflexivity]. constructor; [|constructor]. rewrite with_proof_db. apply proof_copied, Hrc.
      + right. rewrite Eb in Eb'. injection Eb' as <- <- <- <-. rewrite Hre in Hre'. injection Hre' as <-.
        unfold next_txs in Hrt'. rewrite Hre, Hrt in Hrt'. injection Hrt' as <-.
        split; [reflexivity|]. split; [lia|].
        assert (d1 = (w_proof (nd_disk n).1 (eh_proof (ep_header e)), tr')) as Ed1.
        { unfold d1. rewrite with_proof_db. reflexivity. }
        rewrite Ed1. cbn [fst].
        pose proof (proof_copied j _ (eh_proof (ep_header e)) Hrc) as Hrc1.
        pose proof (proof_only j _ (eh_proof (ep_header e)) Hro) as Hro1.
        destruct (applied_copied j _ tr' e resp l Hrc1 He (proj1 Hjk) Hlp Hho) as [Ht Hn].
        split; [|split; [reflexivity|split]].
        * split; [lia|]. cbn [nd_disk fst]. split; [exact Hn|]. split; [apply applied_only; [exact Hro1|exact He|apply Hjk|exact Hho]|].
          right. exists (digest (enc_epoch e)), (er_state_root resp), e. cbn [nd_busy].
          split; [f_equal; lia|]. split; [exact He|]. right. reflexivity.
        * apply Forall_cons; split; [left; rewrite with_proof_db; exact Hrc1|].
          apply Forall_cons; split; [left; exact Hrc1|]. exact Ht.
        * exists e, (epoch_hash digest e), (er_state_root resp). split; [exact He|].
          cbn [nd_busy nd_status new_status cs_epoch_id cs_prev_hash cs_interval cs_validators].
          split; [f_equal; lia|]. auto.
  Qed.

  (** ** Many *)
  Lemma pulls_inv oss : (L < length c)%nat -> forall n j, J n j ->
    exists j', (j <= j')%nat /\ J (after_pulls digest root_of show verify shapes cf peer n oss) j' /\
      Forall (fun d : durable => exists i, (j <= i <= j')%nat /\ raw_copied i d.1) (pulls_disks digest root_of show verify shapes cf peer n oss).
  Proof.
    intros HL. induction oss as [|os oss IH]; intros n j HJ; cbn [pulls_disks].
    - exists j. split; [lia|]. split; [exact HJ|constructor].
    - change (after_pulls digest root_of show verify shapes cf peer n (os :: oss))
        with (after_pulls digest root_of show verify shapes cf peer (after_pull n os) oss).
      unfold SyncSpec.after_pull. destruct (pull n os) as [[r n'] t] eqn:E. cbn [fst snd].
      assert (exists j1, (j <= j1)%nat /\ J n' j1 /\ Forall (fun d : durable => exists i, (j <= i <= j1)%nat /\ raw_copied i d.1) t)
        as (j1 & H1 & H2 & H3).
      { destruct (pull_step n j os r n' t HL HJ E) as [(_ & -> & ->)|[(_ & _ & -> & _ & _ & _ & HJ' & _)|[(_ & _ & HJ' & Ht & _)|(_ & _ & HJ' & _ & Ht & _)]]].
        - exists j. split; [lia|]. split; [exact HJ|constructor].
        - exists j. split; [lia|]. split; [exact HJ'|constructor].
        - exists j. split; [lia|]. split; [exact HJ'|]. eapply Forall_impl; [exact Ht|]. intros d Hd. exists j. split; [lia|exact Hd].
        - exists (S j). split; [lia|]. split; [exact HJ'|]. eapply Forall_impl; [exact Ht|]. intros d [Hd|Hd]; [exists j|exists (S j)]; (split; [lia|exact Hd]). }
      destruct (IH n' j1 H2) as (j2 & H4 & H5 & H6). exists j2. split; [lia|]. split; [exact H5|].
      apply Forall_app; split.
      + eapply Forall_impl; [exact H3|]. intros d (i & Hi & Hd). exists i. split; [lia|exact Hd].
      + eapply Forall_impl; [exact H6|]. intros d (i & Hi & Hd). exists i. split; [lia|exact Hd].
  Qed.

  (** If they all succeed, there is one epoch per pull and then the end. *)
  Lemma pulls_all oss : (L < length c)%nat -> forall n j ch sr, J n j ->
    nd_busy n = Syncing (N.of_nat j + 1) (wrap64 (N.of_nat L)) ch sr ->
    (j + length oss = L)%nat -> pulls_ok digest root_of show verify shapes cf peer n oss ->
    let n' := after_pulls digest root_of show verify shapes cf peer n oss in
    J n' L /\ (exists ch' sr', nd_busy n' = Syncing (N.of_nat L + 1) (wrap64 (N.of_nat L)) ch' sr') /\ nd_out n' = nd_out n /\
    cs_interval (nd_status n') = cs_interval (nd_status n) /\ cs_validators (nd_status n') = cs_validators (nd_status n) /\
    ((j < L)%nat -> exists e, c !! L = Some e /\ cs_epoch_id (nd_status n') = wrap64 (eh_epoch_id (ep_header e) + 1) /\
       cs_prev_hash (nd_status n') = digest (enc_epoch e)).
  Proof.
    intros HL. induction oss as [|os oss IH]; intros n j ch sr HJ Eb Hlen Hok.
    - cbn [length] in Hlen. assert (j = L) as -> by lia. cbn [after_pulls fold_left]. cbn zeta.
      split; [exact HJ|]. split; [eauto|]. split; [reflexivity|]. split; [reflexivity|]. split; [reflexivity|]. intros X. lia.
    - cbn [length] in Hlen. cbn [pulls_ok] in Hok. destruct Hok as [Hr Hok].
      change (after_pulls digest root_of show verify shapes cf peer n (os :: oss))
        with (after_pulls digest root_of show verify shapes cf peer (after_pull n os) oss).
      unfold SyncSpec.after_pull in *. destruct (pull n os) as [[r n'] t] eqn:E. cbn [fst snd] in *.
      destruct (pull_step n j os r n' t HL HJ E) as [(Hi & _)|[(Hj & _)|[(Hf & _)|(_ & Hlt & HJ' & Ho & _ & e & ch' & sr' & He & Eb' & Hs1 & Hs2 & Hs3 & Hs4)]]].
      + rewrite Eb in Hi. discriminate Hi.
      + lia.
      + congruence.
      + destruct (IH n' (S j) ch' sr' HJ' Eb') as (A & B & C & D & F & G); [lia|exact Hok|]. cbn zeta.
        split; [exact A|]. split; [exact B|]. split; [congruence|]. split; [congruence|]. split; [congruence|]. intros _.
        destruct (decide (S j = L)) as [<-|Hne].
        * exists e. split; [exact He|]. assert (oss = []) as -> by (destruct oss; [reflexivity|cbn [length] in Hlen; lia]). auto.
        * apply G. lia.
  Qed.
End Facts.
