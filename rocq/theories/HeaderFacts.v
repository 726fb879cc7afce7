(** * The status between two epochs, and what it says of the last one. *)
From Verif Require Import Base BaseFacts Hex Types Rlp RlpFacts FixedCodec FixedCodecFacts CodecProps StateAdapter Executor Mempool
  Merkle Bincode ConsMsg Proto ProtoFacts Wire WireFacts Storage StorageSpec StorageFacts StorageProps Consensus ConsSpec ConsFacts ConsInv
  ConsChain ConsMore ImmutFacts.
Local Open Scope N_scope.

Section Header.
  Context (digest : bytes -> hash) (root_of : gmap bytes bytes -> hash) (show : exec_err -> rstring)
          (verify : bytes -> bytes -> bytes -> bool) (shapes : nat -> shape).
  Context (cf : config).
  Notation run_call := (run_call digest root_of show verify shapes cf).
  Notation happens := (happens digest root_of show verify shapes cf).
  Notation history := (Consensus.history digest root_of show verify shapes cf).
  Notation along := (along digest root_of show verify shapes cf).
  Notation epochs_ok := (epochs_ok digest root_of show verify shapes cf).
  Notation epochs_seen := (epochs_seen digest root_of show verify shapes cf).
  Notation event_epochs := (event_epochs digest root_of cf).
  Notation seen_ok := (seen_ok digest root_of cf).
  Notation LK := (1, wenc_hash (LATEST_EPOCH_KEY digest)).
  Notation w_proof := (w_proof digest).

  Lemma enc_same (a b : epoch) : fits (wenc_epoch a) -> fits (wenc_epoch b) -> wenc_epoch a = wenc_epoch b -> a = b.
  Proof. intros Ha Hb E. pose proof (wire_epoch a Ha) as W. rewrite E, (wire_epoch b Hb) in W. congruence. Qed.

  Section Stable.
  Context (HLP : LATEST_EPOCH_KEY digest <> LATEST_PROOF_KEY digest).
  Context (e0 : epoch) (S0 : status) (D0 : db).
  (** Nothing applied since, or something above. *)
  Definition still (n : node) : Prop :=
    (nd_disk n).1 !! LK = Some (wenc_epoch e0) /\ nd_status n = S0 /\
    (forall c k, c <> 1 -> (nd_disk n).1 !! (c, k) = D0 !! (c, k)).
  Definition beyond (n : node) : Prop :=
    exists e, (nd_disk n).1 !! LK = Some (wenc_epoch e) /\ fits (wenc_epoch e) /\
      (eh_epoch_id (ep_header e0) : N) < eh_epoch_id (ep_header e).

  Lemma proof_other (m : db) (p : proof) c k : c <> 1 -> w_proof m p !! (c, k) = m !! (c, k).
  Proof. intros H. unfold ConsInv.w_proof. apply lookup_insert_ne. congruence. Qed.
  Lemma still_proof (n : node) (p : proof) : still n -> still (set_disk n (with_proof digest (nd_disk n) p)).
  Proof.
    intros (A & B & C). unfold still. cbn [nd_disk set_disk nd_status]. rewrite with_proof_db. cbn [fst].
    split; [rewrite proof_LK by exact HLP; exact A|]. split; [exact B|]. intros c k Hc. rewrite proof_other by exact Hc. apply C, Hc.
  Qed.
  Lemma beyond_proof (n : node) (p : proof) : beyond n -> beyond (set_disk n (with_proof digest (nd_disk n) p)).
  Proof.
    intros (e & A & B). exists e. cbn [nd_disk set_disk]. rewrite with_proof_db. cbn [fst].
    split; [rewrite proof_LK by exact HLP; exact A|exact B].
  Qed.

  Lemma still_call (n : node) (c : call) r n' t : fits (wenc_epoch e0) -> chain_node digest cf n ->
    seen_ok (Up n) (EvCall c) -> one_more (Up n) (EvCall c) -> run_call c n = (r, n', t) ->
    still n \/ beyond n -> still n' \/ beyond n'.
  Proof.
    intros Hfe ((e1 & Hl1 & Hf1 & (M1 & M2) & _) & Hb) Hse Hre E HI.
    assert (forall e : epoch, eh_epoch_id (ep_header e) = cs_epoch_id (nd_status n) -> cs_epoch_id (nd_status n) <> wrap64 0 ->
      (eh_epoch_id (ep_header e0) : N) < eh_epoch_id (ep_header e)) as Up.
    { intros e Hi Hz. rewrite M1 in Hi, Hz. rewrite <- Hi in Hz. rewrite (succ_id _ _ Hi Hz).
      destruct HI as [(A & _)|(e2 & A & B & C)].
      - assert (e0 = e1) as -> by (apply enc_same; [assumption..|congruence]). lia.
      - assert (e2 = e1) as -> by (apply enc_same; [assumption..|congruence]). lia. }
    destruct (light_call c) eqn:L.
    { apply light_call_out in E as [(p & x & -> & _) _]; [|exact L]. exact HI. }
    destruct c as [| | |id cm|os sent|msg first|os re rt]; try discriminate.
    - apply call_commit in E as [r1 E]. destruct E as [r1 Hr1|eh r1 Hr1 Ei Eh|eh txs Ei Eh Eg].
      + exact HI.
      + destruct HI as [HI|HI]; [left; apply still_proof, HI|right; apply beyond_proof, HI].
      + destruct HI as [HI|HI]; [left; apply (still_proof n _ HI)|right; apply (beyond_proof n _ HI)].
    - apply call_rest in E as [r1 E]. destruct E as [|id p pf txs r1 Eb Hr1|id p pf txs resp tr' lo Eb Hx El]; [exact HI..|].
      right. rewrite Eb in Hb. destruct Hb as (He & Hid & (Hx1 & Hx2) & _). exists (pl_epoch p). cbn [nd_disk fst]. rewrite applied_db.
      split; [apply latest_LK|]. split; [apply He|]. apply Up; congruence.
    - apply call_sync in E as [r1 [E _]]. destruct E; exact HI.
    - apply call_sync_epoch in E as [r1 E].
      destruct E as [Hns|id rich ch sr Eb Hlt|id rich ch sr r1 Eb Hr1 Hre'|id rich ch sr r1 e Eb Hr1 -> Hl'|id rich ch sr e txs resp tr' Eb Hle -> -> Hl' Hx d1].
      + exact HI.
      + exact HI.
      + exact HI.
      + destruct HI as [HI|HI]; [left; apply (still_proof n _ HI)|right; apply (beyond_proof n _ HI)].
      + right. unfold ConsInv.seen_ok in Hse. cbn [ConsSpec.event_epochs call_epochs] in Hse. apply Forall_cons in Hse as [He _].
        cbn [one_more event_call] in Hre. destruct Hre as [(Hx1 & Hx2) _].
        exists e. cbn [nd_disk fst]. rewrite applied_db. split; [apply latest_LK|]. split; [apply He|]. apply Up; congruence.
  Qed.

  Lemma calls_up (cs : list call) : forall m : machine, match m with Up _ => True | Down _ => False end ->
    match fold_left happens (map EvCall cs) m with Up _ => True | Down _ => False end.
  Proof.
    induction cs as [|c cs IH]; intros m Hm; [exact Hm|]. cbn [map fold_left]. apply IH. destruct m as [d|n]; [destruct Hm|].
    cbn [Consensus.happens]. destruct (run_call c n) as [[r n'] t]. exact I.
  Qed.

  Lemma still_history (l : list event) (n : node) (cs : list call) (n2 : node) : fits (wenc_epoch e0) ->
    epochs_ok (l ++ map EvCall cs) -> along one_more (Down (∅, ∅)) (l ++ map EvCall cs) ->
    history l = Up n -> still n -> history (l ++ map EvCall cs) = Up n2 -> still n2 \/ beyond n2.
  Proof.
    intros Hfe Hok Ho Hh Hs. revert n2. induction cs as [|c cs IH] using rev_ind; intros n2 H2.
    - cbn [map] in H2. rewrite app_nil_r, Hh in H2. injection H2 as <-. left. exact Hs.
    - rewrite map_app, app_assoc in *. cbn [map] in *. pose proof (epochs_ok_prefix _ _ _ _ _ _ _ _ Hok) as Hok'.
      apply along_app in Ho as [Ho [Ho1 _]].
      pose proof (calls_up cs (Up n) I) as Hu. unfold Consensus.history in H2, Hh, IH, Ho1. rewrite fold_left_app in H2.
      cbn [fold_left] in H2.
      apply epochs_ok_seen in Hok as [Hse _]. apply along_app in Hse as [_ [Hse _]].
      destruct (fold_left happens (l ++ map EvCall cs) (Down (∅, ∅))) as [d|n1] eqn:E1.
      { rewrite fold_left_app, Hh in E1. rewrite E1 in Hu. destruct Hu. }
      pose proof (chain_history digest root_of show verify shapes cf HLP (l ++ map EvCall cs) Hok' Ho) as Hc.
      unfold Consensus.history in Hc. rewrite E1 in Hc. destruct Hc as [_ Hc].
      cbn [Consensus.happens] in H2. destruct (run_call c n1) as [[r n'] t] eqn:E. injection H2 as <-.
      apply (still_call n1 c r n' t Hfe Hc Hse Ho1 E). exact (IH Hok' Ho n1 eq_refl).
  Qed.
  End Stable.

  (** ** What a proposal says *)
  Lemma propose_says (n : node) id now p h n' t : run_call (CallPropose id now) n = (Ok (RepPill p h), n', t) ->
    exists order, pl_epoch p = build_epoch digest shapes cf (nd_status n) id now order.
  Proof.
    intros E. cbn [Consensus.run_call] in E. unfold get_epoch, abind, aget, get_txs_from_mempool, aupd, aret, alift in E.
    destruct (mp_package _ _ _) as [r0 q]. destruct r0 as [[o pr]|x|]; cbn [map_err] in E; [|discriminate E..].
    cbn [nd_status set_pool] in E. destruct (decide (cs_epoch_id (nd_status n) = id)) as [Hi|Hi]; [|discriminate E].
    injection E as <- <- <- <-. exists o. reflexivity.
  Qed.

  (** ** The receipts of an applied epoch *)
  Lemma receipts_rooted os (x : executor) txs resp x' : exec digest root_of show os x txs = Ok (resp, x') ->
    Forall (fun r => rc_state_root r = er_state_root resp) (er_receipts resp).
  Proof.
    unfold exec. destruct (exec_txs _ _ _ _ _) as [[rs x1]|y|]; cbn [rbind]; [|discriminate..].
    destruct (commit _ _ _) as [root x3]. intros [= <- <-]. cbn [er_receipts er_state_root].
    apply Forall_forall. intros r Hr. apply elem_of_list_fmap in Hr as (r0 & -> & _). reflexivity.
  Qed.

  Lemma receipts_stored (m : db) (rs : list receipt) (txs : list signed_tx) (e : epoch) : NoDup (map rc_tx_hash rs) ->
    forall r, r ∈ rs ->
    w_latest digest (w_index digest (w_epoch (w_txs (w_receipts m rs) txs) e) e) e !! (3, wenc_hash (rc_tx_hash r)) = Some (wenc_receipt r).
  Proof.
    intros Hn r Hr. unfold w_latest, w_index, w_epoch. rewrite !lookup_insert_ne by (intros X; discriminate X).
    rewrite w_txs_other by discriminate.
    destruct (batch_lookup m ReceiptSchema rc_tx_hash rs (rc_tx_hash r) wenc_hash_inj) as [(v & Hv & Hk & E)|[Hno _]].
    - etransitivity; [exact E|]. assert (v = r) as ->; [|reflexivity].
      apply elem_of_list_lookup in Hv as [i Hi]. apply elem_of_list_lookup in Hr as [j Hj].
      assert (i = j) as ->; [|congruence].
      apply (NoDup_lookup (map rc_tx_hash rs) i j (rc_tx_hash r) Hn).
      + rewrite list_lookup_fmap, Hi. cbn [fmap option_fmap option_map]. f_equal. exact Hk.
      + rewrite list_lookup_fmap, Hj. reflexivity.
    - exfalso. apply Hno. apply elem_of_list_fmap. exists r. auto.
  Qed.

  Lemma receipt_reads (m : db) (r : receipt) : db_fits m -> receipt_plain r ->
    m !! (3, wenc_hash (rc_tx_hash r)) = Some (wenc_receipt r) -> get_receipt rocks_col m (rc_tx_hash r) = Ok r.
  Proof.
    intros Hf Hp E. unfold get_receipt, get_or_none, ad_get, ad_key. cbn [ReceiptSchema sc_cat sc_kenc sc_vdec rocks_col].
    rewrite E, (wdec_receipt_plain r Hp); [reflexivity|]. exact (Hf _ _ E).
  Qed.

  (** ** Cycles and bloom *)
  Definition blank (e : epoch) : Prop := eh_cycles_used (ep_header e) = wrap64 0 /\ eh_logs_bloom (ep_header e) = zero_bloom.
  Definition blank_status (s : status) : Prop := cs_cycles_used s = wrap64 0 /\ cs_logs_bloom s = zero_bloom.

  Lemma seen_along (P : epoch -> Prop) (l : list event) : forall m : machine,
    Forall P (epochs_seen m l) -> along (fun m e => Forall P (event_epochs m e)) m l.
  Proof.
    induction l as [|e l IH]; intros m; cbn [ConsSpec.along ConsSpec.epochs_seen]; [auto|]. rewrite Forall_app. intros [H1 H2]. auto.
  Qed.

  Definition latest_blank (m : db) : Prop := forall b, m !! LK = Some b -> exists e, b = wenc_epoch e /\ fits (wenc_epoch e) /\ blank e.
  Lemma latest_blank_eq (a b : db) : b !! LK = a !! LK -> latest_blank a -> latest_blank b.
  Proof. intros E H v. rewrite E. apply H. Qed.
  Lemma latest_blank_new (m : db) (e : epoch) : fits (wenc_epoch e) -> blank e -> m !! LK = Some (wenc_epoch e) -> latest_blank m.
  Proof. intros Hf Hb E v. rewrite E. intros [= <-]. eauto. Qed.
  Lemma latest_blank_applied (m : db) (tr : gmap hash (gmap bytes bytes)) (e : epoch) resp txs : ep_ok digest e -> blank e -> latest_blank m ->
    Forall (fun d : durable => latest_blank d.1) (persist_all (m, tr) (applied_writes digest e resp txs)).
  Proof.
    intros He Hbl Hm. apply applied_forall; [|exact Hm|].
    - intros a b E. apply latest_blank_eq, E.
    - intros a Ha. split; [|split].
      + apply (latest_blank_eq m); [|exact Hm]. rewrite epoch_hashk. apply Ha.
      + apply (latest_blank_eq m); [|exact Hm]. rewrite index_LK, epoch_hashk by exact He. apply Ha.
      + apply (latest_blank_new _ e); [apply He|exact Hbl|apply latest_LK].
  Qed.
  Definition blank_node (n : node) : Prop :=
    blank_status (nd_status n) /\
    match nd_busy n with Committing id p pf txs => ep_ok digest (pl_epoch p) /\ blank (pl_epoch p) | _ => True end.

  Lemma blank_history (l : list event) : epochs_ok l -> Forall blank (epochs_seen (Down (∅, ∅)) l) ->
    holds (fun d => latest_blank d.1) blank_node (history l).
  Proof.
    intros Hok Hbl. apply epochs_ok_seen in Hok as [Hs HLP]. apply seen_along in Hbl.
    refine (machine_inv _ _ _ _ _ _ (fun d => latest_blank d.1) blank_node
      (fun m e => seen_ok m e /\ Forall blank (event_epochs m e)) _ _ _ _ _ _ l _).
    7:{ apply along_and; assumption. }
    - intros n c k H. exact H.
    - intros d o1 o2 k H. exact H.
    - intros b. cbn [fst]. rewrite lookup_empty. discriminate.
    - intros n c r n' t Hp (Hst & Hb) [Hse Hre] E.
      assert (forall p, latest_blank (w_proof (nd_disk n).1 p)) as Hw
        by (intros p; apply (latest_blank_eq (nd_disk n).1); [apply proof_LK, HLP|exact Hp]).
      destruct (light_call c) eqn:L.
      { apply light_call_out in E as [(p & x & -> & Hkp) ->]; [|exact L]. split; [constructor|]. split; [exact Hst|exact Hb]. }
      destruct c as [| | |id cm|os sent|msg first|os re rt]; try discriminate.
      + apply call_commit in E as [r1 E]. unfold ConsInv.seen_ok in Hse. cbn [ConsSpec.event_epochs call_epochs] in Hse, Hre.
        apply Forall_cons in Hse as [He _]. apply Forall_cons in Hre as [Hbe _].
        destruct E as [r1 Hr1|eh r1 Hr1 Ei Eh|eh txs Ei Eh Eg].
        * split; [constructor|]. split; [exact Hst|exact Hb].
        * split; [apply Forall_cons; split; [apply Hw|constructor]|]. split; [exact Hst|exact Hb].
        * split; [apply Forall_cons; split; [apply Hw|constructor]|]. split; [exact Hst|]. split; [exact He|exact Hbe].
      + apply call_rest in E as [r1 E]. destruct E as [|id p pf txs r1 Eb Hr1|id p pf txs resp tr' lo Eb Hx El].
        * split; [constructor|]. split; [exact Hst|exact Hb].
        * split; [constructor|]. split; [exact Hst|exact I].
        * rewrite Eb in Hb. destruct Hb as [He Hbe]. split.
          { apply Forall_cons; split; [exact Hp|]. apply latest_blank_applied; assumption. }
          split; [exact Hst|exact I].
      + apply call_sync in E as [r1 [E ->]]. split; [constructor|]. destruct E; (split; [exact Hst|]); try exact Hb; exact I.
      + apply call_sync_epoch in E as [r1 E].
        destruct E as [Hns|id rich ch sr Eb Hlt|id rich ch sr r1 Eb Hr1 Hre'|id rich ch sr r1 e Eb Hr1 -> Hl'|id rich ch sr e txs resp tr' Eb Hle -> -> Hl' Hx d1].
        * split; [constructor|]. split; [exact Hst|exact Hb].
        * split; [constructor|]. split; [exact Hst|exact I].
        * split; [constructor|]. split; [exact Hst|exact I].
        * split; [apply Forall_cons; split; [apply Hw|constructor]|]. split; [exact Hst|exact I].
        * unfold ConsInv.seen_ok in Hse. cbn [ConsSpec.event_epochs call_epochs] in Hse, Hre.
          apply Forall_cons in Hse as [He _]. apply Forall_cons in Hre as [Hbe _].
          split; [apply Forall_cons; split; [apply Hw|]; apply Forall_cons; split; [apply Hw|]; apply latest_blank_applied; [assumption..|apply Hw]|].
          split; [exact Hst|exact I].
    - intros d o1 o2 root tr Hp [Hse Hre] Hn Eg. unfold ConsInv.seen_ok in Hse. cbn [ConsSpec.event_epochs disk] in Hse, Hre. rewrite Eg in Hse, Hre.
      apply Forall_cons in Hse as [He _]. apply Forall_cons in Hre as [Hbe _]. rewrite genesis_trace. cbn zeta.
      set (e := genesis_epoch digest cf root) in *.
      assert (latest_blank (w_epoch d.1 e)) as S3 by (apply (latest_blank_eq d.1); [apply epoch_hashk|exact Hp]).
      assert (latest_blank (w_index digest (w_epoch d.1 e) e)) as S4 by (apply (latest_blank_eq (w_epoch d.1 e)); [apply index_LK, He|exact S3]).
      assert (latest_blank (w_latest digest (w_index digest (w_epoch d.1 e) e) e)) as S5
        by (apply (latest_blank_new _ e); [apply He|exact Hbe|apply latest_LK]).
      assert (latest_blank (w_proof (w_latest digest (w_index digest (w_epoch d.1 e) e) e) (genesis_proof digest))) as S6
        by (eapply latest_blank_eq; [apply proof_LK, HLP|exact S5]).
      repeat (apply Forall_cons; split; [assumption|]). apply Forall_nil. exact I.
    - intros d n Hp Hn. apply start_out in Hn as (e & He & ->).
      assert (latest_ok digest d.1) as Hlo by (intros b Hb; destruct (Hp b Hb) as (x & -> & Hf & _); eauto).
      destruct (read_latest_inv _ _ _ Hlo He) as [Hl Hf]. destruct (Hp _ Hl) as (e' & Heq & Hf' & Hbe).
      assert (e' = e) as -> by (apply enc_same; [assumption..|congruence]). split; [|exact I]. exact Hbe.
  Qed.
End Header.
