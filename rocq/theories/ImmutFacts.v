(** * What a history stored stays. *)
From Verif Require Import Base BaseFacts Hex Types Rlp RlpFacts FixedCodec FixedCodecFacts CodecProps StateAdapter Executor Mempool
  Merkle Bincode ConsMsg Proto ProtoFacts Wire WireFacts Storage StorageSpec StorageFacts StorageProps Consensus ConsSpec ConsFacts ConsInv ConsChain.
Local Open Scope N_scope.

Section Immut.
  Context (digest : bytes -> hash) (root_of : gmap bytes bytes -> hash) (show : exec_err -> rstring)
          (verify : bytes -> bytes -> bytes -> bool) (shapes : nat -> shape).
  Context (cf : config).
  Notation run_call := (run_call digest root_of show verify shapes cf).
  Notation happens := (happens digest root_of show verify shapes cf).
  Notation history := (Consensus.history digest root_of show verify shapes cf).
  Notation along := (along digest root_of show verify shapes cf).
  Notation epochs_ok := (epochs_ok digest root_of show verify shapes cf).
  Notation epochs_seen := (epochs_seen digest root_of show verify shapes cf).
  Notation ep_ok := (ep_ok digest).
  Notation seen_ok := (seen_ok digest root_of cf).
  Notation LK := (1, wenc_hash (LATEST_EPOCH_KEY digest)).
  Notation EK i := (1, wenc_epoch_id (MkEpochId i)).
  Notation w_index := (w_index digest).
  Notation w_latest := (w_latest digest).
  Notation w_proof := (w_proof digest).

  (** ** Prefixes of histories *)
  Lemma along_app (C : machine -> event -> Prop) (l l' : list event) : forall m : machine,
    along C m (l ++ l') <-> along C m l /\ along C (fold_left happens l m) l'.
  Proof.
    induction l as [|x l IH]; intros m; cbn [app ConsSpec.along fold_left]; [tauto|]. rewrite IH. tauto.
  Qed.
  Lemma epochs_seen_app (l l' : list event) : forall m : machine,
    epochs_seen m (l ++ l') = epochs_seen m l ++ epochs_seen (fold_left happens l m) l'.
  Proof.
    induction l as [|x l IH]; intros m; cbn [app ConsSpec.epochs_seen fold_left]; [reflexivity|]. rewrite IH, app_assoc. reflexivity.
  Qed.
  Lemma epochs_ok_prefix (l l' : list event) : epochs_ok (l ++ l') -> epochs_ok l.
  Proof.
    intros [H1 H2]. rewrite epochs_seen_app in H1, H2. split; [apply Forall_app in H1 as [H1 _]; exact H1|].
    intros a b Ha Hb. apply H2; revert Ha Hb; rewrite map_app; rewrite !elem_of_cons, !elem_of_app; tauto.
  Qed.

  (** ** What is frozen *)
  Context (HLP : LATEST_EPOCH_KEY digest <> LATEST_PROOF_KEY digest).
  Context (m0 : db) (L : u64).
  Definition frozen (m : db) : Prop :=
    (forall i : u64, (i : N) <= L -> m !! EK i = m0 !! EK i) /\
    exists e, m !! LK = Some (wenc_epoch e) /\ fits (wenc_epoch e) /\ (L : N) <= eh_epoch_id (ep_header e).

  Lemma frozen_ext (a b : db) : b !! LK = a !! LK -> (forall i : u64, b !! EK i = a !! EK i) -> frozen a -> frozen b.
  Proof. intros H1 H2 [F1 F2]. split; [intros i Hi; rewrite H2; auto|rewrite H1; exact F2]. Qed.
  Lemma frozen_proof (a : db) (p : proof) : frozen a -> frozen (w_proof a p).
  Proof. apply frozen_ext; [apply proof_LK, HLP|intros i; apply proof_EK]. Qed.

  Lemma frozen_applied (m : db) (tr : gmap hash (gmap bytes bytes)) (e0 e : epoch) resp txs : ep_ok e -> frozen m ->
    m !! LK = Some (wenc_epoch e0) -> fits (wenc_epoch e0) ->
    eh_epoch_id (ep_header e) = wrap64 (eh_epoch_id (ep_header e0) + 1) -> eh_epoch_id (ep_header e) <> wrap64 0 ->
    Forall (fun d : durable => frozen d.1) (persist_all (m, tr) (applied_writes digest e resp txs)).
  Proof.
    intros He HF H0 Hf0 Hid Hnz.
    assert ((L : N) < eh_epoch_id (ep_header e)) as HL.
    { destruct HF as [_ (e1 & H1 & Hf1 & Hle)]. assert (wenc_epoch e0 = wenc_epoch e1) as H2 by congruence.
      assert (e1 = e0) as -> by (pose proof (wire_epoch e0 Hf0) as W; rewrite H2, (wire_epoch e1 Hf1) in W; congruence).
      rewrite (succ_id _ _ Hid Hnz). lia. }
    apply applied_forall; [|exact HF|].
    - intros a b E. apply frozen_ext; [apply E|intros i; apply E].
    - intros a Ha.
      assert (frozen a) as Fa by (apply (frozen_ext m); [apply Ha|intros i; apply Ha|exact HF]).
      assert (frozen (w_epoch a e)) as F3.
      { destruct Fa as [A1 A2]. split; [|rewrite epoch_hashk; exact A2].
        intros i Hi. rewrite epoch_EK_ne; [apply A1, Hi|]. intros ->. lia. }
      assert (frozen (w_index (w_epoch a e) e)) as F4
        by (apply (frozen_ext (w_epoch a e)); [apply index_LK, He|intros i; apply index_EK|exact F3]).
      split; [exact F3|]. split; [exact F4|]. destruct F4 as [A1 _]. split.
      + intros i Hi. rewrite latest_EK. apply A1, Hi.
      + exists e. split; [apply latest_LK|]. split; [apply He|lia].
  Qed.

  Lemma frozen_step (n : node) (c : call) r n' t : chain_node digest cf n -> frozen (nd_disk n).1 ->
    seen_ok (Up n) (EvCall c) -> one_more (Up n) (EvCall c) -> run_call c n = (r, n', t) ->
    Forall (fun d : durable => frozen d.1) t.
  Proof.
    intros ((e0 & Hl0 & Hf0 & Hm0 & Hc0) & Hb) HF Hse Hre E.
    assert (forall p, w_proof (nd_disk n).1 p !! LK = Some (wenc_epoch e0)) as HwL by (intros p; rewrite proof_LK by exact HLP; exact Hl0).
    destruct (light_call c) eqn:Li.
    { apply light_call_out in E as [_ ->]; [|exact Li]. constructor. }
    destruct Hm0 as [M1 M2].
    destruct c as [| | |id cm|os sent|msg first|os re rt]; try discriminate.
    - apply call_commit in E as [r1 E]. destruct E as [r1 Hr1|eh r1 Hr1 Ei Eh|eh txs Ei Eh Eg];
        [constructor|apply Forall_cons; split; [apply frozen_proof, HF|constructor]..].
    - apply call_rest in E as [r1 E]. destruct E as [|id p pf txs r1 Eb Hr1|id p pf txs resp tr' lo Eb Hx El]; [constructor..|].
      rewrite Eb in Hb. destruct Hb as (He & Hid & (Hx1 & Hx2) & Hli).
      apply Forall_cons; split; [exact HF|]. apply (frozen_applied _ _ e0); try assumption; congruence.
    - apply call_sync in E as [r1 [E ->]]. constructor.
    - apply call_sync_epoch in E as [r1 E].
      destruct E as [Hns|id rich ch sr Eb Hlt|id rich ch sr r1 Eb Hr1 Hre'|id rich ch sr r1 e Eb Hr1 -> Hl'|id rich ch sr e txs resp tr' Eb Hle -> -> Hl' Hx d1];
        [constructor..|apply Forall_cons; split; [apply frozen_proof, HF|constructor]|].
      unfold ConsInv.seen_ok in Hse. cbn [event_epochs call_epochs] in Hse. apply Forall_cons in Hse as [He _].
      cbn [one_more event_call] in Hre. destruct Hre as [(Hx1 & Hx2) Hli].
      assert (frozen (w_proof (nd_disk n).1 (eh_proof (ep_header e)))) as Fp by apply frozen_proof, HF.
      apply Forall_cons; split; [exact Fp|]. apply Forall_cons; split; [exact Fp|].
      apply (frozen_applied _ _ e0); try assumption; [apply HwL|congruence..].
  Qed.

  Lemma frozen_event (m : machine) (ev : event) : holds (fun d => chain_ok digest cf d.1) (chain_node digest cf) m ->
    seen_ok m ev -> one_more m ev -> frozen (disk m).1 -> frozen (disk (happens m ev)).1.
  Proof.
    intros Hh Hs Ho HF. destruct m as [d|n]; destruct ev as [c|c k|o1 o2|o1 o2 k]; cbn [Consensus.happens disk] in *; try exact HF.
    - destruct (handle_init digest root_of cf o1 o2 d) as [r t] eqn:E.
      apply handle_init_out in E as [[-> Hd]|(Hn & _)].
      + destruct r as [d'|x|]; cbn [disk]; [|exact HF..]. rewrite (Hd d' eq_refl).
        destruct (start digest cf d) as [n|x|] eqn:Es; cbn [disk]; [|exact HF..]. apply start_out in Es as (e & _ & ->). exact HF.
      + exfalso. destruct HF as [_ (e & He & _)]. apply latest_none in Hn. congruence.
    - destruct (handle_init digest root_of cf o1 o2 d) as [r t] eqn:E.
      apply handle_init_out in E as [[-> Hd]|(Hn & _)].
      + rewrite take_nil. exact HF.
      + exfalso. destruct HF as [_ (e & He & _)]. apply latest_none in Hn. congruence.
    - destruct (run_call c n) as [[r n'] t] eqn:E. cbn [disk]. destruct Hh as [_ Hq].
      pose proof (frozen_step n c r n' t Hq HF Hs Ho E) as F. rewrite (call_last _ _ _ _ _ _ _ _ _ _ _ E).
      apply (last_all (fun d : durable => frozen d.1)); assumption.
    - destruct (run_call c n) as [[r n'] t] eqn:E. cbn [disk]. destruct Hh as [_ Hq].
      pose proof (frozen_step n c r n' t Hq HF Hs Ho E) as F.
      apply (last_all (fun d : durable => frozen d.1)); [exact HF|]. apply take_all, F.
  Qed.

  Lemma frozen_history (l l' : list event) : epochs_ok (l ++ l') -> along one_more (Down (∅, ∅)) (l ++ l') ->
    frozen (disk (history l)).1 -> frozen (disk (history (l ++ l'))).1.
  Proof.
    intros Hok Ho HF. induction l' as [|ev l' IH] using rev_ind; [rewrite app_nil_r in *; exact HF|].
    rewrite app_assoc in *. pose proof (epochs_ok_prefix _ _ Hok) as Hok'. apply along_app in Ho as [Ho [Ho1 _]].
    specialize (IH Hok' Ho). unfold Consensus.history in *. rewrite fold_left_app. cbn [fold_left].
    apply epochs_ok_seen in Hok as [Hs _]. apply along_app in Hs as [_ [Hs _]].
    apply frozen_event; [|exact Hs|exact Ho1|exact IH].
    exact (chain_history digest root_of show verify shapes cf HLP (l ++ l') Hok' Ho).
  Qed.
End Immut.
