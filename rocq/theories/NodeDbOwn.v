(** * A node that does not synchronise opens only roots it has been handed. *)
From Verif Require Import Base BaseFacts Hex Types Rlp RlpFacts FixedCodec FixedCodecFacts CodecProps StateAdapter StateAdapterFacts
  Executor ExecutorFacts ExecSpec ExecChain Mempool Merkle Bincode ConsMsg Proto Wire Storage StorageSpec StorageFacts
  StorageProps Mpt Consensus ConsSpec ConsFacts ConsInv ConsChain Api ApiFacts LedgerSpec LedgerFacts LedgerRun
  TrieSpec DbExec DbFacts DbRun DbSpec DbProof NodeDbSpec NodeDbProof.
Local Open Scope N_scope.

Section Own.
  Context (digest : bytes -> hash) (show : exec_err -> rstring)
          (verify : bytes -> bytes -> bytes -> bool) (shapes : nat -> shape) (cf : config).
  Notation root_of := (mpt_root digest).
  Notation happens := (happens digest root_of show verify shapes cf).
  Notation run_call := (run_call digest root_of show verify shapes cf).
  Notation along := (along digest root_of show verify shapes cf).
  Notation node_block := (node_block digest show cf).
  Notation node_genesis := (node_genesis digest cf).
  Notation uses := (uses digest show verify shapes cf).
  Notation seen_ok := (seen_ok digest root_of cf).
  Notation LK := (1, wenc_hash (LATEST_EPOCH_KEY digest)).
  Notation m_run := (m_run digest show).
  Notation d_run := (d_run digest show).

  Definition latest_in (K : hash -> Prop) (m : db) : Prop :=
    forall b, m !! LK = Some b -> exists e, b = wenc_epoch e /\ fits (wenc_epoch e) /\ K (eh_state_root (ep_header e)).
  Definition node_in (K : hash -> Prop) (n : node) : Prop :=
    K (cs_state_root (nd_status n)) /\
    match nd_busy n with
    | Idle => True
    | Committing id p pf txs => ep_ok digest (pl_epoch p) /\ K (eh_state_root (ep_header (pl_epoch p)))
    | Syncing _ _ _ _ => False
    end.
  Definition within (K : hash -> Prop) (m : machine) : Prop :=
    latest_in K (disk m).1 /\ match m with Down _ => True | Up n => node_in K n end.

  Lemma latest_in_eq (K : hash -> Prop) (a b : db) : b !! LK = a !! LK -> latest_in K a -> latest_in K b.
  Proof. intros E H v. rewrite E. apply H. Qed.
  Lemma latest_in_mono (K K' : hash -> Prop) (m : db) : (forall r, K r -> K' r) -> latest_in K m -> latest_in K' m.
  Proof. intros Hs H b Hb. destruct (H b Hb) as (e & E & Hf & Hr). exists e. auto. Qed.
  Lemma within_mono (K K' : hash -> Prop) m : (forall r, K r -> K' r) -> within K m -> within K' m.
  Proof.
    intros Hs [H1 H2]. split; [eapply latest_in_mono; eassumption|]. destruct m as [d|n]; [exact I|]. destruct H2 as [H2 H3]. split; [auto|].
    destruct (nd_busy n) as [|id p pf txs|]; [exact I| |exact H3]. destruct H3. split; auto.
  Qed.
  Lemma latest_in_new (K : hash -> Prop) (m : db) (e : epoch) : ep_ok digest e -> K (eh_state_root (ep_header e)) -> latest_in K (w_latest digest m e).
  Proof. intros [Hf _] Hr b. rewrite latest_LK. intros [= <-]. eauto. Qed.
  Lemma applied_in (K : hash -> Prop) (m : db) (tr : gmap hash (gmap bytes bytes)) (e : epoch) (resp : exec_resp) (txs : list signed_tx) : ep_ok digest e -> K (eh_state_root (ep_header e)) -> latest_in K m ->
    Forall (fun d : durable => latest_in K d.1) (persist_all (m, tr) (applied_writes digest e resp txs)).
  Proof.
    intros Hep Hr Hm. apply (applied_forall digest (latest_in K)); [|exact Hm|].
    - intros a b E. apply latest_in_eq, E.
    - intros a Ha.
      assert (latest_in K (w_epoch a e)) as S3 by (apply (latest_in_eq K m); [rewrite epoch_hashk; apply Ha|exact Hm]).
      split; [exact S3|]. split; [apply (latest_in_eq K (w_epoch a e)); [apply index_LK, Hep|exact S3]|].
      apply latest_in_new; assumption.
  Qed.

  Lemma call_within (K K' : hash -> Prop) n c r n' t : LATEST_EPOCH_KEY digest <> LATEST_PROOF_KEY digest ->
    (forall r, K r -> K' r) -> latest_in K (nd_disk n).1 -> node_in K n ->
    seen_ok (Up n) (EvCall c) -> never_syncs (Up n) (EvCall c) -> roots_agree (Up n) (EvCall c) ->
    (forall resp x, node_block n c = Ok (resp, x) -> K' (er_state_root resp)) ->
    run_call c n = (r, n', t) -> Forall (fun d : durable => latest_in K d.1) t /\ node_in K' n'.
  Proof.
    intros HLP Hs Hl [Hroot Hb] Hse Hns Hra Hnew E.
    assert (forall m p, w_proof digest m p !! LK = m !! LK) as HPL by (intros; apply proof_LK, HLP).
    assert (node_in K' n) as Hn'.
    { split; [auto|]. destruct (nd_busy n) as [|id p pf txs|]; [exact I| |exact Hb]. destruct Hb. split; auto. }
    destruct (light_call c) eqn:L.
    { apply light_call_out in E as [(p & x & -> & _) ->]; [|exact L]. split; [constructor|exact Hn']. }
    destruct c as [| | |id cm|os sent|msg first|os re rt]; try discriminate L; try (destruct Hns; fail); clear L.
    - apply call_commit in E as [r1 E]. unfold ConsInv.seen_ok in Hse. cbn [ConsSpec.event_epochs call_epochs] in Hse.
      apply Forall_cons in Hse as [Hep _]. cbn [roots_agree event_call] in Hra.
      assert (forall p, latest_in K (w_proof digest (nd_disk n).1 p)) as Hpl by (intros p; apply (latest_in_eq _ (nd_disk n).1); [apply HPL|exact Hl]).
      destruct E as [r1 Hr1|eh r1 Hr1 Ei Eh|eh txs Ei Eh Eg].
      + split; [constructor|exact Hn'].
      + split; [|exact Hn']. apply Forall_cons; split; [|constructor]. rewrite with_proof_db. apply Hpl.
      + split; [|split; [apply Hs, Hroot|]].
        { apply Forall_cons; split; [|constructor]. rewrite with_proof_db. apply Hpl. }
        cbn [nd_busy set_busy]. split; [exact Hep|]. rewrite Hra. apply Hs, Hroot.
    - apply call_rest in E as [r1 E]. destruct E as [|id p pf txs r1 Eb Hr1|id p pf txs resp tr' lo Eb Hx El].
      + split; [constructor|exact Hn'].
      + split; [constructor|]. split; [apply Hs, Hroot|exact I].
      + rewrite Eb in Hb. destruct Hb as [Hep Hr']. split.
        * apply Forall_cons; split; [exact Hl|]. apply applied_in; assumption.
        * split; [|exact I]. cbn [nd_status new_status cs_state_root]. destruct Hx as (x & x' & Hx1 & Hx2 & _). apply (Hnew resp x').
          unfold NodeDbSpec.node_block, call_block. rewrite Eb. cbn [pm_chain pm_epoch pm_price pm_coinbase call_orders]. rewrite Hx1. exact Hx2.
  Qed.

  Lemma start_within (K : hash -> Prop) (d : durable) (n : node) : latest_in K d.1 -> start digest cf d = Ok n -> within K (Up n).
  Proof.
    intros Hl Hn'. apply start_out in Hn' as (e & Hle & ->). split; [exact Hl|].
    assert (d.1 !! LK = Some (wenc_epoch e) /\ fits (wenc_epoch e)) as [Hk _].
    { apply read_latest_inv; [|exact Hle]. intros b Hb. destruct (Hl b Hb) as (e' & -> & Hf & _). eauto. }
    destruct (Hl _ Hk) as (e' & E & Hf & Hr'). split; [|exact I]. cbn [nd_disk nd_status start_status cs_state_root].
    assert (get_latest_epoch rocks_col digest d.1 = Ok e') as Hle' by (apply read_latest; [rewrite Hk, E; reflexivity|exact Hf]).
    assert (e' = e) as -> by congruence. exact Hr'.
  Qed.

  Lemma init_within (K K' : hash -> Prop) (o1 o2 : iter_order) (d : durable) (r : res cn_err durable) (t : list durable) : LATEST_EPOCH_KEY digest <> LATEST_PROOF_KEY digest ->
    latest_in K' d.1 -> seen_ok (Down d) (EvBoot o1 o2) -> handle_init digest root_of cf o1 o2 d = (r, t) ->
    (boots_new digest d = true -> forall h x, node_genesis o1 o2 d = Ok (h, x) -> K' h) ->
    Forall (fun d : durable => latest_in K' d.1) t /\ forall d', r = Ok d' -> latest_in K' d'.1.
  Proof.
    intros HLP Hl Hse E Hk. assert (forall m p, w_proof digest m p !! LK = m !! LK) as HPL by (intros; apply proof_LK, HLP).
    apply handle_init_out in E as [[-> Hd]|(Hn & root & tr & Eg & Et & Er)].
    - split; [constructor|]. intros d' E'. rewrite (Hd d' E'). exact Hl.
    - assert (Forall (fun d : durable => latest_in K' d.1) t) as HF.
      { unfold ConsInv.seen_ok in Hse. cbn [ConsSpec.event_epochs disk] in Hse. rewrite Eg in Hse. apply Forall_cons in Hse as [Hep _].
        assert (K' root) as Hr.
        { rewrite genesis_state_eq in Eg. destruct (node_genesis o1 o2 d) as [[h x]|e0|] eqn:Eg'; try discriminate Eg. injection Eg as <- _.
          apply (Hk ltac:(unfold boots_new; rewrite Hn; reflexivity) h x eq_refl). }
        rewrite Et, genesis_trace. cbn zeta. set (e := genesis_epoch digest cf root) in *.
        assert (latest_in K' (w_epoch d.1 e)) as S3 by (apply (latest_in_eq K' d.1); [apply epoch_hashk|exact Hl]).
        assert (latest_in K' (w_index digest (w_epoch d.1 e) e)) as S4 by (apply (latest_in_eq K' (w_epoch d.1 e)); [apply index_LK, Hep|exact S3]).
        assert (latest_in K' (w_latest digest (w_index digest (w_epoch d.1 e) e) e)) as S5 by (apply latest_in_new; assumption).
        repeat (apply Forall_cons; split; [cbn [fst snd]; try assumption|]); [|apply Forall_nil; exact I].
        eapply latest_in_eq; [apply HPL|exact S5]. }
      split; [exact HF|]. intros d' E'. rewrite Er in E'. injection E' as <-. apply (last_all (fun d : durable => latest_in K' d.1)); assumption.
  Qed.

  Lemma event_within (K K' : hash -> Prop) m e : LATEST_EPOCH_KEY digest <> LATEST_PROOF_KEY digest ->
    (forall r, K r -> K' r) -> (forall r x, event_leaves digest show cf m e = Some (r, x) -> K' r) ->
    seen_ok m e -> never_syncs m e -> roots_agree m e -> within K m -> within K' (happens m e).
  Proof.
    intros HLP Hs Hnew Hse Hns Hra Hw. pose proof (within_mono K K' m Hs Hw) as Hw'.
    destruct e as [c|c k|o1 o2|o1 o2 k], m as [d|n]; cbn [Consensus.happens event_leaves] in *; try exact Hw'.
    - destruct (run_call c n) as [[r n'] t] eqn:E. destruct Hw as [Hl Hn].
      destruct (call_within K K' n c r n' t HLP Hs Hl Hn Hse Hns Hra) as [H1 H2]; [|exact E|].
      { intros resp x Ex. apply (Hnew _ x). rewrite Ex. reflexivity. }
      split; [|exact H2]. cbn [disk]. rewrite (call_last _ _ _ _ _ _ _ _ _ _ _ E). apply (latest_in_mono K K' _ Hs), (last_all (fun d : durable => latest_in K d.1)); assumption.
    - destruct (run_call c n) as [[r n'] t] eqn:E. destruct Hw as [Hl Hn]. split; [|exact I]. cbn [disk].
      destruct (call_within K (fun _ => True) n c r n' t HLP (fun _ _ => I) Hl Hn Hse Hns Hra) as [H1 _]; [auto|exact E|].
      apply (latest_in_mono K K' _ Hs), (last_all (fun d : durable => latest_in K d.1)); [exact Hl|]. apply Forall_take, H1.
    - destruct (handle_init digest root_of cf o1 o2 d) as [r t] eqn:E.
      destruct (init_within K K' o1 o2 d r t HLP (proj1 Hw') Hse E) as [H1 H2].
      { intros Hb h x Ex. apply (Hnew h x). rewrite Hb, Ex. reflexivity. }
      destruct r as [d'|e0|].
      + specialize (H2 d' eq_refl). destruct (start digest cf d') as [n|e0|] eqn:Es; [|split; [exact H2|exact I]..]. eapply start_within; eassumption.
      + split; [|exact I]. apply (last_all (fun d : durable => latest_in K' d.1)); [apply Hw'|exact H1].
      + split; [|exact I]. apply (last_all (fun d : durable => latest_in K' d.1)); [apply Hw'|exact H1].
    - destruct (handle_init digest root_of cf o1 o2 d) as [r t] eqn:E. split; [|exact I]. cbn [disk]. destruct k as [|k]; [exact (proj1 Hw')|].
      destruct (init_within K K' o1 o2 d r t HLP (proj1 Hw') Hse E) as [H1 _].
      { intros Hb h x Ex. apply (Hnew h x). rewrite Hb, Ex. reflexivity. }
      apply (last_all (fun d : durable => latest_in K' d.1)); [apply Hw'|]. apply Forall_take, H1.
  Qed.

  (** ** Histories *)
  Lemma uses_app l1 : forall bs m l2, uses bs m (l1 ++ l2) = uses bs m l1 ++ uses (fun i => bs (length l1 + i)%nat) (fold_left happens l1 m) l2.
  Proof.
    induction l1 as [|e l1 IH]; intros bs m l2; [reflexivity|]. cbn [NodeDbSpec.uses fold_left app length]. rewrite IH, app_assoc. reflexivity.
  Qed.
  Lemma m_run_app a : forall s b, m_run s (a ++ b) = ((m_run s a).1 ++ (m_run (m_run s a).2 b).1, (m_run (m_run s a).2 b).2).
  Proof.
    induction a as [|o a IH]; intros s b; cbn [app DbSpec.m_run fst snd]; [destruct (m_run s b); reflexivity|].
    destruct (m_step digest show s o) as [r s']. rewrite IH. destruct (m_run s' a) as [rs s'']. reflexivity.
  Qed.
  Lemma d_run_app a : forall qss s b, (d_run qss s (a ++ b)).2 = (d_run (fun n => qss (length a + n)%nat) (d_run qss s a).2 b).2.
  Proof.
    induction a as [|o a IH]; intros qss s b; cbn [app DbSpec.d_run length]; [reflexivity|].
    destruct (d_step digest show (qss O) s o) as [r s']. specialize (IH (fun n => qss (S n)) s' b).
    destruct (d_run (fun n => qss (S n)) s' (a ++ b)) as [? ?], (d_run (fun n => qss (S n)) s' a) as [? ?]. exact IH.
  Qed.
  Lemma ops_app a : forall s b, ops_ok digest show s a -> ops_ok digest show (m_run s a).2 b -> ops_ok digest show s (a ++ b).
  Proof.
    induction a as [|o a IH]; intros s b H1 H2; [exact H2|]. cbn [app ops_ok DbSpec.m_run] in *. destruct H1 as [H0 H1]. split; [exact H0|]. apply IH; [exact H1|].
    destruct (m_step digest show s o) as [r s']. cbn [snd] in *. destruct (m_run s' a) as [? ?]. exact H2.
  Qed.

  Lemma event_op_ok (b : nat) m e s : within (fun r => r ∈ ms_known s) m -> never_syncs m e -> ops_ok digest show s (event_uses digest cf b m e).
  Proof.
    intros Hw Hns.
    assert (forall n c r p ts, m = Up n -> event_call e = Some c -> call_block cf n c = Some (r, p, ts) -> root_ok digest s r) as H.
    { intros n c r p ts -> Ec Eb. right; left. unfold never_syncs in Hns. rewrite Ec in Hns. destruct Hw as [_ [Hr _]]. cbn beta in Hr.
      unfold call_block in Eb. destruct c as [| | | |os sent| |os re rt]; try discriminate Eb; [|destruct Hns].
      destruct (nd_busy n); try discriminate Eb. injection Eb as <- _ _. exact Hr. }
    destruct e as [c|c k|o1 o2|o1 o2 k], m as [d|n]; cbn [event_uses]; try exact I.
    - destruct (call_block cf n c) as [[[r p] ts]|] eqn:Eb; [|exact I]. split; [|exact I]. exact (H n c r p ts eq_refl eq_refl Eb).
    - destruct (call_block cf n c) as [[[r p] ts]|] eqn:Eb; [|exact I]. split; [|exact I]. destruct (state_at c <=? k)%nat; exact (H n c r p ts eq_refl eq_refl Eb).
    - destruct (boots_new digest d); [|exact I]. split; exact I.
    - destruct (boots_new digest d); [|exact I]. split; [|exact I]. destruct (1 <=? k)%nat; exact I.
  Qed.

  Lemma along_snoc C m l e : along C m (l ++ [e]) -> along C m l /\ C (fold_left happens l m) e.
  Proof.
    revert m. induction l as [|e0 l IH]; intros m H; cbn [app ConsSpec.along fold_left] in *; [split; [exact I|apply H]|]. destruct H as [H0 H]. destruct (IH _ H). auto.
  Qed.

  Lemma own_roots bs qss l : LATEST_EPOCH_KEY digest <> LATEST_PROOF_KEY digest -> dorders_ok qss ->
    along seen_ok (Down (∅, ∅)) l -> along never_syncs (Down (∅, ∅)) l -> along roots_agree (Down (∅, ∅)) l -> along orders_ok (Down (∅, ∅)) l ->
    nodes_apart digest (m_run mstate0 (uses bs (Down (∅, ∅)) l)).2 -> sizes_ok (d_run qss dstate0 (uses bs (Down (∅, ∅)) l)).2 ->
    ops_ok digest show mstate0 (uses bs (Down (∅, ∅)) l) /\
    within (fun r => r ∈ ms_known (m_run mstate0 (uses bs (Down (∅, ∅)) l)).2) (fold_left happens l (Down (∅, ∅))).
  Proof.
    intros HLP Hq. induction l as [|e l IH] using rev_ind; intros Hse Hns Hra Ho Hn Hsz.
    { split; [exact I|]. split; [|exact I]. intros b Hb. cbn [fold_left disk fst] in Hb. rewrite lookup_empty in Hb. discriminate. }
    pose proof Ho as Ho0. apply along_snoc in Hse as [Hse Hse1]. apply along_snoc in Hns as [Hns Hns1]. apply along_snoc in Hra as [Hra Hra1]. apply along_snoc in Ho as [Ho Ho1].
    set (u := uses bs (Down (∅, ∅)) l) in *. set (m := fold_left happens l (Down (∅, ∅))) in *.
    assert (uses bs (Down (∅, ∅)) (l ++ [e]) = u ++ event_uses digest cf (bs (length l + 0)%nat) m e) as Eu.
    { rewrite uses_app. cbn [NodeDbSpec.uses]. rewrite app_nil_r. reflexivity. }
    set (v := event_uses digest cf (bs (length l + 0)%nat) m e) in *.
    assert (nodes_apart digest (m_run mstate0 u).2) as Hn1.
    { rewrite Eu, m_run_app in Hn. cbn [snd] in Hn. destruct (run_tries digest show v (m_run mstate0 u).2) as (t1 & E1). eapply apart_prefix; [exact E1|exact Hn]. }
    assert (sizes_ok (d_run qss dstate0 u).2) as Hs1.
    { rewrite Eu, d_run_app in Hsz. destruct (run_log digest show v (fun n => qss (length u + n)%nat) (d_run qss dstate0 u).2) as (t1 & E1).
      intros w Hw. apply Hsz. rewrite E1. apply elem_of_app. left. exact Hw. }
    destruct (IH Hse Hns Hra Ho Hn1 Hs1) as [Hops Hw]. clear IH.
    assert (ops_ok digest show mstate0 (u ++ v)) as Hops'.
    { apply ops_app; [exact Hops|]. apply event_op_ok; assumption. }
    rewrite Eu. split; [exact Hops'|]. rewrite fold_left_app. cbn [fold_left]. fold m.
    eapply event_within; [exact HLP| | |exact Hse1|exact Hns1|exact Hra1|exact Hw].
    - intros r Hr. cbn beta in *. rewrite m_run_app. cbn [snd]. apply known_mono, Hr.
    - intros r x El. cbn beta. rewrite <- Eu in *.
      destruct (node_same digest show verify shapes cf (l ++ [e]) bs qss (Down (∅, ∅)) mstate0 dstate0 Hq Ho0 (J0 digest) eq_refl) as (_ & _ & H3); [exact Hops'|exact Hn|exact Hsz|].
      apply (H3 l e [] r x eq_refl El).
  Qed.
End Own.
