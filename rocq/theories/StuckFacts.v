(** * A node whose latest header names a state it does not have (C94). *)
From Verif Require Import Base BaseFacts Hex Types FixedCodec StateAdapter Executor Mempool Merkle Bincode ConsMsg
  Proto Wire WireFacts Storage StorageSpec StorageFacts Consensus ConsSpec ConsFacts ConsInv.
Local Open Scope N_scope.

Section Stuck.
  Context (digest : bytes -> hash) (root_of : gmap bytes bytes -> hash) (show : exec_err -> rstring)
          (verify : bytes -> bytes -> bytes -> bool) (shapes : nat -> shape) (cf : config).
  Notation run_call := (run_call digest root_of show verify shapes cf).
  Notation happens := (happens digest root_of show verify shapes cf).
  Notation PK := (1, wenc_hash (LATEST_PROOF_KEY digest)).
  Notation latest d := (get_latest_epoch rocks_col digest (fst d)).
  Notation at_id d i := (get_epoch_by_epoch_id rocks_col (fst d) i).

  (** [machine_inv] without conditions on the events, from any machine. *)
  Lemma machine_inv_from (P : durable -> Prop) (Q : node -> Prop) :
    (forall n c r n' t, P (nd_disk n) -> Q n -> run_call c n = (r, n', t) -> Forall P t /\ Q n') ->
    (forall d, P d -> latest d <> Err GetNone) ->
    (forall d n, P d -> start digest cf d = Ok n -> Q n) ->
    forall l m, holds P Q m -> holds P Q (fold_left happens l m).
  Proof.
    intros Hstep Hgen Hstart l. induction l as [|ev l IH]; intros m Hm; [exact Hm|]. cbn [fold_left]. apply IH. clear IH l.
    destruct ev as [c|c k|o1 o2|o1 o2 k]; destruct m as [d|n]; cbn [Consensus.happens holds] in *; try exact Hm.
    - destruct (run_call c n) as [[r n'] t] eqn:E. cbn [holds]. destruct Hm as [Hp Hq].
      destruct (Hstep _ _ _ _ _ Hp Hq E) as [Ht Hq']. split; [|exact Hq'].
      rewrite (call_last _ _ _ _ _ _ _ _ _ _ _ E). apply last_all; assumption.
    - destruct (run_call c n) as [[r n'] t] eqn:E. cbn [holds]. destruct Hm as [Hp Hq].
      destruct (Hstep _ _ _ _ _ Hp Hq E) as [Ht Hq']. apply last_all; [exact Hp|]. apply take_all, Ht.
    - destruct (handle_init digest root_of cf o1 o2 d) as [r t] eqn:E.
      apply handle_init_out in E as [[-> Hd]|(Hn & _)]; [|destruct (Hgen d Hm Hn)].
      destruct r as [d'|x|]; [|exact Hm..]. rewrite (Hd d' eq_refl).
      destruct (start digest cf d) as [n|x|] eqn:Es; [|exact Hm..]. split; [|exact (Hstart _ _ Hm Es)].
      apply start_out in Es as (e & _ & ->). exact Hm.
    - destruct (handle_init digest root_of cf o1 o2 d) as [r t] eqn:E.
      apply handle_init_out in E as [[-> Hd]|(Hn & _)]; [|destruct (Hgen d Hm Hn)]. rewrite take_nil. exact Hm.
  Qed.

  (** No executor opens at [root]. *)
  Definition unopenable (root : hash) (tr : gmap hash (gmap bytes bytes)) : Prop :=
    forall chain id price cb x, Executor.from_root digest chain root tr id price cb <> Ok x.

  Definition same_but_proof (d0 d : durable) : Prop :=
    d.2 = d0.2 /\ forall k, k <> PK -> d.1 !! k = d0.1 !! k.
  Lemma sbp_refl d : same_but_proof d d.
  Proof. split; auto. Qed.
  Lemma sbp_proof d0 d p : same_but_proof d0 d -> same_but_proof d0 (with_proof digest d p).
  Proof.
    intros [A B]. split; [exact A|]. intros k Hk. rewrite with_proof_db. cbn [fst]. unfold w_proof.
    rewrite lookup_insert_ne by congruence. auto.
  Qed.
  Lemma sbp_latest d0 d : LATEST_EPOCH_KEY digest <> LATEST_PROOF_KEY digest -> same_but_proof d0 d -> latest d = latest d0.
  Proof.
    intros HLP [_ B]. unfold get_latest_epoch, get_or_none, ad_get, ad_key. cbn [LatestEpochSchema sc_cat sc_kenc sc_vdec rocks_col].
    rewrite B; [reflexivity|]. intros [= H]. apply wenc_hash_inj in H. congruence.
  Qed.
  Lemma sbp_at d0 d i : same_but_proof d0 d -> at_id d i = at_id d0 i.
  Proof.
    intros [_ B]. unfold get_epoch_by_epoch_id, get_or_none, ad_get, ad_key. cbn [EpochSchema sc_cat sc_kenc sc_vdec rocks_col].
    rewrite B; [reflexivity|]. intros [= H]. exact (epoch_id_hash_disjoint _ _ H).
  Qed.
  Lemma sbp_tx d0 d h : same_but_proof d0 d -> get_transaction_by_hash rocks_col d.1 h = get_transaction_by_hash rocks_col d0.1 h.
  Proof.
    intros [_ B]. unfold get_transaction_by_hash, get_or_none, ad_get, ad_key. cbn [TransactionSchema sc_cat sc_kenc sc_vdec rocks_col].
    rewrite B; [reflexivity|]. intros [= H].
  Qed.
  Lemma sbp_rc d0 d h : same_but_proof d0 d -> get_receipt rocks_col d.1 h = get_receipt rocks_col d0.1 h.
  Proof.
    intros [_ B]. unfold get_receipt, get_or_none, ad_get, ad_key. cbn [ReceiptSchema sc_cat sc_kenc sc_vdec rocks_col].
    rewrite B; [reflexivity|]. intros [= H].
  Qed.

  Section Run.
    Context (d0 : durable) (e : epoch).
    Hypothesis HLP : LATEST_EPOCH_KEY digest <> LATEST_PROOF_KEY digest.
    Hypothesis Hl : latest d0 = Ok e.
    Hypothesis Ha : at_id d0 (eh_epoch_id (ep_header e)) = Ok e.
    Hypothesis Hid : eh_epoch_id (ep_header e) <> wrap64 0.
    Hypothesis Hu : unopenable (eh_state_root (ep_header e)) d0.2.

    Definition stuck_node (n : node) : Prop :=
      nd_status n = start_status digest cf e /\
      match nd_busy n with Syncing _ _ _ sr => sr = eh_state_root (ep_header e) | _ => True end.

    Lemma stuck_step n c r n' t : same_but_proof d0 (nd_disk n) -> stuck_node n -> run_call c n = (r, n', t) ->
      Forall (same_but_proof d0) t /\ stuck_node n'.
    Proof.
      intros Hp [Hs Hb] E. destruct (light_call c) eqn:L.
      { apply light_call_out in E as [(p & x & -> & _) ->]; [|exact L]. split; [constructor|]. split; assumption. }
      destruct c as [| | |id cm|os sent|msg first|os re rt]; try discriminate L.
      - apply call_commit in E as (r1 & E). destruct E as [r1 Hr|eh r1 Hr Eb Eh|eh txs Eb Eh Et].
        + split; [constructor|split; assumption].
        + split; [apply Forall_cons; split; [apply sbp_proof, Hp|constructor]|split; assumption].
        + split; [apply Forall_cons; split; [apply sbp_proof, Hp|constructor]|split; [exact Hs|exact I]].
      - apply call_rest in E as (r1 & E). destruct E as [|id p pf txs r1 Eb Hr|id p pf txs resp tr' lo Eb Hx El].
        + split; [constructor|split; assumption].
        + split; [constructor|split; [exact Hs|exact I]].
        + exfalso. destruct Hx as (x & x' & Hx & _). destruct Hp as [Hp _]. rewrite Hp, Hs in Hx. exact (Hu _ _ _ _ _ Hx).
      - apply call_sync in E as (r1 & E & ->). split; [constructor|].
        destruct E as [r1|rich e' Eb Hl' Hi|rich id e' f Eb Hn Hid' He Hf Hpf].
        + split; assumption.
        + exfalso. rewrite (sbp_latest _ _ HLP Hp), Hl in Hl'. injection Hl' as <-. contradiction.
        + rewrite (sbp_latest _ _ HLP Hp), Hl in Hid'. subst id. rewrite (sbp_at _ _ _ Hp), Ha in He. injection He as <-.
          split; [exact Hs|reflexivity].
      - apply call_sync_epoch in E as (r1 & E).
        destruct E as [Hns|id rich ch sr Eb Hlt|id rich ch sr r1 Eb Hr Hre|id rich ch sr r1 e' Eb Hr Hre Hlk
          |id rich ch sr e' txs resp tr' Eb Hle Hre Hrt Hlk Hx].
        + split; [constructor|split; assumption].
        + split; [constructor|split; [exact Hs|exact I]].
        + split; [constructor|split; [exact Hs|exact I]].
        + split; [apply Forall_cons; split; [apply sbp_proof, Hp|constructor]|split; [exact Hs|exact I]].
        + exfalso. rewrite Eb in Hb. subst sr. destruct Hx as (x & x' & Hx & _). destruct Hp as [Hp _]. rewrite Hp in Hx.
          exact (Hu _ _ _ _ _ Hx).
    Qed.

    Lemma stuck_run l m : holds (same_but_proof d0) stuck_node m -> holds (same_but_proof d0) stuck_node (fold_left happens l m).
    Proof.
      intros H. apply machine_inv_from; [exact stuck_step| | |exact H].
      - intros d Hd. rewrite (sbp_latest _ _ HLP Hd), Hl. discriminate.
      - intros d n Hd Es. apply start_out in Es as (e' & He' & ->). rewrite (sbp_latest _ _ HLP Hd), Hl in He'. injection He' as <-.
        split; [reflexivity|exact I].
    Qed.

    (** What such a node answers. *)
    Lemma stuck_rest n os sent r n' t : same_but_proof d0 (nd_disk n) -> stuck_node n ->
      run_call (CallCommitRest os sent) n = (r, n', t) -> is_ok r = false.
    Proof.
      intros Hp [Hs _] E. cbn [Consensus.run_call] in E. unfold abind at 1 in E.
      destruct (commit_finish digest root_of show shapes cf os sent n) as [[r1 n1] t1] eqn:E1. apply commit_finish_out in E1.
      assert (is_ok r1 = false) as H1.
      { destruct E1 as [|id p pf txs r1 Eb Hr|id p pf txs resp tr' lo Eb Hx El]; [reflexivity|exact Hr|].
        exfalso. destruct Hx as (x & x' & Hx & _). destruct Hp as [Hp _]. rewrite Hp, Hs in Hx. exact (Hu _ _ _ _ _ Hx). }
      destruct r1; [discriminate H1|..]; injection E as <- _ _; reflexivity.
    Qed.
    Lemma stuck_pull n os ep txs r n' t next rich ch sr : same_but_proof d0 (nd_disk n) -> stuck_node n ->
      nd_busy n = Syncing next rich ch sr -> next <= rich ->
      run_call (CallSyncEpoch os ep txs) n = (r, n', t) -> is_ok r = false.
    Proof.
      intros Hp [Hs Hb] Eb Hle E. rewrite Eb in Hb. cbn [Consensus.run_call] in E. unfold abind at 1 in E.
      destruct (sync_step digest root_of show shapes cf os ep txs n) as [[r1 n1] t1] eqn:E1. apply sync_step_out in E1.
      assert (is_ok r1 = false) as H1.
      { destruct E1 as [Hns|id' rich' ch' sr' Eb' Hlt|id' rich' ch' sr' r1 Eb' Hr Hre|id' rich' ch' sr' r1 e' Eb' Hr Hre Hlk
          |id' rich' ch' sr' e' txs' resp tr' Eb' Hle' Hre Hrt Hlk Hx]; try reflexivity; try exact Hr.
        - rewrite Eb in Eb'. injection Eb' as <- <- <- <-. lia.
        - exfalso. rewrite Eb in Eb'. injection Eb' as <- <- <- <-. subst sr. destruct Hx as (x & x' & Hx & _). destruct Hp as [Hp _].
          rewrite Hp in Hx. exact (Hu _ _ _ _ _ Hx). }
      destruct r1; [discriminate H1|..]; injection E as <- _ _; reflexivity.
    Qed.
  End Run.
End Stuck.
