(** * Lemmas for C61, C63-C65, C67, C69. *)
From Verif Require Import Base BaseFacts Hex Types Rlp RlpFacts FixedCodec FixedCodecFacts CodecProps StateAdapter Executor Mempool
  Merkle Bincode ConsMsg Proto ProtoFacts Wire WireFacts Storage StorageSpec StorageFacts StorageProps
  Consensus ConsSpec ConsFacts ConsInv ConsChain ConsMore ConsAuth.
From Coq Require Import Permutation.
Local Open Scope N_scope.

Section Last.
  Context (digest : bytes -> hash) (root_of : gmap bytes bytes -> hash) (show : exec_err -> rstring)
          (verify : bytes -> bytes -> bytes -> bool) (shapes : nat -> shape) (cf : config).
  Notation run_call := (run_call digest root_of show verify shapes cf).
  Notation history := (Consensus.history digest root_of show verify shapes cf).

  (** An epoch without transactions can always be executed. *)
  Lemma exec_empty os x : exists resp x', exec digest root_of show os x [] = Ok (resp, x').
  Proof. unfold exec. cbn [exec_txs rbind]. destruct (commit root_of _ _) as [root x3]. eauto. Qed.

  (** The reply to the pull of the transactions may be empty whatever the
      epoch. *)
  Lemma sync_empty n next rich ch sr e os x :
    nd_busy n = Syncing next rich ch sr -> next <= rich -> next = 1 \/ eh_pre_hash (ep_header e) = ch ->
    Executor.from_root digest (cf_chain_id cf) sr (nd_disk n).2 (eh_epoch_id (ep_header e)) (cs_price (nd_status n))
      (AUser (eh_proposer (ep_header e))) = Ok x ->
    exists n' t resp tr', run_call (CallSyncEpoch os (Ok (RpEpoch e)) (Ok (RpTxs []))) n = (Ok RepUnit, n', t) /\
      nd_disk n' = (apply_writes (with_proof digest (nd_disk n) (eh_proof (ep_header e))).1 (applied_writes digest e resp []), tr') /\
      er_receipts resp = [] /\ nd_status n' = new_status digest shapes (nd_status n) (eh_epoch_id (ep_header e)) e (eh_proof (ep_header e)) resp /\
      nd_busy n' = Syncing (next + 1) rich (epoch_hash digest e) (er_state_root resp).
  Proof.
    intros Eb Hle Hl Hx. destruct (exec_empty os x) as (resp & x' & He).
    assert (er_receipts resp = []) as Hr.
    { apply exec_plain in He as (_ & _ & Hm). destruct (er_receipts resp); [reflexivity|discriminate Hm]. }
    cbn [Consensus.run_call]. unfold sync_step. unfold abind at 1 2, aget at 1. rewrite Eb.
    apply N.leb_le in Hle. rewrite Hle. unfold atry, sync_body. unfold abind at 1, alift at 1. cbn [pull_reply_epoch].
    unfold abind at 1. rewrite decide_False by (intros [A B]; destruct Hl as [->| Hl]; [exact (A eq_refl)|exact (B (eq_sym Hl))]).
    unfold aret at 1. unfold abind at 1, save_proof at 1. rewrite awrites_spec.
    fold (with_proof digest (nd_disk n) (eh_proof (ep_header e))).
    unfold abind at 1, alift at 1. cbn [pull_reply_txs]. unfold abind at 1, aget at 1. unfold abind at 1.
    assert (forall d : gmap (N * bytes) bytes, execute digest root_of show cf os sr (eh_epoch_id (ep_header e)) (cs_price (nd_status n))
      (AUser (eh_proposer (ep_header e))) [] (set_disk n (d, (nd_disk n).2)) =
      (Ok resp, set_disk n (d, x_db x'), [(d, x_db x')])) as Hex.
    { intros d. unfold execute. unfold abind at 1, aget at 1. unfold abind at 1, alift at 1. cbn [nd_disk set_disk snd].
      rewrite Hx. cbn [map_err]. unfold abind at 1, alift at 1. rewrite He. cbn [map_err]. reflexivity. }
    cbn [nd_status set_disk]. unfold with_proof. rewrite Hex. unfold abind at 1. rewrite update_status_out. unfold aupd.
    eexists _, _, resp, (x_db x'). split; [reflexivity|]. cbn [nd_disk nd_status nd_busy set_busy applied_node set_status set_disk fst snd].
    auto.
  Qed.

  (** From the empty state no block with a transaction can be executed. *)
  Lemma exec_from_nothing os tr id price cb x t txs resp x' :
    Executor.from_root digest (cf_chain_id cf) (hash_from_empty digest) tr id price cb = Ok x ->
    exec digest root_of show os x (t :: txs) = Ok (resp, x') -> False.
  Proof.
    unfold Executor.from_root. rewrite decide_True by reflexivity. cbn [rbind].
    unfold gen_contract_state. rewrite !lookup_empty. cbn [rbind].
    destruct (dec_map account_schema ∅) as [m1|e|] eqn:E1; cbn [map_err rbind]; [|discriminate..].
    destruct (dec_map asset_schema ∅) as [m2|e|] eqn:E2; cbn [map_err rbind]; [|discriminate..].
    assert (m1 = ∅) as -> by (unfold dec_map in E1; rewrite map_to_list_empty in E1; cbn in E1; congruence).
    assert (m2 = ∅) as -> by (unfold dec_map in E2; rewrite map_to_list_empty in E2; cbn in E2; congruence).
    intros [= <-]. unfold exec. cbn [exec_txs].
    match goal with |- context [exec_tx digest show ?o ?y t] => assert (is_ok (exec_tx digest show o y t) = false) as Hn end.
    { unfold exec_tx. unfold gen_invoke_ctx. destruct (user_from_pubkey digest (st_pubkey t)) as [c|e|]; cbn [map_err rbind]; [|reflexivity..].
      assert (forall (a : address), StateAdapter.ad_get (ad_new (∅ : gmap address account)) a = None) as Ga
        by (intros a; unfold StateAdapter.ad_get, ad_new; cbn [ad_cache ad_stash ad_trie]; rewrite !lookup_empty; reflexivity).
      assert (forall (a : address), StateAdapter.ad_get (ad_revert (ad_new (∅ : gmap address account))) a = None) as Gr
        by (intros a; unfold StateAdapter.ad_get, ad_new, ad_revert; cbn [ad_cache ad_stash ad_trie]; rewrite !lookup_empty; reflexivity).
      assert (forall (a : hash), StateAdapter.ad_get (ad_new (∅ : gmap hash asset)) a = None) as Gb
        by (intros a; unfold StateAdapter.ad_get, ad_new; cbn [ad_cache ad_stash ad_trie]; rewrite !lookup_empty; reflexivity).
      unfold dispatch. destruct (rt_action (st_raw t)) as [to ca|sp a mx|code ct|ca m a oc].
      - unfold handle_transfer, bind at 1, ask_ctx at 1. cbn [ic_carrying fst snd]. unfold bind at 1, get_asset at 1, bind at 1, ask_exec at 1, lift at 1.
        cbn [x_bank fst]. rewrite Gb. cbn [ok_or rbind]. unfold revert_all, inc_nonce.
        destruct (io_bank_first _); unfold bind at 1, ask_ctx at 1; unfold bind at 1, get_account at 1, bind at 1, ask_exec at 1, lift at 1;
          cbn [x_acc fst snd set_acc set_bank]; rewrite Gr; reflexivity.
      - reflexivity.
      - unfold handle_deploy. destruct ct; try reflexivity.
        unfold bind at 1, ask_ctx at 1. unfold bind at 1, get_nonce at 1, bind at 1, get_account at 1, bind at 1, ask_exec at 1, lift at 1.
        cbn [x_acc fst snd ic_caller]. rewrite Ga. cbn [ok_or rbind]. unfold revert_all, inc_nonce.
        destruct (io_bank_first _); unfold bind at 1, ask_ctx at 1; unfold bind at 1, get_account at 1, bind at 1, ask_exec at 1, lift at 1;
          cbn [x_acc fst snd set_acc set_bank]; rewrite Gr; reflexivity.
      - reflexivity. }
    destruct (exec_tx _ _ _ _ t) as [[r x1]|e|]; [discriminate Hn|intros X; discriminate X..].
  Qed.

  (** Every status handed to the engine. *)
  Definition config_list : list auth := authority_list (map (fun a => MkValidator a x01 x01) (cf_validators cf)).
  Definition out_ok (n : node) : Prop :=
    cs_validators (nd_status n) = map (fun a => MkValidator a x01 x01) (cf_validators cf) /\
    cs_interval (nd_status n) = cf_interval cf /\
    forall id i l, RichStatus id i l ∈ nd_out n -> i = cf_interval cf /\ l = config_list.
  Lemma out_ext n n' l : out_ok n -> cs_validators (nd_status n') = cs_validators (nd_status n) ->
    cs_interval (nd_status n') = cs_interval (nd_status n) -> nd_out n' = nd_out n ++ l ->
    (forall id i k, RichStatus id i k ∈ l -> i = cs_interval (nd_status n) /\ k = authority_list (cs_validators (nd_status n))) -> out_ok n'.
  Proof.
    intros (A & B & H) Hv Hi Ho Hl. unfold out_ok. rewrite Hv, Hi. split; [exact A|]. split; [exact B|]. intros id i k. rewrite Ho. intros Hin.
    apply elem_of_app in Hin as [Hin|Hin]; [exact (H _ _ _ Hin)|]. destruct (Hl _ _ _ Hin) as [-> ->].
    rewrite A, B. split; reflexivity.
  Qed.
  Lemma out_same n n' : out_ok n -> nd_status n' = nd_status n -> nd_out n' = nd_out n -> out_ok n'.
  Proof.
    intros H Hs Ho. apply (out_ext n n' []); rewrite ?Hs, ?app_nil_r; auto. intros id i k X. inversion X.
  Qed.

  Lemma out_history l : holds (fun _ => True) out_ok (history l).
  Proof.
    refine (machine_inv _ _ _ _ _ _ (fun _ => True) out_ok (fun _ _ => True) _ _ _ _ _ _ l _).
    1-3: auto.
    - intros n c r n' t _ Hq _ E. split; [apply Forall_true; auto|].
      destruct (light_call c) eqn:Hlc.
      + apply light_call_out in E as [(p & x & -> & _) _]; [|exact Hlc..]. apply (out_same n); auto.
      + destruct c as [| | |id cm|os sent|msg first|os re rt]; try discriminate Hlc.
        * apply call_commit in E as [r1 E]. inversion E; subst; try exact Hq; apply (out_same n); auto.
        * apply call_rest in E as [r1 E]. inversion E; subst; try exact Hq; try (apply (out_same n); auto; fail).
          eapply (out_ext n); [exact Hq|reflexivity|reflexivity|reflexivity|]. intros id' i k Hin.
          destruct (is_ok r1); unfold committed_out in Hin; repeat (apply elem_of_cons in Hin as [Hin|Hin]); try (injection Hin as -> -> ->; auto);
            try discriminate Hin; inversion Hin.
        * apply call_sync in E as (r1 & E & _). inversion E; subst; try exact Hq; apply (out_same n); auto.
        * apply call_sync_epoch in E as [r1 E]. inversion E; subst; try exact Hq; try (apply (out_same n); auto; fail).
          eapply (out_ext n); [exact Hq|reflexivity|reflexivity|reflexivity|]. intros id' i k Hin.
          apply elem_of_list_singleton in Hin. injection Hin as -> -> ->. auto.
    - intros d o1 o2 root tr _ _ _ _. apply Forall_true; auto.
    - intros d n _ Es. unfold start in Es.
      destruct (get_latest_epoch rocks_col digest d.1) as [e|x|]; [|discriminate Es..]. injection Es as <-. split; [reflexivity|]. split; [reflexivity|].
      intros id i l' Hin. apply elem_of_list_singleton in Hin. injection Hin as -> -> ->. split; reflexivity.
    - clear. generalize (Down (∅, ∅)). induction l; intros m; cbn [along]; auto.
  Qed.
End Last.
