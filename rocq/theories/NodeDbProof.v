(** * The node's executions over the bytes of its state database. *)
From Verif Require Import Base BaseFacts Hex Types Rlp FixedCodec StateAdapter StateAdapterFacts Executor ExecSpec ExecutorFacts ExecOrder ExecChain
  Mempool Merkle ConsMsg Proto Wire Storage StorageSpec StorageFacts Mpt Consensus ConsSpec ConsFacts ConsInv LedgerSpec LedgerRun
  TrieSpec DbExec DbFacts DbRun DbSpec DbProof Api NodeDbSpec.
Local Open Scope N_scope.

Section Proof.
  Context (digest : bytes -> hash) (show : exec_err -> rstring)
          (verify : bytes -> bytes -> bytes -> bool) (shapes : nat -> shape) (cf : config).
  Notation root_of := (mpt_root digest).
  Notation happens := (happens digest root_of show verify shapes cf).
  Notation run_call := (run_call digest root_of show verify shapes cf).
  Notation along := (along digest root_of show verify shapes cf).
  Notation call_block := (call_block cf).
  Notation node_block := (node_block digest show cf).
  Notation node_genesis := (node_genesis digest cf).
  Notation uses := (uses digest show verify shapes cf).
  Notation results := (results digest show verify shapes cf).

  Lemma execute_eq os root id price cb txs n : execute digest root_of show cf os root id price cb txs n =
    match (let? x := Executor.from_root digest (cf_chain_id cf) root (nd_disk n).2 id price cb in exec digest root_of show os x txs) with
    | Ok (resp, x') => (Ok resp, set_disk n ((nd_disk n).1, x_db x'), [((nd_disk n).1, x_db x')])
    | Err e => (Err (CExec e), n, [])
    | Panic => (Panic, n, [])
    end.
  Proof.
    unfold execute. unfold abind at 1. unfold aget at 1. unfold abind at 1. unfold alift at 1.
    destruct (Executor.from_root _ _ _ _ _ _ _) as [x|e|]; cbn [map_err rbind]; [|reflexivity..].
    unfold abind at 1. unfold alift at 1. destruct (exec _ _ _ _ _ _) as [[resp x']|e|]; reflexivity.
  Qed.

  Definition keeps (tr : gmap hash (gmap bytes bytes)) (t : list durable) : Prop := Forall (fun d : durable => d.2 = tr) t.
  Definition moves (k : nat) (tr tr' : gmap hash (gmap bytes bytes)) (t : list durable) : Prop :=
    exists a d b, t = a ++ d :: b /\ S (length a) = k /\ keeps tr a /\ (d : durable).2 = tr' /\ keeps tr' b.

  Lemma rest_trie os sent n r n' t : commit_finish digest root_of show shapes cf os sent n = (r, n', t) ->
    match node_block n (CallCommitRest os sent) with
    | Ok (_, x') => moves 1 (nd_disk n).2 (x_db x') t
    | _ => keeps (nd_disk n).2 t
    end.
  Proof.
    unfold commit_finish. unfold abind at 1. unfold aget at 1. unfold NodeDbSpec.node_block, NodeDbSpec.call_block.
    destruct (nd_busy n) as [|id p pf txs|]; [intros [= <- <- <-]; constructor| |intros [= <- <- <-]; constructor].
    unfold abind at 1. unfold aupd at 1. unfold abind at 1. rewrite execute_eq. cbn [nd_disk set_busy pm_chain pm_epoch pm_price pm_coinbase call_orders].
    destruct (let? x := _ in _) as [[resp x']|e|]; [|intros [= <- <- <-]; constructor..].
    unfold abind at 1. rewrite update_status_out. unfold abind at 1. unfold aupd at 1. unfold abind at 1. unfold alift at 1.
    intros H. exists [], ((nd_disk n).1, x_db x'), (persist_all ((nd_disk n).1, x_db x') (applied_writes digest (pl_epoch p) resp txs)).
    split; [|split; [reflexivity|split; [constructor|split; [reflexivity|apply (persist_tries _ ((nd_disk n).1, x_db x'))]]]].
    cbn [nd_disk set_disk set_busy fst snd app] in *.
    destruct sent as [[]|e|]; unfold aupd in H; cbn [app] in H; rewrite ?app_nil_r in H; injection H as <- <- <-; reflexivity.
  Qed.

  Lemma sync_trie os re rt n r n' t : sync_step digest root_of show shapes cf os re rt n = (r, n', t) ->
    match node_block n (CallSyncEpoch os re rt) with
    | Ok (_, x') => moves 2 (nd_disk n).2 (x_db x') t
    | _ => keeps (nd_disk n).2 t
    end.
  Proof.
    unfold sync_step. unfold abind at 1. unfold aget at 1. unfold NodeDbSpec.node_block, NodeDbSpec.call_block.
    destruct (nd_busy n) as [|id p pf txs|id rich ch sr]; [destruct re as [[|]| |], rt as [[|]| |]; intros [= <- <- <-]; constructor..|].
    destruct (id <=? rich) eqn:El; [|intros [= <- <- <-]; destruct re as [[|]| |], rt as [[|]| |]; constructor].
    unfold atry, sync_body. unfold abind at 1, alift at 1. unfold pull_reply_epoch.
    destruct re as [[e|l]|x|]; try (intros [= <- <- <-]; constructor). cbn zeta. unfold abind at 1.
    destruct (decide _) as [Hl|Hl]; [unfold alift at 1|unfold aret at 1].
    { intros [= <- <- <-]. destruct rt as [[|]| |]; constructor. }
    unfold abind at 1. unfold save_proof. rewrite awrites_spec.
    fold (with_proof digest (nd_disk n) (eh_proof (ep_header e))).
    change (persist_all (nd_disk n) (update_latest_proof rocks_col digest (eh_proof (ep_header e))))
      with [with_proof digest (nd_disk n) (eh_proof (ep_header e))].
    unfold abind at 1, alift at 1. unfold pull_reply_txs.
    destruct rt as [[e'|txs]|x|]; try (intros [= <- <- <-]; repeat constructor).
    unfold abind at 1, aget at 1. unfold abind at 1. rewrite execute_eq.
    cbn [nd_disk nd_status set_disk pm_chain pm_epoch pm_price pm_coinbase call_orders].
    change (with_proof digest (nd_disk n) (eh_proof (ep_header e))).2 with (nd_disk n).2.
    destruct (let? x := _ in _) as [[resp x']|e0|]; [|intros [= <- <- <-]; repeat constructor..].
    unfold abind at 1. rewrite update_status_out. unfold aupd.
    cbn [nd_disk set_disk fst snd app] in *. rewrite ?app_nil_r. intros [= <- <- <-].
    set (dp := with_proof digest (nd_disk n) (eh_proof (ep_header e))).
    exists [dp], (dp.1, x_db x'), (persist_all (dp.1, x_db x') (applied_writes digest e resp txs)).
    split; [reflexivity|]. split; [reflexivity|]. split; [constructor; [reflexivity|constructor]|]. split; [reflexivity|apply (persist_tries _ (dp.1, x_db x'))].
  Qed.

  Lemma call_trie c n r n' t : run_call c n = (r, n', t) ->
    match node_block n c with
    | Ok (_, x') => moves (state_at c) (nd_disk n).2 (x_db x') t
    | _ => keeps (nd_disk n).2 t
    end.
  Proof.
    intros E. destruct c as [net tx sent|id now|h p p1 p2|id cm|os sent|msg first|os re rt].
    - apply light_call_out in E as [_ ->]; [constructor|reflexivity].
    - apply light_call_out in E as [_ ->]; [constructor|reflexivity].
    - apply light_call_out in E as [_ ->]; [constructor|reflexivity].
    - apply call_commit in E as [r1 E]. destruct E; repeat constructor.
    - cbn [Consensus.run_call] in E. unfold abind at 1 in E. destruct (commit_finish _ _ _ _ _ _ _ _) as [[r1 n1] t1] eqn:E1. apply rest_trie in E1.
      assert (t = t1) as -> by (destruct r1; injection E as <- <- <-; rewrite ?app_nil_r; reflexivity). exact E1.
    - apply call_sync in E as [r1 [_ ->]]. constructor.
    - cbn [Consensus.run_call] in E. unfold abind at 1 in E. destruct (sync_step _ _ _ _ _ _ _ _ _) as [[r1 n1] t1] eqn:E1. apply sync_trie in E1.
      assert (t = t1) as -> by (destruct r1; injection E as <- <- <-; rewrite ?app_nil_r; reflexivity). exact E1.
  Qed.

  (** Where the trie stands after an event. *)
  Lemma last_keeps (tr : gmap hash (gmap bytes bytes)) (t : list durable) (d : durable) : d.2 = tr -> keeps tr t -> (List.last t d).2 = tr.
  Proof. intros Hd H. apply (last_all (fun d : durable => d.2 = tr)); assumption. Qed.
  Lemma last_app_cons {A} (a : list A) x b d : List.last (a ++ x :: b) d = List.last b x.
  Proof. induction a as [|y a IH]; [apply last_cons_default|]. cbn [app]. rewrite last_cons_default. clear IH. revert y. induction a as [|z a IH]; intros y; [apply last_cons_default|]. cbn [app]. rewrite last_cons_default. apply IH. Qed.
  Lemma moves_all (k : nat) (tr tr' : gmap hash (gmap bytes bytes)) (t : list durable) (d : durable) : moves k tr tr' t -> (List.last t d).2 = tr'.
  Proof. intros (a & x & b & -> & _ & _ & Hx & Hb). rewrite last_app_cons. apply last_keeps; assumption. Qed.
  Lemma moves_take (j k : nat) (tr tr' : gmap hash (gmap bytes bytes)) (t : list durable) (d : durable) : d.2 = tr -> moves k tr tr' t -> (List.last (take j t) d).2 = if (k <=? j)%nat then tr' else tr.
  Proof.
    intros Hd (a & x & b & -> & Hk & Ha & Hx & Hb). destruct (Nat.leb_spec k j) as [Hle|Hlt].
    - replace j with (length a + S (j - k))%nat by lia. rewrite take_add_app by reflexivity. cbn [take]. rewrite last_app_cons. apply last_keeps; [exact Hx|]. apply Forall_take, Hb.
    - apply last_keeps; [exact Hd|]. rewrite take_app_le by lia. apply Forall_take, Ha.
  Qed.

  Lemma genesis_state_eq (o1 o2 : iter_order) (d : durable) : genesis_state digest root_of cf o1 o2 d.2 =
    match node_genesis o1 o2 d with Ok (r, x) => Ok (r, x_db x) | Err e => Err (CExec e) | Panic => Panic end.
  Proof.
    unfold genesis_state, NodeDbSpec.node_genesis. destruct (Executor.from_root _ _ _ _ _ _ _) as [x|e|]; cbn [map_err rbind]; [|reflexivity..].
    destruct (create_genesis _ _ _ _ _ _) as [[r x']|e|]; reflexivity.
  Qed.
  Lemma init_trie (o1 o2 : iter_order) (d : durable) (r : res cn_err durable) (t : list durable) : handle_init digest root_of cf o1 o2 d = (r, t) ->
    if boots_new digest d then
      match node_genesis o1 o2 d with
      | Ok (h, x) => moves 1 d.2 (x_db x) t /\ r = Ok (List.last t d)
      | _ => t = [] /\ is_ok r = false
      end
    else t = [] /\ (forall d', r = Ok d' -> d' = d).
  Proof.
    unfold handle_init, boots_new. destruct (get_latest_epoch rocks_col digest d.1) as [e|[]|]; try (intros [= <- <-]; split; congruence).
    rewrite genesis_state_eq. destruct (node_genesis o1 o2 d) as [[h x]|e|]; try (intros [= <- <-]; split; reflexivity).
    intros [= <- <-]. split; [|rewrite last_cons_default; reflexivity].
    eexists [], _, _. split; [reflexivity|]. split; [reflexivity|]. split; [constructor|]. split; [reflexivity|]. exact (persist_tries (genesis_writes digest cf h) (d.1, x_db x)).
  Qed.

  Lemma event_trie m e : (disk (happens m e)).2 =
    match event_leaves digest show cf m e with Some (_, x) => (x_db x : gmap hash (gmap bytes bytes)) | None => (disk m).2 end.
  Proof.
    destruct e as [c|c k|o1 o2|o1 o2 k], m as [d|n]; cbn [Consensus.happens event_leaves disk]; try reflexivity.
    - destruct (run_call c n) as [[r n'] t] eqn:E. cbn [disk]. rewrite (call_last _ _ _ _ _ _ _ _ _ _ _ E). apply call_trie in E.
      destruct (node_block n c) as [[r0 x]|e|]; [eapply moves_all, E|apply last_keeps; [reflexivity|exact E]..].
    - destruct (run_call c n) as [[r n'] t] eqn:E. cbn [disk]. apply call_trie in E.
      destruct (node_block n c) as [[r0 x]|e|]; [rewrite (moves_take k _ _ _ _ _ eq_refl E); destruct (state_at c <=? k)%nat; reflexivity|..];
        (rewrite (last_keeps (nd_disk n).2); [destruct (state_at c <=? k)%nat; reflexivity|reflexivity|apply Forall_take, E]).
    - destruct (handle_init digest root_of cf o1 o2 d) as [r t] eqn:E. apply init_trie in E. destruct (boots_new digest d).
      + destruct (node_genesis o1 o2 d) as [[h x]|e|]; [destruct E as [Hm ->]|destruct E as [-> Hr]; destruct r; [discriminate Hr|reflexivity..]..].
        destruct (start digest cf (List.last t d)) as [n|e|] eqn:Es; cbn [disk]; try (eapply moves_all, Hm).
        apply start_out in Es as (ep & _ & ->). eapply moves_all, Hm.
      + destruct E as [-> Hr]. destruct r as [d'|e|]; [|reflexivity..]. rewrite (Hr d' eq_refl).
        destruct (start digest cf d) as [n|e|] eqn:Es; cbn [disk]; try reflexivity. apply start_out in Es as (ep & _ & ->). reflexivity.
    - destruct (handle_init digest root_of cf o1 o2 d) as [r t] eqn:E. apply init_trie in E. cbn [disk]. destruct (boots_new digest d); cbn [andb].
      + destruct (node_genesis o1 o2 d) as [[h x]|e|].
        * destruct E as [Hm _]. rewrite (moves_take k _ _ _ _ _ eq_refl Hm). destruct (1 <=? k)%nat; reflexivity.
        * destruct E as [-> _]. rewrite take_nil. destruct (1 <=? k)%nat; reflexivity.
        * destruct E as [-> _]. rewrite take_nil. destruct (1 <=? k)%nat; reflexivity.
      + destruct E as [-> _]. rewrite take_nil. reflexivity.
  Qed.

  (** ** Events and uses *)
  Definition alike (a b : option (hash * executor)) : Prop :=
    match a, b with
    | Some (r, x), Some (r', x') => r = r' /\ same_but_db x x' /\ (clash_free root_of (tries_of x) -> x = x')
    | None, None => True
    | _, _ => False
    end.
  Lemma same_tries x y : same_but_db x y -> tries_of x = tries_of y.
  Proof. intros (_ & _ & _ & _ & E1 & E2 & E3). unfold tries_of, committed, committed_assets. rewrite E1, E2, E3. reflexivity. Qed.

  Lemma block_alike n c s r p ts : (forall i, order_ok (call_orders c i)) -> (nd_disk n).2 = ms_db s -> call_block n c = Some (r, p, ts) ->
    res_of (node_block n c) = res_of (m_block digest show s r p ts) /\
    alike (match node_block n c with Ok (r, x) => Some (er_state_root r, x) | _ => None end)
          (match m_block digest show s r p ts with Ok (r, x) => Some (er_state_root r, x) | _ => None end).
  Proof.
    intros Ho Ed E. unfold NodeDbSpec.node_block, m_block, m_open. rewrite E, Ed.
    destruct (Executor.from_root digest (pm_chain p) r (ms_db s) (pm_epoch p) (pm_price p) (pm_coinbase p)) as [x|e|]; cbn [rbind]; [|split; [reflexivity|exact I]..].
    pose proof (exec_canon digest root_of show (call_orders c) x ts Ho) as H.
    destruct (exec digest root_of show (call_orders c) x ts) as [[resp y]|e|], (exec digest root_of show (fun _ => canon_order) x ts) as [[resp' y']|e'|]; try contradiction.
    - destruct H as (-> & H2 & H3). split; [reflexivity|]. split; [reflexivity|]. auto.
    - subst e'. split; [reflexivity|exact I].
    - split; [reflexivity|exact I].
  Qed.
  Lemma genesis_alike (o1 o2 : iter_order) (d : durable) (s : mstate) : order_ok o1 -> order_ok o2 -> d.2 = ms_db s ->
    res_of (node_genesis o1 o2 d) = res_of (m_genesis digest s (genesis_params cf) (cf_genesis cf)) /\
    alike (match node_genesis o1 o2 d with Ok (r, x) => Some (r, x) | _ => None end)
          (match m_genesis digest s (genesis_params cf) (cf_genesis cf) with Ok (r, x) => Some (r, x) | _ => None end).
  Proof.
    intros H1 H2 Ed. unfold NodeDbSpec.node_genesis, m_genesis, m_open. rewrite Ed. cbn [genesis_params pm_chain pm_epoch pm_price pm_coinbase].
    destruct (Executor.from_root digest (cf_chain_id cf) (hash_from_empty digest) (ms_db s) (wrap64 0) (cf_price cf) (AUser (cf_self cf))) as [x|e|]; cbn [rbind]; [|split; [reflexivity|exact I]..].
    pose proof (genesis_orders digest root_of o1 o2 canon_order canon_order x (cf_genesis cf) H1 H2 canon_ok canon_ok) as H.
    destruct (create_genesis digest root_of o1 o2 x (cf_genesis cf)) as [[r y]|e|], (create_genesis digest root_of canon_order canon_order x (cf_genesis cf)) as [[r' y']|e'|]; try contradiction.
    - destruct H as (-> & H3 & H4). split; [reflexivity|]. split; [reflexivity|]. auto.
    - subst e'. split; [reflexivity|exact I].
    - split; [reflexivity|exact I].
  Qed.
  Lemma call_order n c e p : orders_ok (Up n) e -> (e = EvCall c \/ exists k, e = EvCrash c k) -> call_block n c = Some p -> forall i, order_ok (call_orders c i).
  Proof.
    intros Ho He Eb. destruct c as [| | | |os sent| |os re rt]; try discriminate Eb; destruct He as [-> | (k & ->)]; exact Ho.
  Qed.

  Lemma leaves_db s o : ms_db (m_step digest show s o).2 = match leaves digest show s o with Some (_, x) => (x_db x : gmap hash (gmap bytes bytes)) | None => ms_db s end.
  Proof.
    destruct o as [p g|r p ts|r p a id|r p ts n|p g n]; cbn [m_step leaves snd];
      [destruct (m_genesis digest s p g) as [[r x]|e|]|destruct (m_block digest show s r p ts) as [[r0 x]|e|]| |destruct (m_block digest show s r p ts) as [[r0 x]|e|]|destruct (m_genesis digest s p g) as [[r x]|e|]]; reflexivity.
  Qed.

  Lemma event_match (b : nat) m e s : orders_ok m e -> (disk m).2 = ms_db s ->
    (event_uses digest cf b m e = [] /\ event_results digest show cf m e = [] /\ event_leaves digest show cf m e = None) \/
    (exists o, event_uses digest cf b m e = [o] /\ event_results digest show cf m e = [(m_step digest show s o).1] /\
      alike (event_leaves digest show cf m e) (leaves digest show s o)).
  Proof.
    intros Ho Ed. destruct e as [c|c k|o1 o2|o1 o2 k], m as [d|n]; cbn [event_uses event_results event_leaves disk] in *; try (left; auto; fail).
    - destruct (call_block n c) as [[[r p] ts]|] eqn:Eb.
      + right. exists (OpBlock r p ts). split; [reflexivity|].
        destruct (block_alike n c s r p ts (call_order n c _ _ Ho (or_introl eq_refl) Eb) Ed Eb) as [H1 H2]. cbn [m_step leaves fst]. rewrite H1. auto.
      + left. unfold NodeDbSpec.node_block. rewrite Eb. auto.
    - destruct (call_block n c) as [[[r p] ts]|] eqn:Eb.
      + right. destruct (block_alike n c s r p ts (call_order n c _ _ Ho (or_intror (ex_intro _ k eq_refl)) Eb) Ed Eb) as [H1 H2].
        destruct (state_at c <=? k)%nat.
        * exists (OpBlock r p ts). split; [reflexivity|]. cbn [m_step leaves fst]. rewrite H1. auto.
        * exists (OpCrash r p ts b). split; [reflexivity|]. split; [reflexivity|exact I].
      + left. unfold NodeDbSpec.node_block. rewrite Eb. split; [reflexivity|]. split; [reflexivity|]. destruct (state_at c <=? k)%nat; reflexivity.
    - destruct Ho as [O1 O2]. destruct (boots_new digest d); [|left; auto]. right. exists (OpGenesis (genesis_params cf) (cf_genesis cf)). split; [reflexivity|].
      destruct (genesis_alike o1 o2 d s O1 O2 Ed) as [H1 H2]. cbn [m_step leaves fst]. rewrite H1. auto.
    - destruct Ho as [O1 O2]. destruct (boots_new digest d); [|left; auto]. right. cbn [andb].
      destruct (genesis_alike o1 o2 d s O1 O2 Ed) as [H1 H2]. destruct (1 <=? k)%nat.
      + exists (OpGenesis (genesis_params cf) (cf_genesis cf)). split; [reflexivity|]. cbn [m_step leaves fst]. rewrite H1. auto.
      + exists (OpGCrash (genesis_params cf) (cf_genesis cf) b). split; [reflexivity|]. split; [reflexivity|exact I].
  Qed.

  (** ** Histories *)
  Notation m_run := (m_run digest show).
  Notation d_run := (d_run digest show).
  Lemma known_mono k : forall s, ms_known s ⊆ ms_known (m_run s k).2.
  Proof.
    induction k as [|o k IH]; intros s; [reflexivity|]. cbn [DbSpec.m_run].
    assert (ms_known s ⊆ ms_known (m_step digest show s o).2) as H0.
    { destruct o as [p g|r0 p ts|r0 p a id|r0 p ts n|p g n]; cbn [m_step snd].
      - destruct (m_genesis digest s p g) as [[r1 x1]|e|]; cbn [ms_known]; try reflexivity. intros z Hz. right. exact Hz.
      - destruct (m_block digest show s r0 p ts) as [[r1 x1]|e|]; cbn [ms_known]; try reflexivity. intros z Hz. right. exact Hz.
      - reflexivity.
      - destruct (m_block digest show s r0 p ts) as [[r1 x1]|e|]; reflexivity.
      - destruct (m_genesis digest s p g) as [[r1 x1]|e|]; reflexivity. }
    destruct (m_step digest show s o) as [out s']. cbn [snd] in H0. specialize (IH s'). destruct (m_run s' k) as [os s'']. cbn [snd] in *. etransitivity; eassumption.
  Qed.
  Lemma node_same l : forall bs qss m s t, dorders_ok qss -> along orders_ok m l -> J digest s t -> (disk m).2 = ms_db s -> ops_ok digest show s (uses bs m l) ->
    nodes_apart digest (m_run s (uses bs m l)).2 -> sizes_ok (d_run qss t (uses bs m l)).2 ->
    (d_run qss t (uses bs m l)).1 = results m l /\
    (disk (fold_left happens l m)).2 = ms_db (m_run s (uses bs m l)).2 /\
    forall l1 e l2 r x, l = l1 ++ e :: l2 -> event_leaves digest show cf (fold_left happens l1 m) e = Some (r, x) ->
      r ∈ ms_known (m_run s (uses bs m l)).2 /\ exists u1 o u2 x', uses bs m l = u1 ++ o :: u2 /\ leaves digest show (m_run s u1).2 o = Some (r, x') /\ same_but_db x x'.
  Proof.
    induction l as [|e l IH]; intros bs qss m s t Hq Hal HJ Ed Hok Hn Hsz; cbn [NodeDbSpec.uses NodeDbSpec.results fold_left ConsSpec.along] in *.
    { split; [reflexivity|]. split; [exact Ed|]. intros l1 e l2 r x E. destruct l1; discriminate E. }
    destruct Hal as [Ho Hal]. pose proof (event_trie m e) as Et.
    destruct (event_match (bs O) m e s Ho Ed) as [(E1 & E2 & E3)|(o & E1 & E2 & E3)]; rewrite E1, E2 in *; cbn [app] in *.
    - rewrite E3 in Et. rewrite Ed in Et. destruct (IH (fun i => bs (S i)) qss (happens m e) s t Hq Hal HJ Et Hok Hn Hsz) as (H1 & H2 & H3).
      split; [exact H1|]. split; [exact H2|]. intros [|e1 l1] e0 l2 r x E Hl; cbn [app] in E.
      + injection E as <- <-. cbn [fold_left] in Hl. congruence.
      + injection E as <- ->. cbn [fold_left] in Hl. apply (H3 l1 e0 l2 r x eq_refl Hl).
    - destruct Hok as [Hok1 Hok2].
      destruct (run_tries digest show (uses (fun i => bs (S i)) (happens m e) l) (m_step digest show s o).2) as (t1 & T1).
      destruct (run_log digest show (uses (fun i => bs (S i)) (happens m e) l) (fun n => qss (S n)) (d_step digest show (qss O) t o).2) as (t2 & T2).
      cbn [DbSpec.m_run DbSpec.d_run] in *. pose proof (step_same digest show (qss O) s t o (Hq O) HJ Hok1) as Hst.
      pose proof (step_leaves digest show s o) as Hlv. pose proof (leaves_db s o) as Hdb.
      assert (forall r x, leaves digest show s o = Some (r, x) -> ms_known (m_step digest show s o).2 = r :: ms_known s) as Hkn.
      { clear. intros r x. destruct o as [p g|r0 p ts|r0 p a id|r0 p ts n|p g n]; cbn [m_step leaves snd]; try discriminate.
        - destruct (m_genesis digest s p g) as [[r1 x1]|e|]; try discriminate. intros [= <- <-]. reflexivity.
        - destruct (m_block digest show s r0 p ts) as [[r1 x1]|e|]; try discriminate. intros [= <- <-]. reflexivity. }
      destruct (m_step digest show s o) as [out s'] eqn:Em, (d_step digest show (qss O) t o) as [out' t'] eqn:Ed'. cbn [fst snd] in *.
      specialize (IH (fun i => bs (S i)) (fun n => qss (S n)) (happens m e) s' t' (fun i => Hq (S i)) Hal).
      assert (nodes_apart digest s' /\ sizes_ok t') as [Hn' Hs'].
      { split.
        - eapply (apart_prefix digest s' _ t1); [exact T1|]. destruct (m_run s' _) as [? ?]. exact Hn.
        - intros v Hv. apply Hsz. destruct (d_run _ t' _) as [? ?]. cbn [snd] in *. rewrite T2. apply elem_of_app. left. exact Hv. }
      destruct (Hst Hn' Hs') as (-> & HJ' & _ & Hle).
      assert ((disk (happens m e)).2 = ms_db s') as Ed2.
      { rewrite Et, Hdb. destruct (event_leaves digest show cf m e) as [[r x]|], (leaves digest show s o) as [[r' x']|] eqn:El; cbn [alike] in E3; try contradiction; [|exact Ed].
        destruct E3 as (-> & Hsame & Hx). rewrite Hx; [reflexivity|]. rewrite (same_tries _ _ Hsame).
        destruct (Hle _ _ eq_refl) as [_ Hst']. eapply (clash_new digest s' x'); [exact Hn'|exact (Hlv _ _ eq_refl)|exact Hst']. }
      specialize (IH HJ' Ed2 Hok2).
      pose proof (known_mono (uses (fun i => bs (S i)) (happens m e) l) s') as Hmono'.
      destruct (m_run s' (uses (fun i => bs (S i)) (happens m e) l)) as [rs s''] eqn:Er, (d_run (fun n => qss (S n)) t' (uses (fun i => bs (S i)) (happens m e) l)) as [rs' t'']. cbn [fst snd] in *.
      destruct (IH Hn Hsz) as (-> & H2 & H3). split; [reflexivity|]. split; [exact H2|].
      intros [|e1 l1] e0 l2 r x E Hl; cbn [app] in E.
      + injection E as <- <-. cbn [fold_left] in Hl. rewrite Hl in E3. destruct (leaves digest show s o) as [[r' x']|] eqn:El; cbn [alike] in E3; [|contradiction].
        destruct E3 as (-> & Hsame & _). split; [apply Hmono'; rewrite (Hkn _ _ eq_refl); left|].
        exists [], o, (uses (fun i => bs (S i)) (happens m e) l), x'. split; [reflexivity|]. split; [exact El|exact Hsame].
      + injection E as <- ->. cbn [fold_left] in Hl. destruct (H3 l1 e0 l2 r x eq_refl Hl) as (Hk & u1 & o1 & u2 & x' & Eu & Hle1 & Hsame). split; [exact Hk|].
        exists (o :: u1), o1, u2, x'. split; [cbn [app]; rewrite Eu; reflexivity|]. split; [|exact Hsame]. cbn [DbSpec.m_run]. rewrite Em. destruct (m_run s' u1) as [? ?]. exact Hle1.
  Qed.
End Proof.
