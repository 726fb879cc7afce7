(** * The ledger along the histories of a node (C90). *)
From Verif Require Import Base BaseFacts Hex Types Rlp RlpFacts FixedCodec FixedCodecFacts CodecProps StateAdapter StateAdapterFacts
  Executor ExecutorFacts ExecSpec ExecProps ExecBlock ExecMore ExecOrder ExecChain Mempool Merkle Bincode ConsMsg Proto Wire Storage StorageSpec StorageFacts
  StorageProps Consensus ConsSpec ConsFacts ConsInv ConsChain Api ApiFacts LedgerSpec LedgerFacts.
From Coq Require Strings.String.
Import String.StringSyntax.
Delimit Scope string_scope with string.
Local Open Scope N_scope.

Lemma persist_tries ws : forall d : durable, Forall (fun d' : durable => d'.2 = d.2) (persist_all d ws).
Proof.
  induction ws as [|w ws IH]; intros d; cbn [persist_all]; [constructor|]. apply Forall_cons. split; [reflexivity|].
  exact (IH (apply_write d.1 w, d.2)).
Qed.
Lemma bal_total (m : accounts) a id : bal m a id <= total id m.
Proof.
  destruct (m !! a) as [acc|] eqn:E; [|unfold bal; rewrite E; lia].
  pose proof (total_insert id (delete a m) a acc) as H. rewrite insert_delete in H by exact E.
  unfold bal in H |- *. rewrite lookup_delete in H. rewrite E. lia.
Qed.

Section Run.
  Context (digest : bytes -> hash) (root_of : gmap bytes bytes -> hash) (show : exec_err -> rstring)
          (verify : bytes -> bytes -> bytes -> bool) (shapes : nat -> shape) (cf : config).
  Notation run_call := (run_call digest root_of show verify shapes cf).
  Notation happens := (happens digest root_of show verify shapes cf).
  Notation history := (Consensus.history digest root_of show verify shapes cf).
  Notation along := (along digest root_of show verify shapes cf).
  Notation LK := (1, wenc_hash (LATEST_EPOCH_KEY digest)).
  Context (code : bytes) (qs : list (address * list (hash * N))).
  Context (He : root_of ∅ = hash_from_empty digest) (Hg : parsed_genesis (cf_genesis cf) code qs).
  Notation db_ok := (db_ok digest root_of (cf_chain_id cf) (cf_genesis cf) code qs).
  Notation ledger_ok := (ledger_ok digest (cf_chain_id cf) (cf_genesis cf) code qs).
  Notation ledger_or_none := (ledger_or_none digest (cf_chain_id cf) (cf_genesis cf) code qs).

  Definition exec_in (ms : list (gmap bytes bytes)) (x : executor) : Prop :=
    state_fits x /\ forall t, t ∈ tries_of x -> t ∈ ms.
  Definition step_in (ms : list (gmap bytes bytes)) (m : machine) (e : event) : Prop :=
    orders_ok m e /\ Forall (exec_in ms) (event_execs digest root_of show cf m e).

  Lemma step_in_along l : states_ok digest root_of show verify shapes cf l ->
    along (step_in (concat (map tries_of (execs_seen digest root_of show verify shapes cf (Down (∅, ∅)) l)))) (Down (∅, ∅)) l.
  Proof.
    intros [Ho Hf _]. set (ms := concat _).
    assert (forall x, x ∈ execs_seen digest root_of show verify shapes cf (Down (∅, ∅)) l -> exec_in ms x) as Hin.
    { intros x Hx. rewrite Forall_forall in Hf. split; [apply Hf, Hx|]. intros t Ht. unfold ms.
      apply elem_of_list_In, in_concat. exists (tries_of x). split; [|apply elem_of_list_In, Ht].
      apply in_map, elem_of_list_In, Hx. }
    clear Hf. revert Ho Hin. generalize ms. clear ms. generalize (Down (∅, ∅)) as m.
    induction l as [|e l IH]; intros m ms Ho Hin; cbn [ConsSpec.along execs_seen] in *; [exact I|]. destruct Ho as [H1 H2]. split.
    - split; [exact H1|]. apply Forall_forall. intros x Hx. apply Hin, elem_of_app. left; exact Hx.
    - apply IH; [exact H2|]. intros x Hx. apply Hin, elem_of_app. right; exact Hx.
  Qed.

  (** A root under which the disk holds the whole ledger. *)
  Definition good_root (tr : gmap hash (gmap bytes bytes)) (r : hash) : Prop :=
    exists T A B, r = root_of T /\ ExecChain.holds root_of tr (root_of T) T A B /\
      map_Forall (fun _ v => fits (enc_account v)) A /\ map_Forall (fun _ v => fits (enc_asset v)) B /\ ledger_ok A B.
  Lemma good_root_mono (tr tr' : gmap hash (gmap bytes bytes)) r : tr ⊆ tr' -> good_root tr r -> good_root tr' r.
  Proof.
    intros Hs (T & A & B & -> & H & R). exists T, A, B. split; [reflexivity|]. split; [eapply holds_mono; eauto|exact R].
  Qed.
  Lemma good_root_open (ms : list (gmap bytes bytes)) (tr : gmap hash (gmap bytes bytes)) r ch e p cb : clash_free root_of (∅ :: ms) -> db_ok ms tr -> good_root tr r ->
    exists y, Executor.from_root digest ch r tr e p cb = Ok y /\ ledger_ok (committed y) (committed_assets y).
  Proof.
    intros Hc Hd (T & A & B & -> & H & FA & FB & HL). eexists. split; [eapply from_root_holds; eauto|exact HL].
    eapply clash_sub; [|exact Hc]. intros m Hm. apply elem_of_cons in Hm as [->|Hm]; [left|].
    apply elem_of_list_singleton in Hm as ->. right. destruct H as (_ & H1 & _). destruct (Hd _ _ H1) as (_ & Hm & _). exact Hm.
  Qed.

  Lemma commit_ok (ms : list (gmap bytes bytes)) (tr : gmap hash (gmap bytes bytes)) x' first : clash_free root_of (∅ :: ms) -> db_ok ms tr -> exec_in ms x' ->
    ledger_or_none (committed x') (committed_assets x') ->
    x_db x' = db_of root_of first (enc_map account_schema (committed x')) (enc_map asset_schema (committed_assets x')) (x_trie x') tr ->
    ExecChain.holds root_of (x_db x') (root_of (x_trie x')) (x_trie x') (committed x') (committed_assets x') ->
    tr ⊆ (x_db x' : gmap hash (gmap bytes bytes)) /\ db_ok ms (x_db x') /\
    (ledger_ok (committed x') (committed_assets x') -> good_root (x_db x') (root_of (x_trie x'))).
  Proof.
    intros Hc Hd [[FA FB] Hin] HL E Hh.
    destruct (db_of_ok digest root_of (cf_chain_id cf) (cf_genesis cf) code qs ms first tr (x_trie x') (committed x') (committed_assets x'))
      as [Hs Hd']; try assumption.
    - eapply clash_sub; [|exact Hc]. intros; right; assumption.
    - apply Hin. left.
    - apply Hin. right. left.
    - apply Hin. right. right. left.
    - rewrite <- E. exact Hh.
    - rewrite <- E in Hs, Hd'. split; [exact Hs|]. split; [exact Hd'|]. intros HL'. exists (x_trie x'), (committed x'), (committed_assets x'). auto.
  Qed.

  Lemma executed_ok (ms : list (gmap bytes bytes)) (tr : gmap hash (gmap bytes bytes)) (os : nat -> iter_order) (root : hash) (id price : u64) (cb : address) (txs : list signed_tx) (resp : exec_resp) (tr' : gmap hash (gmap bytes bytes)) : clash_free root_of (∅ :: ms) -> db_ok ms tr ->
    (forall i, order_ok (os i)) -> Forall (exec_in ms) (run_block digest root_of show cf os root id price cb txs tr) ->
    executed digest root_of show cf os tr root id price cb txs resp tr' ->
    tr ⊆ tr' /\ db_ok ms tr' /\ (good_root tr root -> good_root tr' (er_state_root resp)).
  Proof.
    intros Hc Hd Hos Hin (x & x' & Hx & Hx' & ->). unfold run_block in Hin. rewrite Hx, Hx' in Hin.
    apply Forall_cons in Hin as [Hin _].
    destruct (open_cases digest root_of _ _ _ _ He _ _ _ _ _ _ _ _ Hc Hd Hx) as (Hf & Hch & Hdb & HL).
    destruct (exec_ledger digest root_of show (cf_chain_id cf) (cf_genesis cf) code qs os x txs resp x' Hos Hf Hch HL Hx') as [HL' HG].
    destruct (exec_db digest root_of show os x txs resp x' Hos Hf Hx') as [first Edb]. rewrite Hdb in Edb.
    pose proof (exec_holds digest root_of show os x txs resp x' Hos Hx') as Hh.
    assert (Hh' := Hh ltac:(eapply clash_sub; [|exact Hc]; intros m Hm; right; apply Hin, Hm)). clear Hh.
    assert (er_state_root resp = root_of (x_trie x')) as Er by (destruct Hh' as [E _]; exact E). rewrite Er in Hh' |- *.
    destruct (commit_ok ms tr x' first Hc Hd Hin HL' Edb Hh') as (H1 & H2 & H3). split; [exact H1|]. split; [exact H2|].
    intros Hgr. destruct (good_root_open ms tr root (cf_chain_id cf) id price cb Hc Hd Hgr) as (y & Hy & HLy).
    apply H3, HG. congruence.
  Qed.

  Lemma genesis_state_ok (ms : list (gmap bytes bytes)) (tr : gmap hash (gmap bytes bytes)) (o1 o2 : iter_order) (root : hash) (tr' : gmap hash (gmap bytes bytes)) : clash_free root_of (∅ :: ms) -> db_ok ms tr ->
    order_ok o1 -> order_ok o2 -> Forall (exec_in ms) (run_genesis digest root_of cf o1 o2 tr) ->
    genesis_state digest root_of cf o1 o2 tr = Ok (root, tr') ->
    tr ⊆ tr' /\ db_ok ms tr' /\ good_root tr' root.
  Proof.
    intros Hc Hd H1 H2 Hin. unfold genesis_state, run_genesis in *.
    assert (Hx : Executor.from_root digest (cf_chain_id cf) (hash_from_empty digest) tr (wrap64 0) (cf_price cf) (AUser (cf_self cf))
      = Ok (MkExec (cf_chain_id cf) (wrap64 0) (cf_price cf) (AUser (cf_self cf)) ∅ (ad_new ∅) (ad_new ∅) tr)).
    { unfold Executor.from_root. rewrite decide_True by reflexivity. cbn [rbind]. apply open_bare. split; apply lookup_empty. }
    rewrite Hx in *. cbn [map_err rbind]. set (x := MkExec _ _ _ _ _ _ _ _) in *.
    assert (Hf : fresh x) by (unfold fresh; cbn; auto).
    destruct (create_genesis digest root_of o1 o2 x (cf_genesis cf)) as [[r x']|e|] eqn:Ec; cbn [map_err rbind]; [|discriminate..].
    intros [= <- <-]. apply Forall_cons in Hin as [Hin _].
    destruct (genesis_ok digest root_of o1 o2 x (cf_genesis cf) code qs H1 H2 Hf eq_refl eq_refl Hg)
      as (c & r' & x'' & Hcc & Hg' & _ & _ & W & _ & _ & _ & T & _ & _ & A).
    assert (r' = r /\ x'' = x') as [-> ->] by (rewrite Ec in Hg'; injection Hg' as -> ->; auto).
    assert (HL : ledger_ok (committed x') (committed_assets x')).
    { split; [exact W|]. split; [exact T|]. exists c. split; [exact Hcc|]. rewrite A. apply lookup_singleton. }
    destruct (genesis_db digest root_of o1 o2 x (cf_genesis cf) r x' H1 H2 Hf eq_refl eq_refl Ec) as [first Edb].
    pose proof (genesis_holds digest root_of o1 o2 x (cf_genesis cf) r x' H2 Ec) as Hh.
    assert (Hh' := Hh ltac:(eapply clash_sub; [|exact Hc]; intros m Hm; right; apply Hin, Hm)). clear Hh.
    assert (r = root_of (x_trie x')) as -> by (destruct Hh' as [E _]; exact E).
    destruct (commit_ok ms tr x' first Hc Hd Hin (or_introl HL) Edb Hh') as (K1 & K2 & K3). auto.
  Qed.

  (** ** Every root on disk *)
  Lemma all_tries (P : gmap hash (gmap bytes bytes) -> Prop) m tr ws : P tr -> Forall (fun d : durable => P d.2) (persist_all (m, tr) ws).
  Proof. intros Hp. eapply Forall_impl; [apply persist_tries|]. intros d ->. exact Hp. Qed.

  Lemma db_history (ms : list (gmap bytes bytes)) l : clash_free root_of (∅ :: ms) -> along (step_in ms) (Down (∅, ∅)) l ->
    db_ok ms (disk (history l)).2.
  Proof.
    intros Hc Hs.
    assert (ConsInv.holds (fun d => db_ok ms d.2) (fun _ => True) (history l)) as H.
    2:{ destruct (history l); [exact H|apply H]. }
    refine (machine_inv _ _ _ _ _ _ (fun d => db_ok ms d.2) (fun _ => True) (step_in ms) _ _ _ _ _ _ l Hs).
    - intros n c k [A B]. split; [|exact B]. destruct c; exact A.
    - intros d o1 o2 k H. exact H.
    - intros r m H. cbn [snd] in H. rewrite lookup_empty in H. discriminate.
    - intros n c r n' t Hp _ [Ho Hin] E. split; [|exact I]. cbn [event_execs] in Hin.
      destruct (light_call c) eqn:L.
      { apply light_call_out in E as [_ ->]; [constructor|exact L]. }
      destruct c as [| | |id cm|os sent|msg first|os re rt]; try discriminate; clear L.
      + apply call_commit in E as [r1 E]. destruct E; [constructor|apply Forall_cons; split; [exact Hp|constructor]..].
      + apply call_rest in E as [r1 E]. destruct E as [|id p pf txs r1 Eb Hr1|id p pf txs resp tr' lo Eb Hx El]; [constructor..|].
        cbn [orders_ok] in Ho. unfold call_execs in Hin. rewrite Eb in Hin.
        destruct (executed_ok ms _ _ _ _ _ _ _ _ _ Hc Hp Ho Hin Hx) as (_ & Hd & _). apply Forall_cons; split; [exact Hd|].
        apply all_tries, Hd.
      + apply call_sync in E as [r1 [E ->]]. constructor.
      + apply call_sync_epoch in E as [r1 E].
        destruct E as [Hns|id rich ch sr Eb Hlt|id rich ch sr r1 Eb Hr1 Hre'|id rich ch sr r1 e Eb Hr1 -> Hl'|id rich ch sr e txs resp tr' Eb Hle -> -> Hl' Hx d1];
          [constructor|constructor|constructor|apply Forall_cons; split; [exact Hp|constructor]|].
        cbn [orders_ok] in Ho. unfold call_execs in Hin. rewrite Eb in Hin.
        destruct (executed_ok ms _ _ _ _ _ _ _ _ _ Hc Hp Ho Hin Hx) as (_ & Hd & _).
        apply Forall_cons; split; [exact Hp|]. apply Forall_cons; split; [exact Hd|]. apply all_tries, Hd.
    - intros d o1 o2 root tr Hp [[H1 H2] Hin] _ Eg. cbn [event_execs] in Hin.
      destruct (genesis_state_ok ms _ _ _ _ _ Hc Hp H1 H2 Hin Eg) as (_ & Hd & _). apply Forall_cons; split; [exact Hd|]. apply all_tries, Hd.
    - auto.
  Qed.

  Lemma no_inflation l ch r e p cb y : states_ok digest root_of show verify shapes cf l ->
    Executor.from_root digest ch r (disk (history l)).2 e p cb = Ok y ->
    ledger_or_none (committed y) (committed_assets y).
  Proof.
    intros Hok Hy. pose proof (step_in_along l Hok) as Hs. destruct Hok as [_ _ Hc].
    pose proof (db_history _ l Hc Hs) as Hd.
    exact (proj2 (proj2 (proj2 (open_cases digest root_of _ _ _ _ He _ _ _ _ _ _ _ _ Hc Hd Hy)))).
  Qed.

  (** ** Without synchronisation *)
  Definition latest_good (tr : gmap hash (gmap bytes bytes)) (m : db) : Prop :=
    forall b, m !! LK = Some b -> exists e, b = wenc_epoch e /\ fits (wenc_epoch e) /\ good_root tr (eh_state_root (ep_header e)).
  Definition node_good (n : node) : Prop :=
    good_root (nd_disk n).2 (cs_state_root (nd_status n)) /\
    match nd_busy n with
    | Idle => True
    | Committing id p pf txs => ep_ok digest (pl_epoch p) /\ good_root (nd_disk n).2 (eh_state_root (ep_header (pl_epoch p)))
    | Syncing _ _ _ _ => False
    end.

  Lemma latest_good_eq (tr : gmap hash (gmap bytes bytes)) (a b : db) : b !! LK = a !! LK -> latest_good tr a -> latest_good tr b.
  Proof. intros E H v. rewrite E. apply H. Qed.
  Lemma latest_good_mono (tr tr' : gmap hash (gmap bytes bytes)) (m : db) : tr ⊆ tr' -> latest_good tr m -> latest_good tr' m.
  Proof. intros Hs H b Hb. destruct (H b Hb) as (e & -> & Hf & Hr). exists e. split; [auto|]. split; [auto|]. eapply good_root_mono; eauto. Qed.
  Lemma latest_good_new (tr : gmap hash (gmap bytes bytes)) (m : db) (e : epoch) : ep_ok digest e -> good_root tr (eh_state_root (ep_header e)) -> latest_good tr (w_latest digest m e).
  Proof. intros [Hf _] Hr b. rewrite latest_LK. intros [= <-]. eauto. Qed.

  Lemma applied_good (tr : gmap hash (gmap bytes bytes)) (m : db) (e : epoch) (resp : exec_resp) (txs : list signed_tx) : ep_ok digest e -> good_root tr (eh_state_root (ep_header e)) -> latest_good tr m ->
    Forall (fun d : durable => latest_good tr d.1) (persist_all (m, tr) (applied_writes digest e resp txs)).
  Proof.
    intros Hep Hr Hm. apply (applied_forall digest (latest_good tr)); [|exact Hm|].
    - intros a b E. apply latest_good_eq, E.
    - intros a Ha.
      assert (latest_good tr (w_epoch a e)) as S3 by (apply (latest_good_eq tr m); [rewrite epoch_hashk; apply Ha|exact Hm]).
      split; [exact S3|]. split; [apply (latest_good_eq tr (w_epoch a e)); [apply index_LK, Hep|exact S3]|].
      apply latest_good_new; assumption.
  Qed.

  Lemma good_history ms l : clash_free root_of (∅ :: ms) -> epochs_ok digest root_of show verify shapes cf l ->
    along (step_in ms) (Down (∅, ∅)) l -> along never_syncs (Down (∅, ∅)) l -> along roots_agree (Down (∅, ∅)) l ->
    ConsInv.holds (fun d => db_ok ms d.2 /\ latest_good d.2 d.1) node_good (history l).
  Proof.
    intros Hc Hok Hs Hn Hr. apply epochs_ok_seen in Hok as [He' HLP].
    assert (forall m p, w_proof digest m p !! LK = m !! LK) as HPL by (intros; apply proof_LK, HLP).
    refine (machine_inv _ _ _ _ _ _ (fun d => db_ok ms d.2 /\ latest_good d.2 d.1) node_good
      (fun m e => (seen_ok digest root_of cf m e /\ step_in ms m e) /\ (never_syncs m e /\ roots_agree m e)) _ _ _ _ _ _ l _).
    7:{ apply along_and; apply along_and; assumption. }
    - intros n c k [[A [B C]] D]. split; [|exact D]. split; [exact A|]. split; [|exact C]. destruct c; exact B.
    - intros d o1 o2 k H. exact H.
    - split; [intros r m H|intros b H]; cbn [fst snd] in H; rewrite lookup_empty in H; discriminate.
    - intros n c r n' t [Hp Hl] [Hroot Hb] [[Hse [Ho Hin]] [Hns Hra]] E. cbn [event_execs] in Hin.
      destruct (light_call c) eqn:L.
      { apply light_call_out in E as [(p & x & -> & _) ->]; [|exact L]. split; [constructor|]. split; [exact Hroot|exact Hb]. }
      destruct c as [| | |id cm|os sent|msg first|os re rt]; try discriminate; try (destruct Hns; fail); clear L.
      + apply call_commit in E as [r1 E]. unfold seen_ok in Hse. cbn [event_epochs call_epochs] in Hse.
        apply Forall_cons in Hse as [Hep _]. cbn [roots_agree event_call] in Hra.
        assert (forall p, latest_good (nd_disk n).2 (w_proof digest (nd_disk n).1 p)) as Hpl
          by (intros p; apply (latest_good_eq _ (nd_disk n).1); [apply HPL|exact Hl]).
        destruct E as [r1 Hr1|eh r1 Hr1 Ei Eh|eh txs Ei Eh Eg].
        * split; [constructor|split; assumption].
        * split; [|split; [exact Hroot|exact Hb]]. apply Forall_cons; split; [|constructor].
          rewrite with_proof_db. split; [exact Hp|apply Hpl].
        * split; [|split; [exact Hroot|]].
          { apply Forall_cons; split; [|constructor]. rewrite with_proof_db. split; [exact Hp|apply Hpl]. }
          cbn [nd_busy set_busy]. split; [exact Hep|]. rewrite Hra. exact Hroot.
      + apply call_rest in E as [r1 E]. destruct E as [|id p pf txs r1 Eb Hr1|id p pf txs resp tr' lo Eb Hx El].
        * split; [constructor|split; assumption].
        * split; [constructor|]. split; [exact Hroot|exact I].
        * rewrite Eb in Hb. destruct Hb as [Hep Hr']. cbn [orders_ok] in Ho. unfold call_execs in Hin. rewrite Eb in Hin.
          destruct (executed_ok ms _ _ _ _ _ _ _ _ _ Hc Hp Ho Hin Hx) as (Hsub & Hd & Hgr).
          assert (latest_good tr' (nd_disk n).1) as Hl' by (eapply latest_good_mono; eauto).
          split; [|split; [exact (Hgr Hroot)|exact I]].
          apply Forall_cons; split; [split; [exact Hd|exact Hl']|].
          pose proof (applied_good tr' (nd_disk n).1 (pl_epoch p) resp txs Hep (good_root_mono _ _ _ Hsub Hr') Hl') as F1.
          pose proof (persist_tries (applied_writes digest (pl_epoch p) resp txs) ((nd_disk n).1, tr')) as F2.
          rewrite Forall_forall in F1, F2. apply Forall_forall. intros d Hd1. specialize (F1 d Hd1) as G1. specialize (F2 d Hd1) as G2.
          cbn beta in G1, G2. cbn [snd] in G2. rewrite G2. split; [exact Hd|exact G1].
    - intros d o1 o2 root tr [Hp Hl] [[Hse [[H1 H2] Hin]] _] _ Eg. cbn [event_execs] in Hin.
      unfold seen_ok in Hse. cbn [event_epochs disk] in Hse. rewrite Eg in Hse. apply Forall_cons in Hse as [Hep _].
      destruct (genesis_state_ok ms _ _ _ _ _ Hc Hp H1 H2 Hin Eg) as (Hsub & Hd & Hgr).
      assert (latest_good tr d.1) as Hl' by (eapply latest_good_mono; eauto).
      rewrite genesis_trace. cbn zeta. set (e := genesis_epoch digest cf root) in *.
      assert (latest_good tr (w_epoch d.1 e)) as S3 by (apply (latest_good_eq tr d.1); [apply epoch_hashk|exact Hl']).
      assert (latest_good tr (w_index digest (w_epoch d.1 e) e)) as S4
        by (apply (latest_good_eq tr (w_epoch d.1 e)); [apply index_LK, Hep|exact S3]).
      assert (latest_good tr (w_latest digest (w_index digest (w_epoch d.1 e) e) e)) as S5 by (apply latest_good_new; assumption).
      repeat (apply Forall_cons; split; [split; [exact Hd|cbn [fst snd]; try assumption]|]); [|apply Forall_nil; exact I].
      eapply latest_good_eq; [apply HPL|exact S5].
    - intros d n [_ Hl] Hn'. apply start_out in Hn' as (e & Hle & ->).
      assert (d.1 !! LK = Some (wenc_epoch e) /\ fits (wenc_epoch e)) as [Hk _].
      { apply read_latest_inv; [|exact Hle]. intros b Hb. destruct (Hl b Hb) as (e' & -> & Hf & _). eauto. }
      destruct (Hl _ Hk) as (e' & E & Hf & Hr'). split; [|exact I]. cbn [nd_disk nd_status start_status cs_state_root].
      assert (get_latest_epoch rocks_col digest d.1 = Ok e') as Hle' by (apply read_latest; [rewrite Hk, E; reflexivity|exact Hf]).
      assert (e' = e) as -> by congruence. exact Hr'.
  Qed.
End Run.

Lemma open_fresh digest ch r (d : trie_db) e p cb y : Executor.from_root digest ch r d e p cb = Ok y -> fresh y.
Proof.
  unfold Executor.from_root. destruct (if decide _ then _ else _) as [T|x|]; cbn [rbind]; [|discriminate..].
  destruct (gen_contract_state account_schema _ _ _) as [a|x|] eqn:Ea; cbn [rbind]; [|discriminate..].
  destruct (gen_contract_state asset_schema _ _ _) as [b|x|] eqn:Eb; cbn [rbind]; [|discriminate..]. intros [= <-].
  unfold gen_contract_state in Ea, Eb. apply rbind_ok in Ea as (c1 & _ & Ea). apply rbind_ok in Ea as (m1 & _ & [= <-]).
  apply rbind_ok in Eb as (c2 & _ & Eb). apply rbind_ok in Eb as (m2 & _ & [= <-]). unfold fresh. cbn. auto.
Qed.
Lemma fresh_get y a : fresh y -> StateAdapter.ad_get (x_acc y) a = committed y !! a.
Proof.
  intros (F1 & F2 & _). unfold StateAdapter.ad_get, committed. rewrite F1, F2, !lookup_empty. reflexivity.
Qed.
